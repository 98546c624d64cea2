(** Writes and seeks of any kind on files: C64 exactly, as far as writing goes. *)
From Coq Require Import NArith ZArith List Bool Lia.
From Coq Require Import ZifyBool ZifyNat ZifyN.
From Verif Require Import Base Integers ResourceSpec ResourceModel ResourceText FileSpec FileModel FileText.
From Verif Require Import ResourceLemmas ResourceLemmas2 FileLemmas FileLemmas2 FileLemmas3 FileLemmas4 FileLemmas6 FileProps.
From Verif Require Import CursorSpec CursorLemmas FileCursorSpec PenSpec FilePenSpec FilePenLemmas.
Import ListNotations.
Open Scope Z_scope.

(* ------------------------------------------------------------------- exactly *)

(** Every sequence of writes, flushes, set_position, go_back and go_forward by any amount, on
    every file, with every buffer and with none, does what the machine of FilePenSpec
    does, on both platforms: it says what is on the disk and what the calls report, where the
    file stands, and what is on the disk once the file is closed.  All other files stay as
    they are.  The operating system does what it is asked to. *)
Theorem C64_writes_exact : forall pl w q l m how cap xs p answers,
  disk w q = Some l \/ disk w q = None /\ how = Create /\ l = [] -> len l < 2 ^ 63 ->
  obliging w -> Z.of_nat cap <= chunk_max pl -> mode_writes m = true ->
  forallb for_output xs = true -> (forall d, In (Write d) xs -> len d <= chunk_max pl) ->
  let clamped := match pl with UnixLike => true | Windows => false end in
  file_strokes clamped (Z.of_nat cap) (fresh_pen l) xs = Some (p, answers) ->
  exists f f', new_file pl w q m how cap = Ok f /\ run_file pl f xs = Ok (f', map Returned answers) /\
    disk_of f' q = Some (page p) /\ (forall x, x <> q -> disk_of f' x = disk w x) /\
    file_position pl f' = Ok (wrap (spot p + len (waits p))) /\
    file_is_at_end pl f' = Ok (wrap (spot p + len (waits p)) =? len (page p)) /\
    forall p', file_delivered p = Some p' ->
      exists f'', file_close pl f' = Ok f'' /\ is_open f'' = false /\ disk_of f'' q = Some (page p') /\
        (forall x, x <> q -> disk_of f'' x = disk w x).
Proof.
  intros pl w q l m how cap xs p answers D L B M Mw W G clamped E. change clamped with (clamps_at pl) in E. clear clamped.
  destruct (new_file_opens pl w q l m how cap D L B M) as (f & Ef & Pa & B1 & K).
  assert (A := fresh_page pl (Z.of_nat cap) q m _ l f Mw (Zle_0_nat cap) K B1). assert (Mf : mode f = m) by apply K.
  destruct (file_strokes_run pl (Z.of_nat cap) q _ _ xs _ f p answers ltac:(now rewrite Mf) A W G E) as (f' & X & Pf & A').
  exists f, f'. split; [exact Ef|]. split; [exact X|].
  split; [apply (fp_open _ _ _ _ _ _ _ A')|]. split; [apply (fp_others _ _ _ _ _ _ _ A')|].
  assert (Po : file_position pl f' = Ok (wrap (spot p + len (waits p)))).
  { destruct A' as [[(k & h & Lk & H1 & H2 & H3 & H4) Dk] Kc Mo Bo Di Bp Me F Z0 R Sz Ot].
    unfold file_position, sys_seek. rewrite Lk, H4, Z.add_0_r. replace ((0 <=? spot p) && (spot p <? 2 ^ 63)) with true by lia.
    cbn [snd]. rewrite Bp, convert_wrap. now destruct pl. }
  split; [exact Po|]. split.
  - unfold file_is_at_end. rewrite Po. cbn [bind]. rewrite Pf, Pa.
    assert (Dk : disk (os (inner (res f'))) q = Some (page p)) by apply (fp_open _ _ _ _ _ _ _ A'). rewrite Dk. f_equal. change size_of with len.
    pose proof (wrap_range (spot p + len (waits p))) as H. pose proof (len_nonneg (page p)) as H0. pose proof (fp_size _ _ _ _ _ _ _ A') as H1.
    unfold as_size. clear - H H0 H1. set (x := wrap (spot p + len (waits p))) in *. clearbody x. destruct (x <? 0) eqn:Q; lia.
  - intros p' Dl. exact (page_close _ _ _ _ _ _ _ _ A' Dl).
Qed.
Print Assumptions C64_writes_exact.

(** Eight bytes and a buffer of four, on a Unix-like system: the two bytes that wait are written
    three bytes further on, a seek to before the beginning is refused where it is a go_back and
    leads to the beginning where it is a set_position; and a hole. *)
Example C64_writes_exact_meets :
  let l := [1; 2; 3; 4; 5; 6; 7; 8]%N in
  let xs := [Write [50; 51]%N; GoForward 3; Flush; GoBack 99; Write [52]%N; SetPosition (-7) Begin; Write [53; 54; 55; 56; 57]%N;
             SetPosition 3 End; Write [58]%N] in
  disk (sample []) 1 = Some l /\ forallb for_output xs = true /\
  file_strokes true 4 (fresh_pen l) xs = Some (Pen [53; 54; 55; 56; 57; 52; 7; 8]%N 11 (Some [58]%N),
    [Wrote 2; Done; Done; Done; Wrote 1; Done; Wrote 5; Done; Wrote 1]) /\
  file_delivered (Pen [53; 54; 55; 56; 57; 52; 7; 8]%N 11 (Some [58]%N))
  = Some (Pen [53; 54; 55; 56; 57; 52; 7; 8; 0; 0; 0; 58]%N 12 None).
Proof. vm_compute. repeat split; reflexivity. Qed.

(* ------------------------------------------------------------ what that means *)

(** Bytes that wait in the buffer are written where go_forward leads to, not where they were
    written.  An obliging file would hold put l 0 d. *)
Theorem C64_waiting_moves : forall pl w q l m how cap d n,
  disk w q = Some l \/ disk w q = None /\ how = Create /\ l = [] -> len l < 2 ^ 63 ->
  obliging w -> Z.of_nat cap <= chunk_max pl -> mode_writes m = true ->
  0 < Z.of_nat cap -> len d <= Z.of_nat cap -> 0 <= n -> n + len d < 2 ^ 63 ->
  exists f f' f'', new_file pl w q m how cap = Ok f /\
    run_file pl f [Write d; GoForward n] = Ok (f', map Returned [Wrote (len d); Done]) /\
    disk_of f' q = Some l /\ file_close pl f' = Ok f'' /\ disk_of f'' q = Some (put l n d).
Proof.
  intros pl w q l m how cap d n D L B M Mw C Ld Hn Hs. pose proof (len_nonneg d).
  set (c := match pl with UnixLike => true | Windows => false end).
  assert (E : file_strokes c (Z.of_nat cap) (fresh_pen l) [Write d; GoForward n] = Some (Pen l n (Some d), [Wrote (len d); Done])).
  { unfold file_strokes, file_stroke, file_put_down, fresh_pen, waits, file_moved, file_sought. cbn [waiting page spot place app].
    change (len []) with 0. rewrite !Z.add_0_l. replace (Z.of_nat cap =? 0) with false by lia.
    replace (Z.of_nat cap <? len d) with false by lia. cbn [waiting page spot place].
    rewrite Z.add_0_l. replace ((0 <=? n) && (n <? 2 ^ 63)) with true by lia. reflexivity. }
  assert (G : forall x, In (Write x) [Write d; GoForward n] -> len x <= chunk_max pl).
  { intros x [X|[X|[]]]; [injection X as <-; lia|discriminate]. }
  destruct (C64_writes_exact pl w q l m how cap [Write d; GoForward n] _ _ D L B M Mw eq_refl G E) as (f & f' & E1 & E2 & E3 & _ & _ & _ & E4).
  assert (Dl : file_delivered (Pen l n (Some d)) = Some (Pen (put l n d) (n + len d) None)).
  { unfold file_delivered, file_inked. cbn [waiting page spot]. replace (n + len d <? 2 ^ 63) with true by lia. reflexivity. }
  destruct (E4 _ Dl) as (f'' & X & _ & Y & _). exists f, f', f''. auto.
Qed.
Print Assumptions C64_waiting_moves.

Example C64_waiting_moves_meets :
  disk (sample []) 1 = Some [1; 2; 3; 4; 5; 6; 7; 8]%N /\ obliging (sample []) /\ Z.of_nat 4 <= chunk_max UnixLike /\
  put [1; 2; 3; 4; 5; 6; 7; 8]%N 3 [50; 51]%N = [1; 2; 3; 50; 51; 6; 7; 8]%N /\
  put [1; 2; 3; 4; 5; 6; 7; 8]%N 0 [50; 51]%N = [50; 51; 3; 4; 5; 6; 7; 8]%N.
Proof. split; [reflexivity|]. split; [constructor|]. split; [vm_compute; discriminate|]. split; reflexivity. Qed.

Lemma file_strokes_grow : forall c cap xs p q a, 0 <= spot p -> file_strokes c cap p xs = Some (q, a) ->
  0 <= spot q /\ len (page p) <= len (page q).
Proof.
  intros c cap.
  assert (I : forall p d q, 0 <= spot p -> file_inked p d = Some q -> 0 <= spot q /\ len (page p) <= len (page q)).
  { intros p d q H E. unfold file_inked in E. destruct (spot p + len d <? 2 ^ 63); [|discriminate]. injection E as <-. cbn [spot page].
    pose proof (len_nonneg d). rewrite len_put by lia. destruct (len d =? 0); lia. }
  assert (D : forall p q, 0 <= spot p -> file_delivered p = Some q -> 0 <= spot q /\ len (page p) <= len (page q)).
  { intros p q H E. unfold file_delivered in E. destruct (waiting p) as [d|]; [exact (I (Pen (page p) (spot p) None) d q H E)|injection E as <-; lia]. }
  assert (M : forall p n o, 0 <= spot p -> 0 <= spot (file_moved c p n o)).
  { intros p n o H. unfold file_moved, file_sought. cbn [spot place].
    match goal with |- context [if ?b then _ else _] => destruct b eqn:Q end; lia. }
  induction xs as [|x xs IH]; intros p q a H E; cbn [file_strokes] in E; [injection E as <- _; lia|].
  destruct (file_stroke c cap p x) as [[p' b]|] eqn:St; [|discriminate].
  destruct (file_strokes c cap p' xs) as [[q' l]|] eqn:R; [|discriminate]. injection E as <- _.
  enough (X : 0 <= spot p' /\ len (page p) <= len (page p')) by (destruct X as [X1 X2]; destruct (IH p' q' l X1 R); lia).
  destruct x as [blk n|d| |n o|n|n]; cbn [file_stroke] in St.
  - injection St as <- _. lia.
  - destruct (file_put_down cap p d) as [p1|] eqn:P; [|discriminate]. injection St as <- _. unfold file_put_down in P.
    destruct (cap =? 0); [now apply I in P|].
    destruct (if cap <? len (waits p) + len d then file_delivered p else Some p) as [p2|] eqn:Q; [|discriminate].
    assert (H2 : 0 <= spot p2 /\ len (page p) <= len (page p2)) by (destruct (cap <? len (waits p) + len d); [now apply D in Q|injection Q as <-; lia]).
    destruct (cap <? len d); [apply I in P; lia|]. injection P as <-. exact H2.
  - destruct (file_delivered p) as [p1|] eqn:P; [|discriminate]. injection St as <- _. now apply D in P.
  - destruct (file_delivered p) as [p1|] eqn:P; [|discriminate]. injection St as <- _. apply D in P; [|exact H].
    split; [apply M; lia|apply P].
  - injection St as <- _. split; [now apply M|cbn [file_moved page]; lia].
  - injection St as <- _. split; [now apply M|cbn [file_moved page]; lia].
Qed.

(** Nothing makes a file shorter. *)
Theorem C64_never_shorter : forall pl w q l m how cap xs p answers,
  disk w q = Some l \/ disk w q = None /\ how = Create /\ l = [] -> len l < 2 ^ 63 ->
  obliging w -> Z.of_nat cap <= chunk_max pl -> mode_writes m = true ->
  forallb for_output xs = true -> (forall d, In (Write d) xs -> len d <= chunk_max pl) ->
  file_strokes (match pl with UnixLike => true | Windows => false end) (Z.of_nat cap) (fresh_pen l) xs = Some (p, answers) ->
  exists f f' l', new_file pl w q m how cap = Ok f /\ run_file pl f xs = Ok (f', map Returned answers) /\
    disk_of f' q = Some l' /\ len l <= len l'.
Proof.
  intros pl w q l m how cap xs p answers D L B M Mw W G E.
  destruct (C64_writes_exact pl w q l m how cap xs p answers D L B M Mw W G E) as (f & f' & E1 & E2 & E3 & _).
  exists f, f', (page p). split; [exact E1|]. split; [exact E2|]. split; [exact E3|].
  exact (proj2 (file_strokes_grow _ _ _ (fresh_pen l) _ _ (Z.le_refl 0) E)).
Qed.
Print Assumptions C64_never_shorter.

Example C64_never_shorter_meets : exists p answers,
  file_strokes true 2 (fresh_pen [1; 2; 3]%N) [SetPosition 5 Begin; Write [9; 9]%N; Flush; GoBack 6; Write [8]%N; Flush]
  = Some (p, answers) /\ page p = [1; 8; 3; 0; 0; 9; 9]%N.
Proof. do 2 eexists. split; vm_compute; reflexivity. Qed.
