(** Two objects on one file do what the machine of HandsSpec does. *)
From Coq Require Import NArith ZArith List Bool Lia.
From Coq Require Import ZifyBool ZifyNat ZifyN.
From Verif Require Import Base Integers ResourceSpec ResourceModel ResourceText FileSpec FileModel FileText.
From Verif Require Import ResourceLemmas ResourceLemmas2 FileLemmas FileLemmas2 FileLemmas3 FileLemmas4 FileLemmas6 FollowLemmas.
From Verif Require Import CursorSpec CursorLemmas FileCursorSpec FileCursorLemmas PenSpec FilePenSpec FilePenLemmas HandsSpec.
Import ListNotations.
Open Scope Z_scope.

(* ----------------------------------------- what the system does from now on *)

(** Nothing is added to what the system will do. *)
Definition fewer (s s' : sys) : Prop := forall P : response -> Prop, Forall P (script (os s)) -> Forall P (script (os s')).

Definition fewer_world (w w' : world) : Prop := forall P : response -> Prop, Forall P (script w) -> Forall P (script w').

Lemma fewer_refl : forall s, fewer s s.
Proof. intros s P H. exact H. Qed.

Lemma fewer_trans : forall a b c, fewer a b -> fewer b c -> fewer a c.
Proof. intros a b c H1 H2 P H. apply H2, H1, H. Qed.

Lemma sys_read_fewer : forall w fd n, fewer_world w (fst (sys_read w fd n)).
Proof.
  intros w fd n P H. unfold sys_read. destruct (lookup w fd) as [[k h]|]; [|exact H]. destruct (readable h); [|exact H].
  rewrite respond_eq. cbv zeta. destruct (response_now w); cbn [fst set_handle script]; now apply Forall_tl.
Qed.

Lemma sys_write_fewer : forall w fd d, fewer_world w (fst (sys_write w fd d)).
Proof.
  intros w fd d P H. unfold sys_write. destruct (lookup w fd) as [[k h]|]; [|exact H]. destruct (writable h); [|exact H].
  rewrite respond_eq. cbv zeta. destruct (response_now w); cbn [fst set_handle set_content script]; now apply Forall_tl.
Qed.

Lemma sys_seek_fewer : forall w fd n pr, fewer_world w (fst (sys_seek w fd n pr)).
Proof.
  intros w fd n pr P H. unfold sys_seek. destruct (lookup w fd) as [[k h]|]; [|exact H].
  match goal with |- context [if ?b then _ else _] => destruct b end; exact H.
Qed.

Lemma unix_block_fewer : forall fuel w fd dst off n t w' dst' k,
  unix_block fuel w fd dst off n t = Ok (w', dst', k) -> fewer_world w w'.
Proof.
  induction fuel as [|fuel IH]; intros w fd dst off n t w' dst' k H; [discriminate|]. cbn [unix_block] in H.
  pose proof (sys_read_fewer w fd n) as T. destruct (sys_read w fd n) as [w1 [[|x d]|]]; cbn [fst] in T.
  - injection H as <- _ _. assumption.
  - destruct (blit dst off (x :: d)) as [dst1| | | |]; cbn [bind] in H; try discriminate.
    destruct (t + size_of (x :: d) =? n); [injection H as <- _ _; assumption|].
    intros P F. eapply IH; [exact H|]. now apply T.
  - injection H as <- _ _. assumption.
Qed.

Lemma windows_block_fewer : forall fuel w fd dst off n t w' dst' k,
  windows_block fuel w fd dst off n t = Ok (w', dst', k) -> fewer_world w w'.
Proof.
  induction fuel as [|fuel IH]; intros w fd dst off n t w' dst' k H; [discriminate|]. cbn [windows_block] in H.
  pose proof (sys_read_fewer w fd (n - t)) as T. destruct (sys_read w fd (n - t)) as [w1 [d|]]; cbn [fst] in T.
  - destruct (blit dst (off + t) d) as [dst1| | | |]; cbn [bind] in H; try discriminate.
    destruct ((size_of d =? 0) || (t + size_of d =? n)); [injection H as <- _ _; assumption|].
    intros P F. eapply IH; [exact H|]. now apply T.
  - injection H as <- _ _. assumption.
Qed.

Lemma read_blocks_fewer : forall pl fuel w fd dst off n t w' dst' k,
  read_blocks pl fuel w fd dst off n t = Ok (w', dst', k) -> fewer_world w w'.
Proof.
  intros pl. induction fuel as [|fuel IH]; intros w fd dst off n t w' dst' k H; cbn [read_blocks] in H;
    destruct (n <=? 0); try discriminate; try (injection H as <- _ _; now intros P F).
  destruct (read_block pl w fd dst off (Z.min n (chunk_max pl))) as [[[w1 d1] k1]| | | |] eqn:E; cbn [bind] in H; try discriminate.
  assert (T : fewer_world w w1).
  { unfold read_block in E. destruct pl; [eapply unix_block_fewer; exact E|eapply windows_block_fewer; exact E]. }
  destruct (k1 =? Z.min n (chunk_max pl)); [|injection H as <- _ _; assumption].
  intros P F. eapply IH; [exact H|]. now apply T.
Qed.

Lemma write_blocks_fewer : forall pl fuel w fd d n t w' k,
  write_blocks pl fuel w fd d n t = Ok (w', k) -> fewer_world w w'.
Proof.
  intros pl. induction fuel as [|fuel IH]; intros w fd d n t w' k H; cbn [write_blocks] in H;
    destruct (n <=? 0); try discriminate; try (injection H as <- _; now intros P F).
  pose proof (sys_write_fewer w fd (firstn (Z.to_nat (Z.min n (chunk_max pl))) d)) as T.
  destruct (sys_write w fd (firstn (Z.to_nat (Z.min n (chunk_max pl))) d)) as [w1 r]. cbn [fst] in T.
  match type of H with (if ?b then _ else _) = _ => destruct b end; [|injection H as <- _; assumption].
  intros P F. eapply IH; [exact H|]. now apply T.
Qed.

Lemma seek_raw_fewer : forall pl s n pr, fewer s (seek_raw pl s n pr).
Proof. intros. unfold seek_raw, fewer. cbn [os]. apply sys_seek_fewer. Qed.

Lemma file_read_raw_fewer : forall pl s dst off n rr s' dst' k,
  file_read_raw pl s dst off n rr = Ok (s', dst', k) -> fewer s s'.
Proof.
  intros pl s dst off n rr s' dst' k H. unfold file_read_raw in H.
  set (s1 := match rr with FillBuffer => _ | LeanRetrieval => _ end) in H.
  assert (T1 : fewer s s1).
  { unfold s1. destruct rr; [apply fewer_refl|]. destruct (0 <? filled_last s); [apply seek_raw_fewer|apply fewer_refl]. }
  destruct (read_blocks pl (chunk_count pl n) (os s1) (descriptor s1) dst off n 0) as [[[w1 d1] k1]| | | |] eqn:E; cbn [bind] in H; try discriminate.
  apply read_blocks_fewer in E. injection H as <- _ _.
  assert (T2 : fewer s (Sys w1 (descriptor s1) (filled_last s1))).
  { eapply fewer_trans; [exact T1|]. exact E. }
  destruct rr; [assumption|]. eapply fewer_trans; [exact T2|].
  exact (seek_raw_fewer pl (Sys w1 (descriptor s1) (filled_last s1)) (- k1) FromCurrent).
Qed.

Lemma file_write_raw_fewer : forall pl s d s' k, file_write_raw pl s d = Ok (s', k) -> fewer s s'.
Proof.
  intros pl s d s' k H. unfold file_write_raw in H.
  destruct (write_blocks pl (chunk_count pl (size_of d)) (os s) (descriptor s) d (size_of d) 0) as [[w1 k1]| | | |] eqn:E; cbn [bind] in H; try discriminate.
  injection H as <- _. exact (write_blocks_fewer _ _ _ _ _ _ _ _ _ E).
Qed.

Lemma call_file_fewer : forall pl f c f' a, call_file pl f c = Ok (f', a) -> fewer (inner (res f)) (inner (res f')).
Proof.
  intros pl f c f' a H. destruct c as [block n|data| |n o|n|n]; cbn [call_file] in H.
  - destruct (file_read pl f block n) as [[f1 r]| | | |] eqn:E; cbn [bind] in H; try discriminate. injection H as <- _.
    unfold file_read in E. destruct (mode f).
    1,3: destruct (read (file_ops pl) (res f) block n) as [[[r1 d1] k1]| | | |] eqn:X; cbn [bind] in E; try discriminate;
      injection E as <- _; cbn [res]; exact (read_kept (file_ops pl) fewer fewer_refl fewer_trans (file_read_raw_fewer pl) _ _ _ _ _ _ X).
    injection E as <- _. apply fewer_refl.
  - destruct (file_write pl f data) as [[f1 r]| | | |] eqn:E; cbn [bind] in H; try discriminate. injection H as <- _.
    unfold file_write in E. destruct (mode f).
    1: injection E as <- _; apply fewer_refl.
    all: destruct (write (file_ops pl) (res f) data) as [[r1 k1]| | | |] eqn:X; cbn [bind] in E; try discriminate;
      injection E as <- _; cbn [res]; exact (write_kept (file_ops pl) fewer fewer_refl fewer_trans (file_write_raw_fewer pl) _ _ _ _ X).
  - unfold file_flush in H. destruct (flush (file_ops pl) (res f)) as [r| | | |] eqn:E; cbn [bind] in H; try discriminate. injection H as <- _.
    cbn [res]. exact (flush_kept (file_ops pl) fewer fewer_refl (file_write_raw_fewer pl) _ _ E).
  - unfold file_seek in H. destruct (flush (file_ops pl) (res f)) as [r| | | |] eqn:E; cbn [bind noexcept] in H; try discriminate. injection H as <- _.
    cbn [res inner]. eapply fewer_trans; [exact (flush_kept (file_ops pl) fewer fewer_refl (file_write_raw_fewer pl) _ _ E)|apply seek_raw_fewer].
  - injection H as <- _. cbn [file_go res inner]. apply seek_raw_fewer.
  - injection H as <- _. cbn [file_go res inner]. apply seek_raw_fewer.
Qed.

(* ------------------------------------------------------------------- one object *)

(** The object f is as h says, and the file has the bytes l. *)
Definition held_by (pl : platform) (cap : Z) (q : N) (l : list N) (h : hand) (f : file) : Prop :=
  match h with
  | Writing s k => mode_writes (mode f) = true /\ exists rd others, at_page pl cap q rd others (Pen l s k) (res f)
  | Reading c => mode_reads (mode f) = true /\ exists wr, at_place pl cap q wr l c (res f)
  end.

Lemma held_disk : forall pl cap q l h f, held_by pl cap q l h f -> disk_of f q = Some l.
Proof.
  intros pl cap q l [s k|c] f H; cbn [held_by] in H.
  - destruct H as (_ & rd & others & A). apply (fp_open _ _ _ _ _ _ _ A).
  - destruct H as (_ & wr & A). apply (ap_open _ _ _ _ _ _ _ A).
Qed.

Lemma held_name : forall pl cap q l h f, held_by pl cap q l h f ->
  option_map (fun x => file_name (snd x)) (lookup (os (inner (res f))) (descriptor (inner (res f)))) = Some q.
Proof.
  intros pl cap q l [s k|c] f H; cbn [held_by] in H.
  - destruct H as (_ & rd & others & [[(n & x & L & E & _) _] _ _ _ _ _ _ _ _ _ _ _]). rewrite L. cbn. now rewrite E.
  - destruct H as (_ & wr & [[(n & x & L & E & _) _] _ _ _ _ _ _ _ _ _ _ _ _ _]). rewrite L. cbn. now rewrite E.
Qed.

(** The other object has done something to the file. *)
Lemma held_other : forall pl cap q l l' h w w' f k, held_by pl cap q l h (in_world w f) ->
  descriptor (inner (res f)) = Some k -> table w' k = table w k -> disk w' q = Some l' -> len l <= len l' -> len l' < 2 ^ 62 ->
  obliging w' -> held_by pl cap q l' h (in_world w' f).
Proof.
  intros pl cap q l l' h w w' f k H D T Dk L1 L2 Ob. destruct h as [s kp|c]; cbn [held_by] in *.
  - destruct H as (M & rd & others & [[(n & x & L & E) _] K Mo B Di Bp Me F Z0 R Sz Ot]). split; [exact M|]. exists rd, (disk w').
    cbn [in_world with_sys res inner buf os descriptor filled_last page spot waiting] in *.
    constructor; cbn [in_world with_sys res inner buf os descriptor filled_last page spot waiting waits] in *; auto; try lia.
    constructor; cbn [os descriptor]; [|exact Dk]. exists n, x. split; [|exact E]. rewrite D in *. unfold lookup in *. now rewrite T.
  - destruct H as (M & wr & [[(n & x & L & E) _] Ls K Mo Qu St Kp U Bd Fr Ba Id R Me]). split; [exact M|]. exists wr.
    cbn [in_world with_sys res inner buf os descriptor filled_last] in *.
    constructor; cbn [in_world with_sys res inner buf os descriptor filled_last]; auto.
    + constructor; cbn [os descriptor]; [|exact Dk]. exists n, x. split; [|exact E]. rewrite D in *. unfold lookup in *. now rewrite T.
    + exact (obliging_short pl w' Ob).
    + intros N. destruct (Fr N). lia.
Qed.

Lemma stroke_grows : forall c cap p x q a, 0 <= spot p -> file_stroke c cap p x = Some (q, a) -> len (page p) <= len (page q).
Proof.
  intros c cap.
  assert (I : forall p d q, 0 <= spot p -> file_inked p d = Some q -> 0 <= spot q /\ len (page p) <= len (page q)).
  { intros p d q H E. unfold file_inked in E. destruct (spot p + len d <? 2 ^ 63); [|discriminate]. injection E as <-. cbn [spot page].
    pose proof (len_nonneg d). rewrite len_put by lia. destruct (len d =? 0); lia. }
  assert (D : forall p q, 0 <= spot p -> file_delivered p = Some q -> 0 <= spot q /\ len (page p) <= len (page q)).
  { intros p q H E. unfold file_delivered in E. destruct (waiting p) as [d|]; [exact (I (Pen (page p) (spot p) None) d q H E)|injection E as <-; lia]. }
  intros p x q a H E. destruct x as [blk n|d| |n o|n|n]; cbn [file_stroke] in E.
  - injection E as <- _. lia.
  - destruct (file_put_down cap p d) as [p1|] eqn:P; [|discriminate]. injection E as <- _. unfold file_put_down in P.
    destruct (cap =? 0); [now apply I in P|].
    destruct (if cap <? len (waits p) + len d then file_delivered p else Some p) as [p2|] eqn:Q; [|discriminate].
    assert (H2 : 0 <= spot p2 /\ len (page p) <= len (page p2)) by (destruct (cap <? len (waits p) + len d); [now apply D in Q|injection Q as <-; lia]).
    destruct (cap <? len d); [apply I in P; lia|]. injection P as <-. apply H2.
  - destruct (file_delivered p) as [p1|] eqn:P; [|discriminate]. injection E as <- _. now apply D in P.
  - destruct (file_delivered p) as [p1|] eqn:P; [|discriminate]. injection E as <- _. apply D in P; [|exact H]. apply P.
  - injection E as <- _. cbn [file_moved page]. lia.
  - injection E as <- _. cbn [file_moved page]. lia.
Qed.

Lemma hand_step : forall pl cap q l h f x l' h' a, held_by pl cap q l h f -> 0 <= cap -> obliging (os (inner (res f))) -> len l < 2 ^ 62 ->
  suits (for_writing h) x = true -> in_one_transfer (chunk_max pl) x ->
  hand_turn (clamps_at pl) cap l h x = Some (l', h', a) ->
  exists f', call_file pl f x = Ok (f', Returned a) /\ held_by pl cap q l' h' f' /\ for_writing h' = for_writing h /\
    len l <= len l' /\ len l' < 2 ^ 62 /\ path f' = path f.
Proof.
  intros pl cap q l h f x l' h' a H C Ob L S G E. destruct h as [s k|c]; cbn [held_by hand_turn for_writing] in *.
  - destruct H as (M & rd & others & A). destruct (file_stroke (clamps_at pl) cap (Pen l s k) x) as [[p b]|] eqn:F; [|discriminate].
    destruct (len (page p) <? 2 ^ 62) eqn:Q; [|discriminate]. injection E as <- <- <-.
    destruct (file_stroke_step pl cap q rd others (Pen l s k) f x p b M A) as (f' & X & P' & M' & A'); try assumption.
    { intros d ->. exact G. }
    exists f'. split; [exact X|]. cbn [held_by for_writing]. rewrite M'. split.
    { split; [exact M|]. exists rd, others. destruct p. exact A'. }
    split; [reflexivity|]. split; [|split; [lia|exact P']].
    pose proof (fp_range _ _ _ _ _ _ _ A) as R. cbn [spot] in R.
    apply (stroke_grows (clamps_at pl) cap (Pen l s k) x p b); [cbn [spot]; lia|exact F].
  - destruct H as (M & wr & A). destruct (file_turn (clamps_at pl) cap l c x) as [c1 b] eqn:F. injection E as <- <- <-.
    destruct (file_turn_step pl cap q wr l c f x C M A L) as (f' & X & P' & M' & A').
    { destruct x; try reflexivity; discriminate S. }
    { intros b0 n ->. exact G. }
    change (clamps pl) with (clamps_at pl) in *. rewrite F in *. cbn [fst snd] in *.
    exists f'. split; [exact X|]. cbn [held_by for_writing]. rewrite M'. split; [split; [exact M|now exists wr]|].
    split; [reflexivity|]. split; [lia|]. split; [lia|exact P'].
Qed.

(* --------------------------------------------------------------------- both *)

Lemma two_hands_run : forall pl cap1 cap2 q xs w f g l h1 h2 k1 k2 l' h1' h2' la lb, 0 <= cap1 -> 0 <= cap2 ->
  held_by pl cap1 q l h1 (in_world w f) -> held_by pl cap2 q l h2 (in_world w g) ->
  descriptor (inner (res f)) = Some k1 -> descriptor (inner (res g)) = Some k2 -> k1 <> k2 -> obliging w -> len l < 2 ^ 62 ->
  Forall (fun x : bool * call => suits (for_writing (if fst x then h1 else h2)) (snd x) = true /\ in_one_transfer (chunk_max pl) (snd x)) xs ->
  two_hands (clamps_at pl) cap1 cap2 l h1 h2 xs = Some (l', h1', h2', la, lb) ->
  exists w' f' g', run_two pl w f g xs = Ok (w', f', g', map Returned la, map Returned lb) /\
    held_by pl cap1 q l' h1' (in_world w' f') /\ held_by pl cap2 q l' h2' (in_world w' g') /\
    disk w' q = Some l' /\ (forall x, x <> q -> disk w' x = disk w x) /\ len l' < 2 ^ 62 /\
    path f' = path f /\ path g' = path g.
Proof.
  intros pl cap1 cap2 q. induction xs as [|[b x] xs IH]; intros w f g l h1 h2 k1 k2 l' h1' h2' la lb C1 C2 H1 H2 D1 D2 N Ob L F E.
  - cbn [two_hands] in E. injection E as <- <- <- <- <-. exists w, f, g. split; [reflexivity|]. split; [exact H1|]. split; [exact H2|].
    split; [exact (held_disk _ _ _ _ _ _ H1)|]. auto.
  - inversion F as [|? ? [F1 F2] F3]; subst. cbn [fst snd] in *. destruct b.
    + cbn [two_hands] in E. destruct (hand_turn (clamps_at pl) cap1 l h1 x) as [[[l1 h] a]|] eqn:T; [|discriminate].
      destruct (two_hands (clamps_at pl) cap1 cap2 l1 h h2 xs) as [[[[[l2 h1''] h2''] la'] lb']|] eqn:R; [|discriminate].
      injection E as <- <- <- <- <-.
      destruct (hand_step pl cap1 q l h1 (in_world w f) x l1 h a H1 C1 Ob L F1 F2 T) as (f1 & X & H1' & Wr & L1 & L2 & P1).
      assert (B1 : obliging (os (inner (res f1)))) by (apply (call_file_fewer _ _ _ _ _ X); exact Ob).
      destruct (call_file_tame _ _ _ _ _ X) as ([T1 (_ & _ & T2 & T3 & _)] & _). rewrite (held_name _ _ _ _ _ _ H1) in T2.
      cbn [in_world with_sys res inner os descriptor path] in T1, T2, T3, P1.
      assert (H2' := held_other pl cap2 q l l1 h2 w (os (inner (res f1))) g k2 H2 D2 ltac:(apply T3; congruence) (held_disk _ _ _ _ _ _ H1') L1 L2 B1).
      destruct (IH (os (inner (res f1))) f1 g l1 h h2 k1 k2 l2 h1'' h2'' la' lb' C1 C2 ltac:(now rewrite in_world_id) H2' ltac:(congruence) D2 N B1 L2) as (w' & f' & g' & R' & Y1 & Y2 & Y3 & Y4 & Y5 & Y6 & Y7).
      { eapply Forall_impl; [|exact F3]. intros [b y] Y. cbn [fst snd] in *. destruct b; [now rewrite Wr|exact Y]. }
      { exact R. }
      exists w', f', g'. cbn [run_two]. rewrite X. cbn [bind]. rewrite R'. cbn [bind map]. split; [reflexivity|].
      split; [exact Y1|]. split; [exact Y2|]. split; [exact Y3|]. split; [|split; [exact Y5|split; [congruence|exact Y7]]].
      intros y Y. rewrite Y4 by exact Y. apply T2. congruence.
    + cbn [two_hands] in E. destruct (hand_turn (clamps_at pl) cap2 l h2 x) as [[[l1 h] a]|] eqn:T; [|discriminate].
      destruct (two_hands (clamps_at pl) cap1 cap2 l1 h1 h xs) as [[[[[l2 h1''] h2''] la'] lb']|] eqn:R; [|discriminate].
      injection E as <- <- <- <- <-.
      destruct (hand_step pl cap2 q l h2 (in_world w g) x l1 h a H2 C2 Ob L F1 F2 T) as (g1 & X & H2' & Wr & L1 & L2 & P1).
      assert (B1 : obliging (os (inner (res g1)))) by (apply (call_file_fewer _ _ _ _ _ X); exact Ob).
      destruct (call_file_tame _ _ _ _ _ X) as ([T1 (_ & _ & T2 & T3 & _)] & _). rewrite (held_name _ _ _ _ _ _ H2) in T2.
      cbn [in_world with_sys res inner os descriptor path] in T1, T2, T3, P1.
      assert (H1' := held_other pl cap1 q l l1 h1 w (os (inner (res g1))) f k1 H1 D1 ltac:(apply T3; congruence) (held_disk _ _ _ _ _ _ H2') L1 L2 B1).
      destruct (IH (os (inner (res g1))) f g1 l1 h1 h k1 k2 l2 h1'' h2'' la' lb' C1 C2 H1' ltac:(now rewrite in_world_id) D1 ltac:(congruence) N B1 L2) as (w' & f' & g' & R' & Y1 & Y2 & Y3 & Y4 & Y5 & Y6 & Y7).
      { eapply Forall_impl; [|exact F3]. intros [b y] Y. cbn [fst snd] in *. destruct b; [exact Y|now rewrite Wr]. }
      { exact R. }
      exists w', f', g'. cbn [run_two]. rewrite X. cbn [bind]. rewrite R'. cbn [bind map]. split; [reflexivity|].
      split; [exact Y1|]. split; [exact Y2|]. split; [exact Y3|]. split; [|split; [exact Y5|split; [exact Y6|congruence]]].
      intros y Y. rewrite Y4 by exact Y. apply T2. congruence.
Qed.

(** A new object. *)
Lemma hand_new : forall pl cap q m others l a f (wr : bool), keeps pl cap q m others Resting (Store l a) f -> 0 <= cap ->
  obliging (os (inner (res f))) -> (if wr then mode_writes m else mode_reads m) = true ->
  held_by pl cap q l (hand_at wr a) f.
Proof.
  intros pl cap q m others l a f wr [[(c & a' & O & A0 & I) K M At Fi Ot U] Md] C B Mw.
  cbn [in_stage bytes at_] in *. destruct I as (-> & -> & I3 & I4 & I5 & I6).
  destruct wr; cbn [hand_at held_by]; rewrite Md; (split; [exact Mw|]); rewrite Mw in O.
  - exists (mode_reads m), others. constructor; unfold waits; cbn [page spot waiting]; auto; try lia; try reflexivity.
  - exists (mode_writes m). constructor; cbn [place step held spent stale]; try assumption; try lia; try discriminate; try tauto.
    exact (obliging_short pl _ B).
Qed.

Lemma hand_position : forall pl cap q l h f, held_by pl cap q l h f -> file_position pl f = Ok (wrap (stands h)).
Proof.
  intros pl cap q l [s k|c] f H; cbn [held_by stands] in *.
  - destruct H as (_ & rd & others & [[(n & h & Lk & H1 & H2 & H3 & H4) Dk] K Mo B Di Bp Me F Z0 R Sz Ot]). cbn [page spot waiting waits] in *.
    unfold file_position, sys_seek. rewrite Lk, H4, Z.add_0_r. replace ((0 <=? s) && (s <? 2 ^ 63)) with true by lia.
    cbn [snd]. rewrite Bp, convert_wrap. unfold waits. cbn [waiting]. destruct pl, k; reflexivity.
  - destruct H as (_ & wr & [[(n & h & Lk & H1 & H2 & H3 & H4) Dk] Ls K Mo Qu St Kp U Bd Fr Ba Id R Me]).
    unfold file_position, sys_seek. rewrite Lk, H4, Z.add_0_r. replace ((0 <=? place c) && (place c <? 2 ^ 63)) with true by lia.
    cbn [snd]. rewrite U, convert_wrap. now destruct pl.
Qed.
