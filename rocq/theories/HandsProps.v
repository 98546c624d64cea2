(** Two objects on one file that do not take turns: C147 and C148 exactly, for objects that are
    used in one direction. *)
From Coq Require Import NArith ZArith List Bool Lia.
From Coq Require Import ZifyBool ZifyNat ZifyN.
From Verif Require Import Base Integers ResourceSpec ResourceModel ResourceText FileSpec FileModel FileText FollowSpec FollowText.
From Verif Require Import ResourceLemmas ResourceLemmas2 FileLemmas FileLemmas2 FileLemmas3 FileLemmas4 FileLemmas6 FollowLemmas2 FollowProps DiaryLemmas BackupLemmas2 DataFileLemmas2.
From Verif Require Import CursorSpec CursorLemmas FileCursorSpec PenSpec FilePenSpec FilePenLemmas HandsSpec HandsLemmas.
Import ListNotations.
Open Scope Z_scope.

(* ------------------------------------------------------------------- exactly *)

(** Two objects on one file, each used for writing or for reading, in every interleaving of
    writes or reads of any size, flushes, set_position, go_back and go_forward by any amount,
    with every pair of buffers, on both platforms: the answers, the bytes of the file and the
    positions are those of the machine of HandsSpec.  No other file changes.  The operating
    system does what it is asked to; the first object begins at the end of the file. *)
Theorem C148_exact : forall pl w q l m1 m2 how cap1 cap2 (wr1 wr2 : bool) xs l' h1 h2 la lb,
  disk w q = Some l \/ disk w q = None /\ how = Create /\ l = [] -> len l < 2 ^ 62 ->
  obliging w -> Z.of_nat cap1 <= chunk_max pl -> Z.of_nat cap2 <= chunk_max pl ->
  (if wr1 then mode_writes m1 else mode_reads m1) = true -> (if wr2 then mode_writes m2 else mode_reads m2) = true ->
  Forall (fun x : bool * call => suits (if fst x then wr1 else wr2) (snd x) = true /\ in_one_transfer (chunk_max pl) (snd x)) xs ->
  let clamped := match pl with UnixLike => true | Windows => false end in
  two_hands clamped (Z.of_nat cap1) (Z.of_nat cap2) l (hand_at wr1 (len l)) (hand_at wr2 0) xs = Some (l', h1, h2, la, lb) ->
  exists f g w' f' g', open_both pl w q m1 m2 how cap1 cap2 = Ok (f, g) /\
    run_two pl (system_of g) f g xs = Ok (w', f', g', map Returned la, map Returned lb) /\
    disk w' q = Some l' /\ (forall x, x <> q -> disk w' x = disk w x) /\
    file_position pl (in_world w' f') = Ok (wrap (stands h1)) /\
    file_position pl (in_world w' g') = Ok (wrap (stands h2)).
Proof.
  intros pl w q l m1 m2 how cap1 cap2 wr1 wr2 xs l' h1 h2 la lb D L B C1 C2 M1 M2 F clamped E.
  change clamped with (clamps_at pl) in E. clear clamped.
  destruct (both_open pl w q l m1 m2 how cap1 cap2 D ltac:(lia) B C1 C2)
    as (f & g & k1 & k2 & o1 & o2 & O & K1 & K2 & D1 & D2 & N & P1 & P2 & Ob & Ot).
  assert (H1 := hand_new pl _ q m1 o1 l (len l) _ wr1 K1 (Zle_0_nat cap1) Ob M1).
  assert (H2 := hand_new pl _ q m2 o2 l 0 _ wr2 K2 (Zle_0_nat cap2) Ob M2).
  destruct (two_hands_run pl _ _ q xs (system_of g) f g l _ _ k1 k2 l' h1 h2 la lb (Zle_0_nat cap1) (Zle_0_nat cap2) H1 H2 D1 D2 N Ob L)
    as (w' & f' & g' & R & X1 & X2 & X3 & X4 & _).
  { eapply Forall_impl; [|exact F]. intros [[] x] [S T]; cbn [fst snd] in *; (split; [|exact T]); [destruct wr1|destruct wr2]; exact S. }
  { exact E. }
  exists f, g, w', f', g'. split; [exact O|]. split; [exact R|]. split; [exact X3|].
  split; [intros x X; rewrite X4 by exact X; now apply Ot|].
  split; [exact (hand_position _ _ _ _ _ _ X1)|exact (hand_position _ _ _ _ _ _ X2)].
Qed.
Print Assumptions C148_exact.

(** A writer with a buffer of three bytes and a reader with one of four: what the writer
    overwrites is not seen until the reader's buffer is filled again, what it has in its buffer
    is moved by go_back, and a request of nine bytes gets the first four twice. *)
Example C148_exact_meets :
  let z := [0; 0; 0]%N in
  let xs := [(false, Read z 1); (true, SetPosition 1 Begin); (true, Write [9; 9]%N); (true, Flush); (false, Read z 2);
             (true, Write [7]%N); (true, GoBack 3); (true, Flush); (false, SetPosition 0 Begin); (false, Read (z ++ z ++ z) 9)] in
  let la := [Done; Wrote 2; Done; Wrote 1; Done; Done] in
  let lb := [Got [1; 0; 0]%N 1; Got [2; 3; 0]%N 2; Done; Got [7; 9; 9; 4; 7; 9; 9; 4; 5]%N 9] in
  Forall (fun x : bool * call => suits (if fst x then true else false) (snd x) = true /\ in_one_transfer (chunk_max UnixLike) (snd x)) xs /\
  two_hands true 3 4 [1; 2; 3; 4; 5]%N (hand_at true 5) (hand_at false 0) xs
  = Some ([7; 9; 9; 4; 5]%N, Writing 1 None, Reading (Cursor 5 4 [] 4 false), la, lb) /\
  answers_and_file UnixLike (one_file [1; 2; 3; 4; 5]%N) WriteOnly ReadOnly 3 4 xs
  = Ok (map Returned la, map Returned lb, Some [7; 9; 9; 4; 5]%N).
Proof.
  cbv zeta. split; [|split; vm_compute; reflexivity].
  repeat (apply Forall_cons); try apply Forall_nil; vm_compute; repeat (split; try discriminate).
Qed.

(* ------------------------------------------------------------ what that means *)

(** What a write and a flush do, whatever the buffer. *)
Lemma written_out : forall cap l s d, 0 <= cap -> 0 <= s -> s + len d < 2 ^ 63 ->
  exists p, file_put_down cap (Pen l s None) d = Some p /\ (page p = l \/ page p = put l s d) /\
    file_delivered p = Some (Pen (put l s d) (s + len d) None).
Proof.
  intros cap l s d C S H. pose proof (len_nonneg d).
  assert (I : file_inked (Pen l s None) d = Some (Pen (put l s d) (s + len d) None)).
  { unfold file_inked. cbn [spot page waiting]. replace (s + len d <? 2 ^ 63) with true by lia. reflexivity. }
  unfold file_put_down, waits. cbn [waiting]. change (len []) with 0. rewrite Z.add_0_l.
  destruct (cap =? 0) eqn:Q; [rewrite I; eexists; split; [reflexivity|]; split; [now right|reflexivity]|].
  change (if cap <? len d then file_delivered (Pen l s None) else Some (Pen l s None)) with
    (if cap <? len d then Some (Pen l s None) else Some (Pen l s None)).
  replace (if cap <? len d then Some (Pen l s None) else Some (Pen l s None)) with (Some (Pen l s None)) by (now destruct (cap <? len d)).
  destruct (cap <? len d); [rewrite I; eexists; split; [reflexivity|]; split; [now right|reflexivity]|].
  cbn [page spot waiting app]. eexists. split; [reflexivity|]. split; [now left|]. exact I.
Qed.

(** The two calls as turns of an object. *)
Lemma hands_out : forall c cap l s d, 0 <= cap -> 0 <= s -> s + len d < 2 ^ 63 -> len l < 2 ^ 62 -> len (put l s d) < 2 ^ 62 ->
  exists l1 s1 k1, hand_turn c cap l (Writing s None) (Write d) = Some (l1, Writing s1 k1, Wrote (len d)) /\
    hand_turn c cap l1 (Writing s1 k1) Flush = Some (put l s d, Writing (s + len d) None, Done).
Proof.
  intros c cap l s d C S H L1 L2. destruct (written_out cap l s d C S H) as (p & E & Q & F).
  exists (page p), (spot p), (waiting p). cbn [hand_turn file_stroke]. rewrite E. destruct p as [y s1 k1]. cbn [page spot waiting] in *. rewrite F.
  cbn [page spot waiting]. replace (len (put l s d) <? 2 ^ 62) with true by lia.
  replace (len y <? 2 ^ 62) with true by (destruct Q as [-> | ->]; lia). split; reflexivity.
Qed.

Lemma to_the_end : forall c cap l s, len l < 2 ^ 62 -> hand_turn c cap l (Writing s None) (SetPosition 0 End) = Some (l, Writing (len l) None, Done).
Proof.
  intros c cap l s H. pose proof (len_nonneg l). unfold hand_turn, file_stroke, file_delivered, file_moved, file_sought. cbn [waiting page spot place].
  rewrite Z.add_0_r. replace ((0 <=? len l) && (len l <? 2 ^ 63)) with true by lia. cbn [waiting page spot]. replace (len l <? 2 ^ 62) with true by lia. reflexivity.
Qed.

Lemma to_the_beginning : forall c cap l s, len l < 2 ^ 62 -> hand_turn c cap l (Writing s None) (SetPosition 0 Begin) = Some (l, Writing 0 None, Done).
Proof.
  intros c cap l s H. unfold hand_turn, file_stroke, file_delivered, file_moved, file_sought. cbn [waiting page spot place].
  replace (if c then Z.max 0 0 else 0) with 0 by (now destruct c). change ((0 <=? 0) && (0 <? 2 ^ 63)) with true. cbn [waiting page spot].
  replace (len l <? 2 ^ 62) with true by lia. reflexivity.
Qed.

(** Two programs that append to one file, both from the end that they find there: of the first
    text only what is longer than the second remains.  For all texts and buffers. *)
Theorem C148_overwritten : forall pl w q l m1 m2 how cap1 cap2 a b,
  disk w q = Some l \/ disk w q = None /\ how = Create /\ l = [] -> len l + len a < 2 ^ 62 -> len b <= len a ->
  obliging w -> Z.of_nat cap1 <= chunk_max pl -> Z.of_nat cap2 <= chunk_max pl ->
  mode_writes m1 = true -> mode_writes m2 = true -> len a <= chunk_max pl ->
  exists f g w' f' g', open_both pl w q m1 m2 how cap1 cap2 = Ok (f, g) /\
    run_two pl (system_of g) f g
      [(true, SetPosition 0 End); (false, SetPosition 0 End); (true, Write a); (true, Flush); (false, Write b); (false, Flush)]
    = Ok (w', f', g', map Returned [Done; Wrote (len a); Done], map Returned [Done; Wrote (len b); Done]) /\
    disk w' q = Some (l ++ b ++ drop (len b) a).
Proof.
  intros pl w q l m1 m2 how cap1 cap2 a b D L Lb B C1 C2 M1 M2 La.
  pose proof (len_nonneg l). pose proof (len_nonneg a). pose proof (len_nonneg b).
  set (xs := [(true, SetPosition 0 End); (false, SetPosition 0 End); (true, Write a); (true, Flush); (false, Write b); (false, Flush)]).
  assert (Pa : put l (len l) a = l ++ a) by apply put_at_end.
  assert (Pb : put (l ++ a) (len l) b = l ++ b ++ drop (len b) a).
  { assert (X := put_mid l (take (len b) a) (drop (len b) a) b). rewrite take_drop in X. apply X. rewrite len_take by lia. lia. }
  assert (Lx : len (l ++ b ++ drop (len b) a) = len l + len a) by (rewrite !len_app, len_drop by lia; lia).
  destruct (hands_out (clamps_at pl) (Z.of_nat cap1) l (len l) a) as (y1 & s1 & k1 & E1 & F1); try (rewrite ?Pa, ?len_app; lia).
  destruct (hands_out (clamps_at pl) (Z.of_nat cap2) (l ++ a) (len l) b) as (y2 & s2 & k2 & E2 & F2); try (rewrite ?Pb, ?Lx, ?len_app; lia).
  rewrite Pa in *. rewrite Pb in *.
  assert (T : exists h1 h2, two_hands (clamps_at pl) (Z.of_nat cap1) (Z.of_nat cap2) l (hand_at true (len l)) (hand_at true 0) xs
    = Some (l ++ b ++ drop (len b) a, h1, h2, [Done; Wrote (len a); Done], [Done; Wrote (len b); Done])).
  { unfold xs, hand_at. cbn [two_hands]. rewrite !to_the_end by lia. rewrite E1, F1, E2, F2. do 2 eexists. reflexivity. }
  destruct T as (h1 & h2 & T).
  assert (Fo : Forall (fun x : bool * call => suits (if fst x then true else true) (snd x) = true /\ in_one_transfer (chunk_max pl) (snd x)) xs).
  { unfold xs. repeat (apply Forall_cons); try apply Forall_nil; cbn [fst snd suits in_one_transfer negb]; (split; [reflexivity|]); try exact I; lia. }
  assert (Ll : len l < 2 ^ 62) by lia.
  destruct (C148_exact pl w q l m1 m2 how cap1 cap2 true true xs _ h1 h2 _ _ D Ll B C1 C2 M1 M2 Fo T) as (f & g & w' & f' & g' & X1 & X2 & X3 & _).
  exists f, g, w', f', g'. auto.
Qed.
Print Assumptions C148_overwritten.

Example C148_overwritten_meets :
  answers_and_file Windows (one_file [1]%N) WriteOnly ReadAndWrite 2 0
    [(true, SetPosition 0 End); (false, SetPosition 0 End); (true, Write [2; 3; 4]%N); (true, Flush); (false, Write [5; 6]%N); (false, Flush)]
  = Ok (map Returned [Done; Wrote 3; Done], map Returned [Done; Wrote 2; Done], Some [1; 5; 6; 4]%N) /\ obliging (one_file [1]%N).
Proof. split; [vm_compute; reflexivity|constructor]. Qed.

(** What is overwritten while it is in the reader's buffer is still read as it was: after a read
    of n bytes the next k are the old ones, as long as the first buffer lasts. *)
Theorem C147_old_bytes : forall pl w q l m1 m2 how cap1 cap2 n k d b1 b2,
  disk w q = Some l \/ disk w q = None /\ how = Create /\ l = [] -> len l < 2 ^ 62 ->
  obliging w -> Z.of_nat cap1 <= chunk_max pl -> Z.of_nat cap2 <= chunk_max pl ->
  mode_writes m1 = true -> mode_reads m2 = true ->
  0 <= n <= len b1 -> 0 <= k <= len b2 -> n + k <= Z.of_nat cap2 -> 0 < Z.of_nat cap2 <= len l ->
  len d <= len l -> len d <= chunk_max pl ->
  exists f g w' f' g', open_both pl w q m1 m2 how cap1 cap2 = Ok (f, g) /\
    run_two pl (system_of g) f g [(false, Read b1 n); (true, SetPosition 0 Begin); (true, Write d); (true, Flush); (false, Read b2 k)]
    = Ok (w', f', g', map Returned [Done; Wrote (len d); Done],
          map Returned [Got (take n l ++ drop n b1) n; Got (take k (drop n l) ++ drop k b2) k]) /\
    disk w' q = Some (d ++ drop (len d) l).
Proof.
  intros pl w q l m1 m2 how cap1 cap2 n k d b1 b2 D L B C1 C2 M1 M2 Hn Hk Hc Cl Ld Lm.
  pose proof (len_nonneg l). pose proof (len_nonneg d).
  set (xs := [(false, Read b1 n); (true, SetPosition 0 Begin); (true, Write d); (true, Flush); (false, Read b2 k)]).
  assert (Pd : put l 0 d = d ++ drop (len d) l) by apply put_front.
  assert (Lx : len (d ++ drop (len d) l) = len l) by (rewrite len_app, len_drop by lia; lia).
  destruct (hands_out (clamps_at pl) (Z.of_nat cap1) l 0 d) as (y1 & s1 & k1 & E1 & F1); try (rewrite ?Pd, ?Lx; lia). rewrite Pd in *.
  set (c := Z.of_nat cap2) in *. set (t := take c l).
  assert (Lt : len t = c) by (unfold t; rewrite len_take by lia; lia).
  assert (T : exists h1 h2, two_hands (clamps_at pl) (Z.of_nat cap1) c l (hand_at true (len l)) (hand_at false 0) xs
    = Some (d ++ drop (len d) l, h1, h2, [Done; Wrote (len d); Done],
            [Got (take n l ++ drop n b1) n; Got (take k (drop n l) ++ drop k b2) k])).
  { unfold xs, hand_at. cbn [two_hands]. unfold hand_turn at 1. cbn [file_turn]. unfold file_taken at 1, file_refilled. cbn [stale place step].
    rewrite Z.add_0_l, drop_0. fold t. replace (c =? 0) with false by lia. cbn [held]. rewrite Lt. replace (n <=? c) with true by lia.
    unfold hand_out at 1. cbn [held place step spent stale].
    assert (T1 : take n t = take n l) by (unfold t; rewrite take_take by lia; f_equal; lia). rewrite T1.
    assert (L1 : len (take n l) = n) by (rewrite len_take by lia; lia). rewrite L1.
    rewrite to_the_beginning by lia. rewrite E1, F1. cbn [hand_turn file_turn].
    unfold file_taken. cbn [stale held]. replace (c =? 0) with false by lia. rewrite (len_drop n t) by lia. rewrite Lt.
    replace (k <=? Z.max 0 (c - n)) with true by lia.
    unfold hand_out. cbn [held place step spent stale].
    assert (T2 : take k (drop n t) = take k (drop n l)).
    { unfold t. rewrite <- !take_drop_comm by lia. f_equal. rewrite take_take by lia. f_equal. lia. }
    rewrite T2. assert (L2 : len (take k (drop n l)) = k) by (rewrite len_take, len_drop by lia; lia). rewrite L2.
    do 2 eexists. reflexivity. }
  destruct T as (h1 & h2 & T).
  assert (Fo : Forall (fun x : bool * call => suits (if fst x then true else false) (snd x) = true /\ in_one_transfer (chunk_max pl) (snd x)) xs).
  { unfold xs. repeat (apply Forall_cons); try apply Forall_nil; cbn [fst snd suits in_one_transfer negb]; (split; [reflexivity|]); try exact I; lia. }
  assert (Ll : len l < 2 ^ 62) by lia.
  destruct (C148_exact pl w q l m1 m2 how cap1 cap2 true false xs _ h1 h2 _ _ D Ll B C1 C2 M1 M2 Fo T) as (f & g & w' & f' & g' & X1 & X2 & X3 & _).
  exists f, g, w', f', g'. auto.
Qed.
Print Assumptions C147_old_bytes.

Example C147_old_bytes_meets :
  answers_and_file Windows (one_file [1; 2; 3; 4; 5]%N) WriteOnly ReadOnly 2 4
    [(false, Read [0; 0]%N 1); (true, SetPosition 0 Begin); (true, Write [7; 8; 9]%N); (true, Flush); (false, Read [0; 0]%N 2)]
  = Ok (map Returned [Done; Wrote 3; Done], map Returned [Got [1; 0]%N 1; Got [2; 3]%N 2], Some [7; 8; 9; 4; 5]%N).
Proof. vm_compute. reflexivity. Qed.
