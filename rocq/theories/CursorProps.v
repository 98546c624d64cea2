(** Reads and seeks of any kind on input resources over containers: C34, C61 and C62
    exactly. *)
From Coq Require Import NArith ZArith List Bool Lia.
From Coq Require Import ZifyBool ZifyNat ZifyN.
From Verif Require Import Base Integers ResourceModel ResourceSpec ResourceText ResourceLemmas ResourceLemmas2
  ResourceProps CursorSpec CursorLemmas.
Import ListNotations.
Open Scope Z_scope.

(* ------------------------------------------------------------------- exactly *)

(** Every sequence of reads of any size, set_position, go_back and go_forward by any
    amount, on every container of elements of w bytes, with every buffer and with none,
    gives the answers of the machine of CursorSpec, and accesses memory outside the
    container exactly when the machine says so. *)
Theorem C34_exact : forall w cap l xs, 1 <= w -> len l * (w + 1) < 2 ^ 63 ->
  forallb for_input xs = true -> (forall b n, In (Read b n) xs -> 0 <= n <= len b) ->
  match turns w (Z.of_nat cap) l start xs with
  | None => run call_input (new_resource l w cap) xs = UB OutOfBoundsRead
  | Some (c, answers) => exists r, run call_input (new_resource l w cap) xs = Ok (r, answers) /\ content (inner r) = l
  end.
Proof.
  intros w cap l xs W B Fi G.
  assert (X := turns_run (len l) w (Z.of_nat cap) l xs start _ W ltac:(lia) (start_cursor (len l) w cap l) (Z.le_refl _) B Fi G).
  destruct (turns w (Z.of_nat cap) l start xs) as [[c a]|]; [|exact X].
  destruct X as (r & E & A). exists r. split; [exact E|]. apply (ac_content _ _ _ _ _ _ A).
Qed.
Print Assumptions C34_exact.

(** After every such history the reported position is the place of the container plus what
    has been handed out of the buffer, and the end is reported when the two together, as a
    number without sign, are the size of the container. *)
Theorem C61_exact : forall w cap l xs c answers, 1 <= w -> len l * (w + 1) < 2 ^ 63 ->
  forallb for_input xs = true -> (forall b n, In (Read b n) xs -> 0 <= n <= len b) ->
  turns w (Z.of_nat cap) l start xs = Some (c, answers) ->
  exists r, run call_input (new_resource l w cap) xs = Ok (r, answers) /\
    get_position r = place c + spent c /\ (is_at_end r = true <-> place c + spent c = len l).
Proof.
  intros w cap l xs c answers W B Fi G T.
  assert (X := turns_run (len l) w (Z.of_nat cap) l xs start _ W ltac:(lia) (start_cursor (len l) w cap l) (Z.le_refl _) B Fi G).
  rewrite T in X. destruct X as (r & E & A). exists r. split; [exact E|].
  assert (P : get_position r = place c + spent c).
  { unfold get_position. now rewrite (ac_place _ _ _ _ _ _ A), (ac_spent _ _ _ _ _ _ A). }
  split; [exact P|]. unfold is_at_end. rewrite P, (ac_content _ _ _ _ _ _ A). change size_of with len.
  pose proof (len_nonneg l). assert (Bd := ac_bound _ _ _ _ _ _ A).
  assert (Lw : len l < 2 ^ 63) by nia.
  assert (Sp : 0 <= spent c).
  { destruct (stale c) eqn:S; [|now apply (ac_range _ _ _ _ _ _ A)].
    pose proof (ac_idle _ _ _ _ _ _ A S). lia. }
  unfold as_size. destruct (place c + spent c <? 0) eqn:Q; lia.
Qed.
Print Assumptions C61_exact.

(** Ten bytes through a buffer of four: go_back is not noticed at first, then it leads out
    of the container; after set_position everything is as it should be.  Two-byte elements:
    position and end are wrong. *)
Example C34_exact_meets :
  let l := [65; 66; 67; 68; 69; 70; 71; 72; 73; 74]%N in
  let b := [0; 0; 0]%N in
  let xs := [Read b 2; GoForward 3; Read b 2; Read b 1; SetPosition 1 End; Read b 3] in
  turns 1 4 l start xs = Some (Cursor 10 0 [] 0 false,
    [Got [65; 66; 0]%N 2; Done; Got [67; 68; 0]%N 2; Got [68; 0; 0]%N 1; Done; Got [74; 0; 0]%N 1]) /\
  turns 1 4 l start [Read b 2; GoBack 1; Read b 3] = None /\
  turns 2 4 l start [Read b 2] = Some (Cursor (-4) 4 [67; 68]%N 2 false, [Got [65; 66; 0]%N 2]).
Proof. vm_compute. repeat split; reflexivity. Qed.

(* ------------------------------------------------------------ what that means *)

Lemma wrap_small : forall x, - 2 ^ 63 <= x < 2 ^ 63 -> wrap x = x.
Proof. intros x H. now rewrite <- convert_wrap, convert_I64. Qed.

Lemma fresh_taken : forall cap l c m, 0 < cap -> stale c = true -> step c = 0 -> inside l (place c) = true -> 0 <= m <= cap ->
  exists c', taken 1 cap l c m = Some (take m (drop (place c) l), c').
Proof.
  intros cap l c m C S T I M. unfold taken. replace (cap =? 0) with false by lia. rewrite S. unfold refilled at 1. cbv zeta.
  rewrite T, Z.mul_0_l, Z.add_0_r, I. unfold inside in I. pose proof (len_nonneg l). cbn [held].
  set (d := take cap (drop (place c) l)).
  assert (Ld : len d = Z.min cap (len l - place c)) by (unfold d; rewrite len_take, len_drop by lia; lia).
  destruct (m <=? len d) eqn:Q.
  - unfold hand_out. cbn [held]. eexists. f_equal. f_equal. unfold d. rewrite take_take by lia. now rewrite Z.min_l by lia.
  - unfold hand_out at 1. cbn [held place step spent stale]. replace (m - len d <=? cap) with true by lia.
    unfold refilled. cbn [place step]. cbv zeta. rewrite !Z.mul_1_r. replace (place c + len d - len d + len d) with (len l) by lia.
    unfold inside. replace ((0 <=? len l) && (len l <=? len l)) with true by lia.
    rewrite (drop_all (len l) l), take_nil by lia. cbn [held]. unfold hand_out. cbn [held]. eexists. f_equal. f_equal.
    rewrite take_nil, app_nil_r. rewrite take_all by lia. unfold d.
    rewrite !(take_all _ (drop (place c) l)); [reflexivity| |]; rewrite len_drop by lia; lia.
Qed.

(** A position set relative to the current one, after bytes have been read from the first
    filling of the buffer: it is relative to the beginning of the buffer, whatever has
    been read. *)
Theorem C34_relative : forall cap l b k n b' m, (0 < cap)%nat -> len l * 2 < 2 ^ 63 ->
  0 <= k <= len b -> k <= Z.min (Z.of_nat cap) (len l) -> 0 <= n <= len l -> 0 <= m <= len b' -> m <= Z.of_nat cap ->
  exists r answers, run call_input (new_resource l 1 cap) [Read b k; SetPosition n Current; Read b' m] = Ok (r, answers) /\
    received answers = [take k l; take m (drop n l)].
Proof.
  intros cap l b k n b' m C B K1 K2 N M1 M2. pose proof (len_nonneg l).
  assert (X := C34_exact 1 cap l [Read b k; SetPosition n Current; Read b' m] ltac:(lia) ltac:(lia) eq_refl).
  assert (First : exists c, taken 1 (Z.of_nat cap) l start k = Some (take k l, c) /\ place c = 0).
  { unfold taken. replace (Z.of_nat cap =? 0) with false by lia. cbn [stale start]. unfold refilled at 1. cbn [place step start].
    rewrite Z.mul_0_l, Z.add_0_r. unfold inside. replace ((0 <=? 0) && (0 <=? len l)) with true by lia. cbv zeta. cbn [held].
    rewrite drop_0, Z.mul_1_r, Z.add_0_l, Z.sub_diag. rewrite len_take by lia.
    replace (k <=? Z.min (Z.of_nat cap) (len l)) with true by lia. unfold hand_out. cbn [held place].
    eexists. split; [f_equal; f_equal|reflexivity]. rewrite take_take by lia. f_equal. lia. }
  destruct First as (c & E1 & P1). cbn [turns turn] in X. rewrite E1 in X.
  assert (So : sought 1 l c n Current = n).
  { unfold sought. rewrite P1, Z.mul_1_r, Z.add_0_l. apply wrap_small. lia. }
  rewrite So in X.
  destruct (fresh_taken (Z.of_nat cap) l (Cursor n 0 [] 0 true) m ltac:(lia) eq_refl eq_refl) as (c' & E2); [unfold inside; cbn [place]; lia|lia|].
  cbn [place] in E2. rewrite E2 in X. destruct X as (r & R & _).
  { intros x y [H0|[H0|[H0|[]]]]; try discriminate; injection H0 as <- <-; lia. }
  exists r. eexists. split; [exact R|]. unfold received. cbn [flat_map app].
  now rewrite !take_app_exact.
Qed.
Print Assumptions C34_relative.

Example C34_relative_meets : let l := [65; 66; 67; 68; 69; 70]%N in
  3 <= Z.min 4 (len l) /\ take 3 l = [65; 66; 67]%N /\ take 2 (drop 2 l) = [67; 68]%N.
Proof. vm_compute. repeat split; discriminate. Qed.

(** go_back after a read from the first filling of the buffer: reads that the buffer can
    serve do not notice it; every other read accesses memory outside the container. *)
Theorem C62_unnoticed : forall cap l b k j b' m, (0 < cap)%nat -> len l * 2 < 2 ^ 63 ->
  0 <= k <= len b -> k <= Z.min (Z.of_nat cap) (len l) -> 0 < j < 2 ^ 62 -> 0 <= m <= len b' ->
  let calls := [Read b k; GoBack j; Read b' m] in
  (k + m <= Z.min (Z.of_nat cap) (len l) ->
   exists r answers, run call_input (new_resource l 1 cap) calls = Ok (r, answers) /\
     received answers = [take k l; take m (drop k l)]) /\
  (Z.min (Z.of_nat cap) (len l) < k + m -> run call_input (new_resource l 1 cap) calls = UB OutOfBoundsRead).
Proof.
  intros cap l b k j b' m C B K1 K2 J M calls. pose proof (len_nonneg l).
  assert (X := C34_exact 1 cap l calls ltac:(lia) ltac:(lia) eq_refl).
  assert (G : forall x y, In (Read x y) calls -> 0 <= y <= len x).
  { intros x y [H0|[H0|[H0|[]]]]; try discriminate; injection H0 as <- <-; lia. }
  specialize (X G). clear G. set (f := Z.min (Z.of_nat cap) (len l)) in *.
  assert (First : taken 1 (Z.of_nat cap) l start k = Some (take k l, Cursor 0 f (drop k (take f l)) k false)).
  { unfold taken. replace (Z.of_nat cap =? 0) with false by lia. cbn [stale start]. unfold refilled at 1. cbn [place step start].
    rewrite Z.mul_0_l, Z.add_0_r. unfold inside. replace ((0 <=? 0) && (0 <=? len l)) with true by lia. cbv zeta. cbn [held].
    rewrite drop_0, Z.mul_1_r, Z.add_0_l, Z.sub_diag. rewrite len_take by lia. fold f.
    replace (k <=? f) with true by lia. unfold hand_out. cbn [held place step spent stale].
    assert (Tf : take (Z.of_nat cap) l = take f l).
    { unfold f. destruct (Z.le_ge_cases (Z.of_nat cap) (len l)); [now rewrite Z.min_l by lia|].
      rewrite Z.min_r by lia. now rewrite !take_all by lia. }
    rewrite Tf. f_equal. f_equal. rewrite take_take by lia. f_equal. lia. }
  unfold calls in X. cbn [turns turn] in X. rewrite First in X. cbn [held spent stale] in X. unfold sought in X. cbn [place] in X.
  rewrite Z.mul_1_r, Z.add_0_l in X. rewrite wrap_small in X by lia.
  assert (Lh : len (drop k (take f l)) = f - k) by (rewrite len_drop, len_take by (unfold f in *; lia); unfold f in *; lia).
  split; intros Q.
  - assert (Second : taken 1 (Z.of_nat cap) l (Cursor (- j) 0 (drop k (take f l)) k false) m
      = Some (take m (drop k l), Cursor (- j) 0 (drop m (drop k (take f l))) (k + m) false)).
    { unfold taken. replace (Z.of_nat cap =? 0) with false by lia. cbn [stale held]. rewrite Lh.
      replace (m <=? f - k) with true by lia. cbv zeta. unfold hand_out. cbn [held place step spent stale]. f_equal. f_equal.
      replace f with (k + (f - k)) by lia. rewrite take_drop_comm by lia. rewrite take_take by lia. f_equal. lia. }
    rewrite Second in X. destruct X as (r & R & _). exists r. eexists. split; [exact R|].
    unfold received. cbn [flat_map app]. now rewrite !take_app_exact.
  - assert (Second : taken 1 (Z.of_nat cap) l (Cursor (- j) 0 (drop k (take f l)) k false) m = None).
    { unfold taken. replace (Z.of_nat cap =? 0) with false by lia. cbn [stale held]. rewrite Lh.
      replace (m <=? f - k) with false by lia. cbv zeta. unfold hand_out at 1. cbn [held place step spent stale].
      unfold refilled, direct, inside. cbn [place step]. rewrite Z.mul_0_l, Z.add_0_r.
      replace (0 <=? - j) with false by lia. cbn [andb]. destruct (m - (f - k) <=? Z.of_nat cap); reflexivity. }
    rewrite Second in X. exact X.
Qed.
Print Assumptions C62_unnoticed.

Example C62_unnoticed_meets : let l := [65; 66; 67; 68; 69; 70]%N in
  1 <= Z.min 4 (len l) /\ 1 + 3 <= Z.min 4 (len l) /\ Z.min 4 (len l) < 1 + 4 /\ take 3 (drop 1 l) = [66; 67; 68]%N.
Proof. vm_compute. repeat split; discriminate. Qed.
