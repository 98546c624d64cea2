(** Lists of bytes, and single calls. *)
From Coq Require Import NArith ZArith List Bool Lia ZifyBool ZifyNat ZifyN.
From Verif Require Import Base Integers ResourceSpec ResourceModel ResourceText.
Import ListNotations.
Open Scope Z_scope.

Lemma len_app : forall a b, len (a ++ b) = len a + len b.
Proof. intros. unfold len. rewrite app_length. lia. Qed.

Lemma len_nonneg : forall a, 0 <= len a.
Proof. intros. unfold len. lia. Qed.

Lemma len_take : forall n l, 0 <= n -> len (take n l) = Z.min n (len l).
Proof. intros. unfold len, take. rewrite firstn_length. lia. Qed.

Lemma len_drop : forall n l, 0 <= n -> len (drop n l) = Z.max 0 (len l - n).
Proof. intros. unfold len, drop. rewrite skipn_length. lia. Qed.

Lemma take_drop : forall n l, take n l ++ drop n l = l.
Proof. intros. apply firstn_skipn. Qed.

Lemma take_all : forall n l, len l <= n -> take n l = l.
Proof. intros n l H. unfold take, len in *. apply firstn_all2. lia. Qed.

Lemma drop_all : forall n l, len l <= n -> drop n l = [].
Proof. intros n l H. unfold drop, len in *. apply skipn_all2. lia. Qed.

Lemma take_0 : forall l, take 0 l = [].
Proof. reflexivity. Qed.

Lemma drop_0 : forall l, drop 0 l = l.
Proof. reflexivity. Qed.

Lemma take_app : forall n a b, 0 <= n -> take n (a ++ b) = take n a ++ take (n - len a) b.
Proof.
  intros n a b H. unfold take, len. rewrite firstn_app. do 2 f_equal. lia.
Qed.

Lemma drop_app : forall n a b, 0 <= n -> drop n (a ++ b) = drop n a ++ drop (n - len a) b.
Proof.
  intros n a b H. unfold drop, len. rewrite skipn_app. do 2 f_equal. lia.
Qed.

Lemma take_app_l : forall n a b, 0 <= n <= len a -> take n (a ++ b) = take n a.
Proof.
  intros. rewrite take_app by lia. unfold take at 2.
  replace (Z.to_nat (n - len a)) with 0%nat by lia. apply app_nil_r.
Qed.

Lemma drop_app_r : forall n a b, len a <= n -> drop n (a ++ b) = drop (n - len a) b.
Proof.
  intros n a b H. pose proof (len_nonneg a). rewrite drop_app by lia. rewrite drop_all by lia. reflexivity.
Qed.

Lemma take_app_exact : forall a b, take (len a) (a ++ b) = a.
Proof. intros. rewrite take_app_l by (pose proof (len_nonneg a); lia). now rewrite take_all by lia. Qed.

Lemma drop_app_exact : forall a b, drop (len a) (a ++ b) = b.
Proof. intros. rewrite drop_app_r by lia. now rewrite Z.sub_diag. Qed.

Lemma skipn_skipn' : forall (A : Type) (x y : nat) (l : list A), skipn x (skipn y l) = skipn (y + x) l.
Proof.
  induction y as [|y IH]; intros l; [reflexivity|]. destruct l as [|a l]; [now rewrite !skipn_nil|].
  cbn [skipn Nat.add]. apply IH.
Qed.

Lemma drop_drop : forall n m l, 0 <= n -> 0 <= m -> drop n (drop m l) = drop (m + n) l.
Proof.
  intros. unfold drop. rewrite skipn_skipn'. f_equal. lia.
Qed.

Lemma take_take : forall n m l, 0 <= n -> 0 <= m -> take n (take m l) = take (Z.min n m) l.
Proof.
  intros. unfold take. rewrite firstn_firstn. f_equal. lia.
Qed.

Lemma take_split : forall n m l, 0 <= n -> 0 <= m -> take (n + m) l = take n l ++ take m (drop n l).
Proof.
  intros n m l Hn Hm. rewrite <- (take_drop n l) at 1. rewrite take_app by lia.
  destruct (Z.le_ge_cases n (len l)) as [L|G].
  - rewrite len_take by lia. rewrite Z.min_l by lia.
    rewrite take_take by lia. rewrite Z.min_r by lia. do 2 f_equal. lia.
  - rewrite (drop_all n l) by lia. rewrite (take_all n l) by lia.
    unfold take at 2 3. rewrite !firstn_nil. rewrite !app_nil_r. apply take_all. lia.
Qed.

Lemma take_drop_comm : forall n m l, 0 <= n -> 0 <= m -> drop m (take (m + n) l) = take n (drop m l).
Proof.
  intros n m l Hn Hm. unfold take, drop. rewrite firstn_skipn_comm. do 2 f_equal. lia.
Qed.

Lemma take_nil : forall n, take n [] = [].
Proof. intros. apply firstn_nil. Qed.

Lemma drop_nil : forall n, drop n [] = [].
Proof. intros. apply skipn_nil. Qed.

Lemma len_zero : forall l, len l = 0 -> l = [].
Proof. intros [|a l] H; [reflexivity|]. unfold len in H. cbn in H. lia. Qed.

Lemma len_overwrite : forall l p d, 0 <= p <= len l -> len (overwrite l p d) = Z.max (len l) (p + len d).
Proof.
  intros l p d H. unfold overwrite. pose proof (len_nonneg d).
  rewrite !len_app, len_take, len_drop by lia. lia.
Qed.

Lemma overwrite_nil : forall l p, 0 <= p -> overwrite l p [] = l.
Proof. intros. unfold overwrite. cbn [app]. change (len []) with 0. rewrite Z.add_0_r. apply take_drop. Qed.

Lemma overwrite_end : forall l d, overwrite l (len l) d = l ++ d.
Proof.
  intros. unfold overwrite. pose proof (len_nonneg d). rewrite take_all by lia.
  rewrite drop_all by lia. now rewrite app_nil_r.
Qed.

Lemma overwrite_app : forall l p a b, 0 <= p <= len l ->
  overwrite (overwrite l p a) (p + len a) b = overwrite l p (a ++ b).
Proof.
  intros l p a b H. pose proof (len_nonneg a). pose proof (len_nonneg b).
  unfold overwrite at 1. unfold overwrite.
  rewrite take_app by lia. rewrite (take_all _ (take p l)) by (rewrite len_take; lia).
  rewrite len_take by lia. rewrite Z.min_l by lia. rewrite Z.add_simpl_l.
  rewrite take_app_exact.
  assert (T : len (take p l) = p) by (rewrite len_take by lia; lia).
  rewrite (drop_app_r _ (take p l)) by lia. rewrite (drop_app_r _ a) by lia.
  rewrite drop_drop by lia. rewrite len_app. rewrite <- !app_assoc. do 4 f_equal. lia.
Qed.

(* ------------------------------------------------------------------- memory *)

Lemma size_len : forall m, size_of m = len m.
Proof. reflexivity. Qed.

Lemma slice_ok : forall m off n, 0 <= off -> 0 <= n -> off + n <= len m ->
  slice m off n = Ok (take n (drop off m)).
Proof.
  intros m off n Ho Hn H. unfold slice. change size_of with len.
  replace ((0 <=? off) && (0 <=? n) && (off + n <=? len m)) with true by lia. reflexivity.
Qed.

Lemma blit_ok : forall m off d, 0 <= off -> off + len d <= len m -> blit m off d = Ok (overwrite m off d).
Proof.
  intros m off d Ho H. unfold blit. change size_of with len.
  replace ((0 <=? off) && (off + len d <=? len m)) with true by lia. reflexivity.
Qed.

Lemma memcpy_ok : forall dst doff src soff n, 0 <= soff -> 0 <= n -> soff + n <= len src ->
  0 <= doff -> doff + n <= len dst ->
  memcpy dst doff src soff n = Ok (overwrite dst doff (take n (drop soff src))).
Proof.
  intros. unfold memcpy. rewrite slice_ok by lia. cbn [bind]. apply blit_ok; [lia|].
  rewrite len_take by lia. lia.
Qed.

Lemma as_size_pos : forall x, 0 <= x -> as_size x = x.
Proof. intros x H. unfold as_size. now replace (x <? 0) with false by lia. Qed.

Lemma convert_I64 : forall x, - 2 ^ 63 <= x < 2 ^ 63 -> convert I64 x = x.
Proof.
  intros x H. unfold convert, I64. cbn [is_signed width andb].
  change (2 ^ (64 - 1)) with (2 ^ 63). change (2 ^ 64) with (2 * 2 ^ 63).
  set (h := 2 ^ 63) in *. assert (0 < h) by reflexivity. clearbody h.
  destruct (Z.lt_ge_cases x 0) as [L|G].
  - rewrite <- (Z_mod_plus_full x 1 (2 * h)), Z.mod_small by lia.
    replace (h <=? x + 1 * (2 * h)) with true by lia. lia.
  - rewrite Z.mod_small by lia. replace (h <=? x) with false by lia. reflexivity.
Qed.

(* --------------------------------------------------------------- containers *)

(** How many bytes are there to read. *)
Lemma request : forall c n, 0 <= position c <= len (content c) -> 0 <= n ->
  (if size_of (content c) <? as_size (position c + n)
   then as_size (size_of (content c) - position c) else n)
  = len (take n (drop (position c) (content c))).
Proof.
  intros c n H Hn. rewrite size_len. rewrite !as_size_pos by lia.
  rewrite len_take, len_drop by lia. destruct (len (content c) <? position c + n) eqn:E; lia.
Qed.

Lemma take_len_take : forall n l, take (len (take n l)) l = take n l.
Proof.
  intros n l. unfold take, len. rewrite Nat2Z.id. rewrite firstn_length.
  destruct (Nat.le_ge_cases (Z.to_nat n) (length l)) as [L|G].
  - f_equal. lia.
  - rewrite !firstn_all2 by lia. reflexivity.
Qed.

Lemma lean : forall c dst off n, 0 <= position c <= len (content c) -> 0 <= n -> 0 <= off ->
  let d := take n (drop (position c) (content c)) in
  off + len d <= len dst ->
  container_read c dst off n LeanRetrieval
  = Ok (Container (content c) (elem c) (position c + len d) (last_fill c), overwrite dst off d, len d).
Proof.
  intros c dst off n H Hn Ho d Hd. unfold container_read. cbv zeta. rewrite request by assumption.
  fold d. assert (L : len d <= len (content c) - position c)
    by (unfold d; rewrite len_take, len_drop by lia; lia).
  pose proof (len_nonneg d). rewrite memcpy_ok by lia. cbn [bind].
  assert (T : take (len d) (drop (position c) (content c)) = d) by apply take_len_take.
  rewrite T. reflexivity.
Qed.

(** Where a fill starts. *)
Definition resumes (c : container) : Z := position c + (if 0 <? last_fill c then last_fill c * elem c else 0).

Lemma filling : forall c dst n, 1 <= elem c -> len (content c) * (elem c + 1) < 2 ^ 63 -> 0 <= n ->
  0 <= resumes c <= len (content c) ->
  let d := take n (drop (resumes c) (content c)) in
  len d <= len dst ->
  container_read c dst 0 n FillBuffer
  = Ok (Container (content c) (elem c) (resumes c + len d - len d * elem c) (len d), overwrite dst 0 d, len d).
Proof.
  intros c dst n E B Hn H d Hd. unfold container_read.
  set (c1 := if 0 <? last_fill c then go_forward c (last_fill c) else c).
  assert (C1 : content c1 = content c /\ elem c1 = elem c /\ position c1 = resumes c).
  { subst c1. unfold resumes in *. destruct (0 <? last_fill c).
    - unfold go_forward, set_position_raw. cbn [content elem position].
      rewrite convert_I64; [tauto|]. nia.
    - rewrite Z.add_0_r. tauto. }
  destruct C1 as [K [W P]]. clearbody c1. cbv zeta. rewrite request by (rewrite ?K, ?P; lia).
  rewrite K, P. fold d.
  assert (L : len d <= len (content c) - resumes c) by (unfold d; rewrite len_take, len_drop by lia; lia).
  pose proof (len_nonneg d). rewrite memcpy_ok by lia. cbn [bind].
  unfold go_back, set_position_raw, set_position. cbn [content elem position last_fill]. rewrite ?K, ?W, ?P.
  rewrite convert_I64 by nia.
  assert (T : take (len d) (drop (resumes c) (content c)) = d) by apply take_len_take. rewrite T.
  do 4 f_equal. lia.
Qed.

Lemma in_place : forall c d, 0 <= position c -> position c + len d <= len (content c) ->
  container_write c d
  = Ok (Container (overwrite (content c) (position c) d) (elem c) (position c + len d) (last_fill c), len d).
Proof.
  intros c d H B. pose proof (len_nonneg d). unfold container_write. change size_of with len.
  rewrite as_size_pos by lia. replace (len (content c) <? position c + len d) with false by lia.
  cbv zeta. rewrite blit_ok by lia. reflexivity.
Qed.

Lemma len_repeat : forall n, 0 <= n -> len (repeat 0%N (Z.to_nat n)) = n.
Proof. intros. unfold len. rewrite repeat_length. lia. Qed.

(** A write that goes past the end. *)
Lemma straddling : forall c d, 1 <= elem c -> 0 <= position c <= len (content c) ->
  len (content c) < position c + len d -> (elem c | len d) ->
  container_write c d
  = Ok (Container (take (position c) (content c) ++ d ++ repeat 0%N (Z.to_nat (len (content c) - position c)))
          (elem c) (position c + len d) (last_fill c), len d).
Proof.
  intros c d E H B D. pose proof (len_nonneg d). unfold container_write. change size_of with len.
  rewrite as_size_pos by lia. replace (len (content c) <? position c + len d) with true by lia.
  replace (len d / elem c * elem c) with (len d)
    by (destruct D as [k ->]; rewrite Z.div_mul by lia; reflexivity).
  cbv zeta. rewrite blit_ok by (rewrite ?len_app, ?len_repeat; lia). cbn [bind].
  unfold overwrite. rewrite take_app_l by lia. rewrite drop_app_r by lia.
  do 7 f_equal. unfold drop.
  replace (Z.to_nat (len d)) with (Z.to_nat (position c + len d - len (content c)) + Z.to_nat (len (content c) - position c))%nat by lia.
  rewrite repeat_app, skipn_app, repeat_length, Nat.sub_diag, skipn_all2; [reflexivity|].
  rewrite repeat_length. lia.
Qed.

Lemma at_the_end : forall c d, 1 <= elem c -> position c = len (content c) -> (elem c | len d) ->
  container_write c d
  = Ok (Container (content c ++ d) (elem c) (position c + len d) (last_fill c), len d).
Proof.
  intros c d E P D. pose proof (len_nonneg d). pose proof (len_nonneg (content c)).
  destruct (Z.eq_dec (len d) 0) as [Z|N].
  - apply len_zero in Z. subst d. rewrite in_place by (change (len []) with 0; lia).
    rewrite overwrite_nil, app_nil_r by lia. reflexivity.
  - rewrite straddling by (try assumption; lia). rewrite P, Z.sub_diag. cbn [Z.to_nat repeat].
    rewrite take_all by lia. now rewrite app_nil_r.
Qed.
