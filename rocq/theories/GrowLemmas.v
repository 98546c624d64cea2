(** Writing over the end of a container: zeros may follow, but every byte is in its place. *)
From Coq Require Import NArith ZArith List Bool Lia ZifyBool ZifyNat ZifyN.
From Verif Require Import Base Integers ResourceSpec ResourceModel ResourceText GrowSpec.
From Verif Require Import ResourceLemmas.
Import ListNotations.
Open Scope Z_scope.

Lemma len_zeros : forall k, len (repeat 0%N k) = Z.of_nat k.
Proof. intro k. unfold len. now rewrite repeat_length. Qed.

Lemma skipn_zeros : forall n k, skipn n (repeat 0%N k) = repeat 0%N (k - n).
Proof. induction n as [|n IH]; intros [|k]; cbn [repeat skipn Nat.sub]; auto. Qed.

(** What follows is zeros, before a write to the container and after it. *)
Lemma write_padded : forall c B k d, 1 <= elem c -> content c = B ++ repeat 0%N k -> 0 <= position c <= len B ->
  (elem c | len d) -> exists k',
  container_write c d
  = Ok (Container (overwrite B (position c) d ++ repeat 0%N k') (elem c) (position c + len d) (last_fill c), len d).
Proof.
  intros c B k d W C P D. pose proof (len_nonneg d). pose proof (len_zeros k).
  assert (Lc : len (content c) = len B + Z.of_nat k) by (rewrite C, len_app; lia).
  destruct (Z_le_gt_dec (position c + len d) (len (content c))) as [Le|Gt].
  - exists (k - Z.to_nat (position c + len d - len B))%nat. rewrite in_place by lia. do 3 f_equal. rewrite C.
    unfold overwrite. rewrite take_app_l by lia. rewrite drop_app by lia. rewrite <- !app_assoc. do 3 f_equal.
    unfold drop. apply skipn_zeros.
  - exists (Z.to_nat (len (content c) - position c)). rewrite straddling by (try assumption; lia). do 3 f_equal.
    unfold overwrite. rewrite C, take_app_l by lia. rewrite (drop_all _ B) by lia. rewrite app_nil_r.
    now rewrite <- app_assoc.
Qed.

(** The state of an output resource: B is delivered, d waits. *)
Record grown (w cap : Z) (s : store) (r : resource container) (B d : list N) (k : nat) : Prop := {
  g_width : 1 <= w;
  g_elem : elem (inner r) = w;
  g_cap : capacity (buf r) = cap;
  g_content : content (inner r) = B ++ repeat 0%N k;
  g_place : 0 <= position (inner r) <= len B;
  g_whole : (w | len d);
  g_bpos : bpos (buf r) = len d;
  g_fits : len d <= cap;
  g_waits : take (len d) (mem (buf r)) = d;
  g_dirty : write_dirty (buf r) = true \/ d = [];
  g_store : s = Store (overwrite B (position (inner r)) d) (position (inner r) + len d) }.

Lemma flush_grown : forall w cap s r B d k, grown w cap s r B d k ->
  exists r' k', flush container_ops r = Ok r' /\ grown w cap s r' (bytes s) [] k'.
Proof.
  intros w cap s [c b] B d k [W E K C P D Bp F Wt Dy St]. cbn [inner buf] in *. unfold flush. cbn [inner buf].
  pose proof (len_nonneg d). destruct (write_dirty b) eqn:Wd.
  - rewrite slice_ok by (change (len (mem b)) with (capacity b); lia). cbn [bind].
    rewrite Bp. change (take (len d) (drop 0 (mem b))) with (take (len d) (mem b)). rewrite Wt.
    destruct (write_padded c B k d) as (k' & Ew); [lia|exact C|exact P|now rewrite E|].
    cbn [container_ops raw_write]. rewrite Ew. cbn [bind]. eexists. exists k'. split; [reflexivity|].
    assert (Lo := len_overwrite B (position c) d P).
    constructor; cbn [inner buf elem content position]; try assumption.
    + rewrite St. reflexivity.
    + rewrite St. cbn [bytes]. lia.
    + exists 0. reflexivity.
    + reflexivity.
    + change (len []) with 0. lia.
    + reflexivity.
    + now right.
    + rewrite St. cbn [bytes at_]. f_equal.
      * rewrite overwrite_nil by lia. reflexivity.
      * change (len []) with 0. lia.
  - destruct Dy as [Dy| ->]; [discriminate|]. exists (Resource c b), k. split; [reflexivity|].
    rewrite overwrite_nil in St by lia. change (len []) with 0 in *. rewrite Z.add_0_r in St.
    constructor; cbn [inner buf]; change (len []) with 0; try assumption; try (rewrite St; assumption).
    + now right.
    + rewrite St at 1. rewrite St. cbn [bytes]. rewrite overwrite_nil by lia. f_equal. lia.
Qed.

Lemma buffered_grown : forall w cap s r B d k data, grown w cap s r B d k -> (w | len data) ->
  len d + len data <= cap ->
  exists b', buffer_write (buf r) data = Ok b' /\
    grown w cap (Store (overwrite (bytes s) (at_ s) data) (at_ s + len data)) (Resource (inner r) b') B (d ++ data) k.
Proof.
  intros w cap s [c b] B d k data [W E K C P D Bp F Wt Dy St] Dv Ft. cbn [inner buf] in *.
  pose proof (len_nonneg d). pose proof (len_nonneg data). assert (Cap : len (mem b) = cap) by exact K.
  unfold buffer_write. rewrite blit_ok by lia. cbn [bind]. eexists. split; [reflexivity|].
  constructor; cbn [inner buf]; try assumption.
  - unfold capacity, set_write_dirty. cbn [mem]. change size_of with len. rewrite len_overwrite by lia. lia.
  - rewrite len_app. now apply Z.divide_add_r.
  - unfold set_write_dirty. cbn [bpos]. change size_of with len. rewrite len_app. lia.
  - rewrite len_app. lia.
  - unfold set_write_dirty. cbn [mem]. rewrite len_app. unfold overwrite. rewrite Bp, Wt, app_assoc.
    rewrite take_app_l by (rewrite len_app; lia). apply take_all. rewrite len_app. lia.
  - left. reflexivity.
  - rewrite St. cbn [bytes at_]. rewrite overwrite_app by lia. rewrite len_app. f_equal. lia.
Qed.

Lemma write_grown : forall w cap s r B d k data, grown w cap s r B d k -> (w | len data) ->
  exists r' B' d' k', write container_ops r data = Ok (r', len data) /\
    grown w cap (Store (overwrite (bytes s) (at_ s) data) (at_ s + len data)) r' B' d' k'.
Proof.
  intros w cap s r B d k data G Dv. pose proof (len_nonneg data). pose proof (len_nonneg d).
  assert (Direct : forall r k, grown w cap s r (bytes s) [] k -> exists r' k',
    bind (raw_write container_ops (inner r) data) (fun '(s, k) => Ok (Resource s (buf r), k)) = Ok (r', len data) /\
    grown w cap (Store (overwrite (bytes s) (at_ s) data) (at_ s + len data)) r' (overwrite (bytes s) (at_ s) data) [] k').
  { clear - Dv. intros [c b] k [W E K C P D Bp F Wt Dy St]. cbn [inner buf] in *.
    destruct (write_padded c (bytes s) k data) as (k' & Ew); [lia|exact C|exact P|now rewrite E|].
    cbn [container_ops raw_write]. rewrite Ew. cbn [bind]. eexists. exists k'. split; [reflexivity|].
    assert (At : at_ s = position c) by (rewrite St; cbn [at_]; change (len []) with 0; lia).
    assert (Lo := len_overwrite (bytes s) (position c) data P). pose proof (len_nonneg data).
    constructor; cbn [inner buf elem content position]; rewrite ?At; try assumption; try reflexivity.
    - lia.
    - rewrite overwrite_nil by lia. f_equal. change (len []) with 0. lia. }
  unfold write. destruct (0 <? capacity (buf r)) eqn:Pc.
  - unfold write_buffered. change (size_of data) with (len data).
    rewrite (g_bpos _ _ _ _ _ _ _ G). rewrite (g_cap _ _ _ _ _ _ _ G).
    destruct (cap <? len d + len data) eqn:Ov.
    + destruct (flush_grown _ _ _ _ _ _ _ G) as (r1 & k1 & -> & G1). cbn [bind andb].
      destruct (cap <? len data) eqn:Big.
      * destruct (Direct r1 k1 G1) as (r' & k' & Ew & G').
        rewrite Ew. exists r', (overwrite (bytes s) (at_ s) data), [], k'. split; [reflexivity|exact G'].
      * destruct (buffered_grown _ _ _ _ _ _ _ data G1 Dv) as (b' & Eb & G'); [change (len []) with 0; lia|].
        rewrite Eb. cbn [bind]. eexists. exists (bytes s), ([] ++ data), k1. split; [reflexivity|exact G'].
    + cbn [bind andb]. destruct (buffered_grown _ _ _ _ _ _ _ data G Dv) as (b' & Eb & G'); [lia|].
      rewrite Eb. cbn [bind]. eexists. exists B, (d ++ data), k. split; [reflexivity|exact G'].
  - assert (d = []).
    { apply len_zero. pose proof (g_fits _ _ _ _ _ _ _ G). rewrite (g_cap _ _ _ _ _ _ _ G) in Pc. lia. }
    subst d. assert (G1 : grown w cap s r (bytes s) [] k).
    { destruct G as [W E K C P D Bp F Wt Dy St]. rewrite overwrite_nil in St by lia.
      constructor; rewrite ?St; cbn [bytes at_]; rewrite ?overwrite_nil by lia; try assumption; reflexivity. }
    destruct (Direct r k G1) as (r' & k' & Ew & G').
    rewrite Ew. exists r', (overwrite (bytes s) (at_ s) data), [], k'. split; [reflexivity|exact G'].
Qed.

Lemma seek_grown : forall w cap s r B d k n o, grown w cap s r B d k -> o <> End ->
  0 <= target w s n o <= len (bytes s) -> len (bytes s) < 2 ^ 63 ->
  exists r' k', seek_output r n (reference o) = Ok r' /\
    grown w cap (Store (bytes s) (target w s n o)) r' (bytes s) [] k'.
Proof.
  intros w cap s r B d k n o G O T L. unfold seek_output.
  destruct (flush_grown _ _ _ _ _ _ _ G) as (r1 & k1 & -> & G1). cbn [bind noexcept]. eexists. exists k1. split; [reflexivity|].
  destruct r1 as [c b]. destruct G1 as [W E K C P D Bp F Wt Dy St]. cbn [inner buf] in *.
  assert (At : at_ s = position c) by (rewrite St; cbn [at_]; change (len []) with 0; lia).
  assert (Tp : position (set_position_raw c n (reference o)) = target w s n o).
  { unfold set_position_raw. cbn [position]. destruct o; cbn [reference target] in *; try congruence; rewrite E, <- ?At; apply convert_I64; lia. }
  constructor; cbn [inner buf]; rewrite ?Tp; try assumption.
  change (len []) with 0. rewrite overwrite_nil by lia. f_equal. lia.
Qed.

(** How long a store becomes. *)
Lemma store_bound : forall w s c, 0 <= at_ s <= len (bytes s) ->
  match c with Write _ | Flush | SetPosition _ _ => True | _ => False end ->
  len (bytes (fst (expected_call w s c))) <= len (bytes s) + len (everything [c]).
Proof.
  intros w s c A H. unfold everything. destruct c; try contradiction; cbn [expected_call fst bytes flat_map app]; rewrite ?app_nil_r; try (change (len []) with 0; lia).
  rewrite len_overwrite by lia. pose proof (len_nonneg data). lia.
Qed.

Lemma run_grown : forall w cap cs s r B d k, grown w cap s r B d k -> all_within w s cs ->
  len (bytes s) + len (everything cs) < 2 ^ 63 ->
  exists r' B' d' k', run call_output r cs = Ok (r', snd (expected_calls w s cs)) /\
    grown w cap (fst (expected_calls w s cs)) r' B' d' k'.
Proof.
  intros w cap. induction cs as [|c cs IH]; intros s r B d k G A L.
  - exists r, B, d, k. split; [reflexivity|exact G].
  - destruct A as [A1 A2]. cbn [run expected_calls].
    assert (At : 0 <= at_ s <= len (bytes s)).
    { destruct G as [W E K C P D Bp F Wt Dy St]. rewrite St. cbn [bytes at_]. rewrite len_overwrite by lia. pose proof (len_nonneg d). lia. }
    assert (Sb : len (bytes (fst (expected_call w s c))) + len (everything cs) < 2 ^ 63).
    { assert (X : everything (c :: cs) = everything [c] ++ everything cs) by (unfold everything; cbn [flat_map]; now rewrite app_nil_r).
      rewrite X, len_app in L. pose proof (store_bound w s c At). destruct c; try contradiction; specialize (H Logic.I); lia. }
    assert (Step : exists r1 B1 d1 k1, call_output r c = Ok (r1, snd (expected_call w s c)) /\
      grown w cap (fst (expected_call w s c)) r1 B1 d1 k1).
    { destruct c; try contradiction; cbn [call_output call_io].
      - destruct (write_grown _ _ _ _ _ _ _ data G A1) as (r' & B' & d' & k' & -> & G'). cbn [bind]. exists r', B', d', k'. split; [reflexivity|exact G'].
      - destruct (flush_grown _ _ _ _ _ _ _ G) as (r' & k' & -> & G'). cbn [bind]. exists r', (bytes s), [], k'. split; [reflexivity|exact G'].
      - destruct A1 as [O T]. pose proof (len_nonneg (everything (SetPosition n o :: cs))).
        destruct (seek_grown _ _ _ _ _ _ _ n o G O T) as (r' & k' & -> & G'); [lia|]. cbn [bind]. exists r', (bytes s), [], k'. split; [reflexivity|exact G']. }
    destruct Step as (r1 & B1 & d1 & k1 & E1 & G1). rewrite E1. cbn [bind].
    destruct (expected_call w s c) as [s1 a]. cbn [fst snd] in *.
    destruct (IH s1 r1 B1 d1 k1 G1 A2 Sb) as (r2 & B2 & d2 & k2 & E2 & G2). rewrite E2. cbn [bind].
    destruct (expected_calls w s1 cs) as [s2 l]. cbn [fst snd] in *. exists r2, B2, d2, k2. split; [reflexivity|exact G2].
Qed.

Lemma grown_new : forall l w cap, 1 <= w -> grown w (Z.of_nat cap) (Store l 0) (new_resource l w cap) l [] 0.
Proof.
  intros l w cap W. constructor; cbn [new_resource inner buf elem content position new_buffer bpos]; try reflexivity; try assumption.
  - unfold capacity. cbn [new_buffer mem]. change size_of with len. apply len_zeros.
  - cbn [repeat]. now rewrite app_nil_r.
  - pose proof (len_nonneg l). lia.
  - exists 0. reflexivity.
  - change (len []) with 0. lia.
  - now right.
Qed.
