(** The relation between a resource and the store it stands for. *)
From Coq Require Import NArith ZArith List Bool Lia ZifyBool ZifyNat ZifyN.
From Verif Require Import Base Integers ResourceSpec ResourceModel ResourceText ResourceLemmas.
Import ListNotations.
Open Scope Z_scope.

(** The part that depends on the phase. *)
Definition in_phase (w : Z) (p : phase) (s : store) (r : resource container) : Prop :=
  let c := inner r in let b := buf r in
  match p with
  | Neutral =>
      content c = bytes s /\ position c = at_ s /\ last_fill c = 0 /\
      read_dirty b = true /\ write_dirty b = false /\ bpos b = 0
  | Reading =>
      content c = bytes s /\ read_dirty b = false /\ write_dirty b = false /\
      last_fill c = filled b /\ 0 <= bpos b <= filled b /\ filled b <= capacity b /\
      position c + filled b * w = at_ s + (filled b - bpos b) /\
      0 <= at_ s - bpos b /\ at_ s + (filled b - bpos b) <= len (bytes s) /\
      take (filled b) (mem b) = take (filled b) (drop (at_ s - bpos b) (bytes s))
  | Replacing =>
      last_fill c = 0 /\ read_dirty b = true /\ (write_dirty b = false -> bpos b = 0) /\
      0 <= bpos b <= capacity b /\ position c + bpos b = at_ s /\ 0 <= position c /\
      position c + bpos b <= len (content c) /\
      bytes s = overwrite (content c) (position c) (take (bpos b) (mem b))
  | Appending =>
      last_fill c = 0 /\ read_dirty b = true /\ (write_dirty b = false -> bpos b = 0) /\
      0 <= bpos b <= capacity b /\ position c + bpos b = at_ s /\
      position c = len (content c) /\ (w | bpos b) /\
      bytes s = content c ++ take (bpos b) (mem b)
  end.

Record stands_for (w cap : Z) (p : phase) (s : store) (r : resource container) : Prop := {
  sf_width : 1 <= w;
  sf_elem : elem (inner r) = w;
  sf_cap : capacity (buf r) = cap;
  sf_whole : (w | len (bytes s));
  sf_at : 0 <= at_ s <= len (bytes s);
  sf_fits : len (bytes s) * (w + 1) < 2 ^ 63;
  sf_unbuffered : cap = 0 -> p = Neutral;
  sf_phase : in_phase w p s r }.

Lemma capacity_nonneg : forall b, 0 <= capacity b.
Proof. intros. apply len_nonneg. Qed.

Lemma len_next : forall s n, 0 <= at_ s <= len (bytes s) -> 0 <= n ->
  len (next_bytes s n) = Z.min n (len (bytes s) - at_ s).
Proof. intros. unfold next_bytes. rewrite len_take, len_drop by lia. lia. Qed.

(** A full buffer after a fill. *)
Lemma fill_ok : forall w cap s r, 1 <= w -> elem (inner r) = w -> capacity (buf r) = cap ->
  content (inner r) = bytes s -> len (bytes s) * (w + 1) < 2 ^ 63 -> 0 <= at_ s <= len (bytes s) ->
  resumes (inner r) = at_ s ->
  exists r', fill container_ops r = Ok (r', filled (buf r')) /\
    elem (inner r') = w /\ capacity (buf r') = cap /\ write_dirty (buf r') = write_dirty (buf r) /\
    read_dirty (buf r') = false /\ bpos (buf r') = 0 /\ content (inner r') = bytes s /\
    last_fill (inner r') = filled (buf r') /\ filled (buf r') = Z.min cap (len (bytes s) - at_ s) /\
    position (inner r') + filled (buf r') * w = at_ s + filled (buf r') /\
    take (filled (buf r')) (mem (buf r')) = take (filled (buf r')) (drop (at_ s) (bytes s)).
Proof.
  intros w cap s r W E C K B A P. pose proof (capacity_nonneg (buf r)) as Cn.
  unfold fill, container_ops. cbn [raw_read].
  set (d := take cap (drop (at_ s) (bytes s))).
  assert (Ld : len d = Z.min cap (len (bytes s) - at_ s)).
  { unfold d. rewrite len_take, len_drop by lia. lia. }
  assert (F := filling (inner r) (mem (buf r)) (capacity (buf r))).
  rewrite E, K, C, P in F. fold d in F. cbv zeta in F.
  rewrite C, F; try lia; [|unfold capacity in C; change size_of with len in C; lia].
  cbn [bind]. match goal with |- exists r', Ok (?x, _) = _ /\ _ => exists x end.
  split; [reflexivity|]. cbn [inner buf mem filled bpos read_dirty write_dirty elem content position last_fill].
  split; [reflexivity|]. split.
  { unfold capacity in *. cbn [mem]. change size_of with len in *. rewrite len_overwrite by lia. lia. }
  repeat split; try lia.
  unfold overwrite. rewrite take_0. cbn [app]. rewrite take_app_exact. symmetry. apply take_len_take.
Qed.

(** Taking n bytes that are in the buffer. *)
Lemma buffer_read_ok : forall b dst off n, 0 <= n -> 0 <= bpos b -> bpos b + n <= filled b ->
  filled b <= capacity b -> 0 <= off -> off + n <= len dst ->
  buffer_read b dst off n
  = Ok (Buffer (mem b) (filled b) (bpos b + n) (read_dirty b) (write_dirty b),
        overwrite dst off (take n (drop (bpos b) (mem b))), n).
Proof.
  intros b dst off n N P F C O D. unfold buffer_read. cbv zeta.
  replace (filled b <? bpos b + n) with false by lia.
  unfold capacity in C. change size_of with len in C.
  rewrite memcpy_ok by lia. reflexivity.
Qed.

(** The buffered bytes are those of the store. *)
Lemma window : forall f k n a (m l : list N), 0 <= k -> 0 <= n -> k + n <= f -> 0 <= a ->
  take f m = take f (drop a l) -> take n (drop k m) = take n (drop (a + k) l).
Proof.
  intros f k n a m l K N F A H.
  rewrite <- take_drop_comm by lia. rewrite <- (drop_drop k a) by lia.
  rewrite <- (take_drop_comm n k (drop a l)) by lia. f_equal.
  replace (k + n) with (Z.min (k + n) f) by lia. rewrite <- !take_take by lia. now rewrite H.
Qed.

Lemma overwrite_start : forall dst d, overwrite dst 0 d = d ++ drop (len d) dst.
Proof. reflexivity. Qed.

Lemma read_step : forall w cap p s r block n, stands_for w cap p s r ->
  0 <= n <= len block -> cap = 0 \/ n <= cap -> p = Neutral \/ p = Reading ->
  exists r', read container_ops r block n
    = Ok (r', next_bytes s n ++ drop (len (next_bytes s n)) block, len (next_bytes s n)) /\
    stands_for w cap (if cap =? 0 then Neutral else Reading) (Store (bytes s) (at_ s + len (next_bytes s n))) r'.
Proof.
  intros w cap p s r block n S N C Ph. destruct S as [W E K D A B U I].
  assert (Ln := len_next s n A (proj1 N)). unfold read. rewrite K. destruct (0 <? cap) eqn:Z.
  - (* buffered *)
    replace (cap =? 0) with false by lia.
    assert (Reads : exists r1, (if read_dirty (buf r) then bind (fill container_ops r) (fun '(r, _) => Ok r) else Ok r) = Ok r1
        /\ elem (inner r1) = w /\ capacity (buf r1) = cap /\ in_phase w Reading s r1).
    { destruct Ph as [-> | ->]; cbn [in_phase] in I.
      - destruct I as (I1 & I2 & I3 & I4 & I5 & I6). rewrite I4.
        destruct (fill_ok w cap s r W E K I1 B A) as (r1 & F & G1 & G2 & G3 & G4 & G5 & G6 & G7 & G8 & G9 & G10).
        { unfold resumes. rewrite I3. cbn. lia. }
        rewrite F. cbn [bind]. exists r1. split; [reflexivity|]. split; [assumption|]. split; [assumption|].
        cbn [in_phase]. rewrite G5, G3, G2, I5, Z.sub_0_r. repeat split; try assumption; try lia.
        now rewrite Z.sub_0_r.
      - exists r. destruct I as (I1 & I2 & I'). rewrite I2. cbn [in_phase]. tauto. }
    unfold read_buffered. destruct Reads as (r1 & -> & E1 & K1 & I1). cbn [bind]. clear I E K r Ph U.
    destruct I1 as (J1 & J2 & J3 & J4 & J5 & J6 & J7 & J8 & J9 & J10).
    assert (Wi := fun n => window (filled (buf r1)) (bpos (buf r1)) n (at_ s - bpos (buf r1)) (mem (buf r1)) (bytes s)).
    replace (at_ s - bpos (buf r1) + bpos (buf r1)) with (at_ s) in Wi by lia.
    destruct (filled (buf r1) <? bpos (buf r1) + n) eqn:More.
    + (* the buffer does not have all of it *)
      rewrite as_size_pos by lia. set (f := filled (buf r1) - bpos (buf r1)).
      assert (Fst : (if 0 <? f
        then bind (buffer_read (buf r1) block 0 f) (fun '(b, dst, k) => Ok (Resource (inner r1) b, dst, k, as_size (n - k)))
        else Ok (r1, block, 0, n))
        = Ok (Resource (inner r1) (Buffer (mem (buf r1)) (filled (buf r1)) (filled (buf r1)) false false),
              next_bytes s f ++ drop f block, f, n - f)).
      { destruct (0 <? f) eqn:Fp.
        - rewrite buffer_read_ok by lia. cbn [bind]. rewrite as_size_pos by lia.
          rewrite overwrite_start. rewrite Wi by (try assumption; lia). rewrite J2, J3.
          fold (next_bytes s f). rewrite (len_next s f) by lia.
          replace (Z.min f (len (bytes s) - at_ s)) with f by lia.
          replace (bpos (buf r1) + f) with (filled (buf r1)) by lia. reflexivity.
        - assert (f = 0) by lia. replace f with 0 by lia. unfold next_bytes. rewrite take_0, drop_0. cbn [app].
          rewrite Z.sub_0_r. f_equal. f_equal. f_equal. f_equal. destruct r1 as [i b]. cbn [inner buf] in *. f_equal.
          destruct b as [bm bf bp br bw]. cbn [mem filled bpos read_dirty write_dirty] in *. subst br bw. f_equal. lia. }
      rewrite Fst. cbn [bind inner buf]. unfold capacity at 1. cbn [mem]. fold (capacity (buf r1)). rewrite K1.
      replace (cap <? n - f) with false by lia.
      set (s2 := Store (bytes s) (at_ s + f)).
      destruct (fill_ok w cap s2 (Resource (inner r1) (Buffer (mem (buf r1)) (filled (buf r1)) (filled (buf r1)) false false)) W E1 K1 J1 B)
        as (r2 & F & G1 & G2 & G3 & G4 & G5 & G6 & G7 & G8 & G9 & G10); cbn [s2 bytes at_ inner buf].
      { lia. }
      { unfold resumes. rewrite J4, E1. destruct (0 <? filled (buf r1)) eqn:X; nia. }
      rewrite F. cbn [bind]. cbn [s2 bytes at_ write_dirty buf] in *.
      set (m := if filled (buf r2) <? n - f then filled (buf r2) else n - f).
      assert (Hm : m = Z.min (n - f) (len (bytes s) - (at_ s + f))) by (unfold m; destruct (filled (buf r2) <? n - f) eqn:X; lia).
      assert (Lf : len (next_bytes s f ++ drop f block) = len block).
      { rewrite len_app, len_next, len_drop by lia. lia. }
      rewrite buffer_read_ok by lia. cbn [bind].
      assert (Tm : take m (drop (bpos (buf r2)) (mem (buf r2))) = take m (drop (at_ s + f) (bytes s))).
      { rewrite G5, drop_0. replace m with (Z.min m (filled (buf r2))) by lia.
        rewrite <- !take_take by lia. now rewrite G10. }
      rewrite Tm.
      assert (All : next_bytes s n = next_bytes s f ++ take m (drop (at_ s + f) (bytes s))).
      { unfold next_bytes. replace n with (f + (n - f)) at 1 by lia. rewrite take_split by lia. f_equal.
        rewrite drop_drop by lia. rewrite Hm.
        destruct (Z.le_ge_cases (n - f) (len (bytes s) - (at_ s + f))).
        - now rewrite Z.min_l by lia.
        - rewrite Z.min_r by lia. rewrite !take_all by (rewrite len_drop; lia). reflexivity. }
      assert (Lm : len (take m (drop (at_ s + f) (bytes s))) = m) by (rewrite len_take, len_drop by lia; lia).
      assert (Lnf : len (next_bytes s f) = f) by (rewrite len_next by lia; lia).
      assert (Ln' : len (next_bytes s n) = f + m) by (rewrite All, len_app; lia).
      eexists. split.
      * f_equal. f_equal; [f_equal|lia].
        unfold overwrite. rewrite take_app_l by lia. rewrite (take_all f) by lia. rewrite All at 1.
        rewrite <- app_assoc. f_equal. f_equal. rewrite drop_app_r by lia. rewrite drop_drop by lia. f_equal. lia.
      * constructor; cbn [inner buf bytes at_]; try assumption; try lia.
        -- cbn [in_phase inner buf bytes at_ mem filled bpos read_dirty write_dirty]. rewrite Ln', G5, Z.add_0_l.
           unfold capacity in *. cbn [mem]. rewrite G2.
           repeat split; try assumption; try lia. rewrite G10. f_equal. f_equal. lia.
    + (* it does *)
      rewrite buffer_read_ok by lia. cbn [bind]. rewrite Wi by (try assumption; lia). fold (next_bytes s n).
      assert (Ln' : len (next_bytes s n) = n) by lia. rewrite overwrite_start, Ln'.
      eexists. split; [reflexivity|].
      constructor; cbn [inner buf bytes at_]; try assumption; try lia.
      cbn [in_phase inner buf bytes at_ mem filled bpos read_dirty write_dirty].
      replace (at_ s + n - (bpos (buf r1) + n)) with (at_ s - bpos (buf r1)) by lia.
      unfold capacity in *. cbn [mem]. repeat split; try assumption; lia.
  - (* unbuffered *)
    pose proof (capacity_nonneg (buf r)). assert (cap = 0) by lia. rewrite (U ltac:(assumption)) in *.
    replace (cap =? 0) with true by lia. destruct I as (I1 & I2 & I3 & I4 & I5 & I6).
    unfold container_ops. cbn [raw_read]. assert (L := lean (inner r) block 0 n).
    rewrite I1, I2, I3, E in L. fold (next_bytes s n) in L. cbv zeta in L. rewrite L by lia.
    cbn [bind]. rewrite overwrite_start. eexists. split; [reflexivity|].
    constructor; cbn [inner buf bytes at_]; try assumption; try lia; try tauto.
    cbn [in_phase inner buf bytes at_ content position last_fill]. tauto.
Qed.

(* ------------------------------------------------------------------- writes *)

(** A state with nothing pending. *)
Lemma neutral_intro : forall w cap s c b, 1 <= w -> elem c = w -> capacity b = cap ->
  (w | len (bytes s)) -> 0 <= at_ s <= len (bytes s) -> len (bytes s) * (w + 1) < 2 ^ 63 ->
  content c = bytes s -> position c = at_ s -> last_fill c = 0 ->
  read_dirty b = true -> write_dirty b = false -> bpos b = 0 ->
  stands_for w cap Neutral s (Resource c b).
Proof. intros. constructor; cbn [inner buf in_phase]; tauto. Qed.

(** A phase in which flush leaves the resource with nothing pending. *)
Definition writing (p : phase) : bool := match p with Replacing | Appending => true | _ => false end.

Lemma capacity_set_write : forall b f, capacity (set_write_dirty b f) = capacity b.
Proof. reflexivity. Qed.

Lemma flush_step : forall w cap p s r, stands_for w cap p s r ->
  exists r', flush container_ops r = Ok r' /\
    stands_for w cap (match p with Reading => Reading | _ => Neutral end) s r'.
Proof.
  intros w cap p s r S. assert (S0 := S). destruct S as [W E K D A B U I]. unfold flush.
  destruct p; cbn [in_phase] in I.
  - destruct I as (I1 & I2 & I3 & I4 & I5 & I6). rewrite I5. eauto.
  - destruct I as (I1 & I2 & I3 & I'). rewrite I3. eauto.
  - destruct I as (I1 & I2 & I3 & I4 & I5 & I6 & I7 & I8).
    destruct (write_dirty (buf r)) eqn:X.
    + unfold capacity in I4. change size_of with len in I4.
      rewrite slice_ok by lia. cbn [bind]. unfold container_ops. cbn [raw_write]. rewrite drop_0.
      assert (Lt : len (take (bpos (buf r)) (mem (buf r))) = bpos (buf r)) by (rewrite len_take by lia; lia).
      rewrite in_place by lia. cbn [bind]. eexists. split; [reflexivity|].
      apply neutral_intro; cbn [content elem position last_fill mem filled bpos read_dirty write_dirty set_write_dirty]; try assumption; try lia; congruence.
    + specialize (I3 eq_refl). rewrite I3, Z.add_0_r, take_0 in *. rewrite overwrite_nil in I8 by lia.
      eexists. split; [reflexivity|]. destruct r as [c b]. apply neutral_intro; cbn [inner buf] in *; try assumption; congruence.
  - destruct I as (I1 & I2 & I3 & I4 & I5 & I6 & I7 & I8).
    destruct (write_dirty (buf r)) eqn:X.
    + unfold capacity in I4. change size_of with len in I4.
      rewrite slice_ok by lia. cbn [bind]. unfold container_ops. cbn [raw_write]. rewrite drop_0.
      assert (Lt : len (take (bpos (buf r)) (mem (buf r))) = bpos (buf r)) by (rewrite len_take by lia; lia).
      rewrite at_the_end; [|lia|assumption|rewrite E, Lt; assumption]. cbn [bind]. eexists. split; [reflexivity|].
      apply neutral_intro; cbn [content elem position last_fill mem filled bpos read_dirty write_dirty set_write_dirty]; try assumption; try lia; congruence.
    + specialize (I3 eq_refl). rewrite I3, Z.add_0_r, take_0 in *. rewrite app_nil_r in I8.
      eexists. split; [reflexivity|]. destruct r as [c b]. apply neutral_intro; cbn [inner buf] in *; try assumption; congruence.
Qed.

(** Neutral is also the start of either kind of writing. *)
Lemma start_writing : forall w cap s r, stands_for w cap Neutral s r -> 0 < cap ->
  stands_for w cap (if at_ s =? len (bytes s) then Appending else Replacing) s r.
Proof.
  intros w cap s r [W E K D A B U I] C. constructor; try assumption; [lia|].
  cbn [in_phase] in I. destruct I as (I1 & I2 & I3 & I4 & I5 & I6). rewrite <- K in C.
  destruct (at_ s =? len (bytes s)) eqn:X; cbn [in_phase]; rewrite I6, I2, I1, I3, I4, I5, Z.add_0_r, take_0.
  - rewrite app_nil_r. repeat split; try lia. exists 0. lia.
  - rewrite overwrite_nil by lia. repeat split; lia.
Qed.

Lemma divide_len_overwrite : forall w s data, (w | len (bytes s)) -> 0 <= at_ s <= len (bytes s) ->
  at_ s + len data <= len (bytes s) \/ at_ s = len (bytes s) /\ (w | len data) ->
  (w | len (overwrite (bytes s) (at_ s) data)).
Proof.
  intros w s data D A [H|[H H']]; pose proof (len_nonneg data); rewrite len_overwrite by lia.
  - now rewrite Z.max_l by lia.
  - rewrite Z.max_r by lia. rewrite H. now apply Z.divide_add_r.
Qed.

(** What a write to the resource itself does when nothing is pending. *)
Lemma raw_write_step : forall w cap s c b data, stands_for w cap Neutral s (Resource c b) ->
  len (overwrite (bytes s) (at_ s) data) * (w + 1) < 2 ^ 63 ->
  at_ s + len data <= len (bytes s) \/ at_ s = len (bytes s) /\ (w | len data) ->
  exists c', raw_write container_ops c data = Ok (c', len data) /\
    stands_for w cap Neutral (Store (overwrite (bytes s) (at_ s) data) (at_ s + len data)) (Resource c' b).
Proof.
  intros w cap s c b data [W E K D A B U I] F H. cbn [in_phase inner buf] in *.
  destruct I as (I1 & I2 & I3 & I4 & I5 & I6). pose proof (len_nonneg data).
  unfold container_ops. cbn [raw_write]. destruct H as [H|[H H']].
  - rewrite in_place by (rewrite ?I1, ?I2; lia). rewrite I1, I2. eexists. split; [reflexivity|].
    apply neutral_intro; cbn [content elem position last_fill bytes at_]; try assumption; try reflexivity.
    + apply divide_len_overwrite; auto.
    + rewrite len_overwrite by lia. lia.
  - rewrite at_the_end; [|lia|congruence|rewrite E; assumption]. rewrite I1, I2. eexists. split; [reflexivity|].
    apply neutral_intro; cbn [content elem position last_fill bytes at_]; try assumption; try reflexivity.
    + apply divide_len_overwrite; auto.
    + rewrite len_overwrite by lia. lia.
    + rewrite H. symmetry. apply overwrite_end.
Qed.

(** A write to the buffer. *)
Lemma buffer_write_step : forall w cap p s c b data, stands_for w cap p s (Resource c b) -> writing p = true ->
  bpos b + len data <= cap ->
  len (overwrite (bytes s) (at_ s) data) * (w + 1) < 2 ^ 63 ->
  match p with Replacing => at_ s + len data <= len (bytes s) | Appending => (w | len data) | _ => False end ->
  exists b', buffer_write b data = Ok b' /\
    stands_for w cap p (Store (overwrite (bytes s) (at_ s) data) (at_ s + len data)) (Resource c b').
Proof.
  intros w cap p s c b data [W E K D A B U I] P F G H. cbn [inner buf] in *. pose proof (len_nonneg data).
  assert (Cap : len (mem b) = cap) by exact K.
  destruct p; try discriminate; cbn [in_phase inner buf] in I; unfold buffer_write.
  - destruct I as (I1 & I2 & I3 & I4 & I5 & I6 & I7 & I8).
    rewrite blit_ok by lia. cbn [bind]. eexists. split; [reflexivity|].
    assert (T : take (bpos b + len data) (overwrite (mem b) (bpos b) data) = take (bpos b) (mem b) ++ data).
    { unfold overwrite. rewrite app_assoc. rewrite take_app_l by (rewrite len_app, len_take by lia; lia).
      apply take_all. rewrite len_app, len_take by lia. lia. }
    assert (Lt : len (take (bpos b) (mem b)) = bpos b) by (rewrite len_take by lia; lia).
    constructor; cbn [inner buf bytes at_]; try assumption.
    + unfold capacity, set_write_dirty. cbn [mem]. change size_of with len. rewrite len_overwrite by lia. lia.
    + apply divide_len_overwrite; auto.
    + rewrite len_overwrite by lia. lia.
    + cbn [in_phase inner buf bytes at_ set_write_dirty mem filled bpos read_dirty write_dirty].
      unfold capacity, set_write_dirty. cbn [mem]. change size_of with len. rewrite T. rewrite (len_overwrite (mem b)) by lia.
      assert (Lc : len (bytes s) = len (content c)) by (rewrite I8, len_overwrite by lia; lia).
      repeat split; try assumption; try lia; try discriminate.
      rewrite I8, <- I5. rewrite <- Lt at 2. rewrite overwrite_app by lia. reflexivity.
  - destruct I as (I1 & I2 & I3 & I4 & I5 & I6 & I7 & I8).
    rewrite blit_ok by lia. cbn [bind]. eexists. split; [reflexivity|].
    assert (T : take (bpos b + len data) (overwrite (mem b) (bpos b) data) = take (bpos b) (mem b) ++ data).
    { unfold overwrite. rewrite app_assoc. rewrite take_app_l by (rewrite len_app, len_take by lia; lia).
      apply take_all. rewrite len_app, len_take by lia. lia. }
    assert (Lt : len (take (bpos b) (mem b)) = bpos b) by (rewrite len_take by lia; lia).
    assert (Ae : at_ s = len (bytes s)) by (rewrite I8, len_app; lia).
    constructor; cbn [inner buf bytes at_]; try assumption.
    + unfold capacity, set_write_dirty. cbn [mem]. change size_of with len. rewrite len_overwrite by lia. lia.
    + apply divide_len_overwrite; auto.
    + rewrite len_overwrite by lia. lia.
    + cbn [in_phase inner buf bytes at_ set_write_dirty mem filled bpos read_dirty write_dirty].
      unfold capacity, set_write_dirty. cbn [mem]. change size_of with len. rewrite T. rewrite (len_overwrite (mem b)) by lia.
      repeat split; try assumption; try lia; try discriminate.
      * now apply Z.divide_add_r.
      * rewrite Ae, overwrite_end, I8. now rewrite app_assoc.
Qed.

Lemma appending_end : forall w cap s r, stands_for w cap Appending s r -> at_ s = len (bytes s).
Proof.
  intros w cap s r [W E K D A B U I]. destruct I as (I1 & I2 & I3 & I4 & I5 & I6 & I7 & I8).
  rewrite I8, len_app, len_take by lia. unfold capacity in I4. change size_of with len in I4. lia.
Qed.

Lemma write_step : forall w cap p s r data, stands_for w cap p s r -> p <> Reading ->
  len (overwrite (bytes s) (at_ s) data) * (w + 1) < 2 ^ 63 ->
  match next_phase cap s p (Write data) with
  | Replacing => at_ s + len data <= len (bytes s)
  | Appending => (w | len data)
  | _ => at_ s + len data <= len (bytes s) \/ at_ s = len (bytes s) /\ (w | len data)
  end ->
  exists r', write container_ops r data = Ok (r', len data) /\
    stands_for w cap (next_phase cap s p (Write data))
      (Store (overwrite (bytes s) (at_ s) data) (at_ s + len data)) r'.
Proof.
  intros w cap p s r data S P F H. pose proof (capacity_nonneg (buf r)) as Cn.
  assert (K := sf_cap _ _ _ _ _ S). assert (U := sf_unbuffered _ _ _ _ _ S).
  unfold write. rewrite K. destruct (0 <? cap) eqn:Zc.
  - (* buffered *)
    assert (N : exists q, next_phase cap s p (Write data) = q /\ writing q = true /\ stands_for w cap q s r).
    { unfold next_phase in *. replace (cap =? 0) with false in * by lia. destruct p.
      - eexists. split; [reflexivity|]. split; [now destruct (at_ s =? len (bytes s))|]. apply start_writing; [assumption|lia].
      - congruence.
      - eexists. split; [reflexivity|]. split; [reflexivity|assumption].
      - eexists. split; [reflexivity|]. split; [reflexivity|assumption]. }
    destruct N as (q & Nq & Q & Sq). rewrite Nq in *. clear Nq U S P p.
    assert (H' : at_ s + len data <= len (bytes s) \/ at_ s = len (bytes s) /\ (w | len data)).
    { destruct q; try discriminate; [auto|]. right. split; [|assumption]. eapply appending_end; eassumption. }
    unfold write_buffered. change size_of with len. rewrite K. destruct (cap <? bpos (buf r) + len data) eqn:Full.
    + destruct (flush_step _ _ _ _ _ Sq) as (r1 & -> & S1). cbn [bind andb].
      assert (S1' : stands_for w cap Neutral s r1) by (destruct q; try discriminate; assumption). clear S1.
      destruct r1 as [c1 b1]. cbn [inner buf]. destruct (cap <? len data) eqn:Big.
      * destruct (raw_write_step _ _ _ _ _ data S1' F H') as (c2 & -> & S2). cbn [bind].
        eexists. split; [reflexivity|].
        (* nothing pending, so still in either phase *)
        assert (Ae : q = Appending -> at_ s = len (bytes s)) by (intros ->; eapply appending_end; eassumption).
        clear Sq. destruct S2 as [W E K2 D A B U2 I]. cbn [in_phase inner buf bytes at_] in *.
        destruct I as (I1 & I2 & I3 & I4 & I5 & I6).
        constructor; cbn [inner buf bytes at_]; try assumption; [lia|].
        destruct q; try discriminate; cbn [in_phase inner buf bytes at_]; rewrite I6, I2, I1, Z.add_0_r, take_0;
          rewrite ?app_nil_r, ?overwrite_nil by lia; repeat split; try assumption; try lia.
        -- rewrite (Ae eq_refl), overwrite_end, len_app. reflexivity.
        -- exists 0. lia.
      * assert (Sw : stands_for w cap q s (Resource c1 b1)).
        { destruct S1' as [W E K1 D A B U1 I]. cbn [in_phase inner buf bytes at_] in *.
          destruct I as (I1 & I2 & I3 & I4 & I5 & I6).
          constructor; cbn [inner buf bytes at_]; try assumption; [lia|].
          destruct q; try discriminate; cbn [in_phase inner buf bytes at_]; rewrite I6, I2, I1, Z.add_0_r, take_0;
            rewrite ?app_nil_r, ?overwrite_nil by lia; repeat split; try assumption; try lia.
          - eapply appending_end; eassumption.
          - exists 0. lia. }
        destruct (buffer_write_step _ _ _ _ _ _ data Sw Q) as (b2 & E2 & S2); [|assumption| |].
        -- destruct S1' as [_ _ _ _ _ _ _ I]. cbn [in_phase inner buf] in I. lia.
        -- destruct q; try discriminate; assumption.
        -- rewrite E2. cbn [bind]. eauto.
    + cbn [bind andb]. destruct r as [c b]. cbn [inner buf] in *.
      destruct (buffer_write_step _ _ _ _ _ _ data Sq Q) as (b2 & E2 & S2); [lia|assumption| |].
      * destruct q; try discriminate; assumption.
      * rewrite E2. cbn [bind]. eauto.
  - (* unbuffered *)
    assert (cap = 0) by lia. assert (p = Neutral) by auto. subst p. unfold next_phase in *.
    replace (cap =? 0) with true in * by lia. destruct r as [c b]. cbn [inner buf].
    destruct (raw_write_step _ _ _ _ _ data S F H) as (c2 & -> & S2). cbn [bind]. eauto.
Qed.
