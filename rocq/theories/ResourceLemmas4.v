(** Scripts of only writes, of only reads, of tied resources; and reads in
    arbitrary states. *)
From Coq Require Import NArith ZArith List Bool Lia ZifyBool ZifyNat ZifyN.
From Verif Require Import Base Integers ResourceSpec ResourceModel ResourceText.
From Verif Require Import ResourceLemmas ResourceLemmas2 ResourceLemmas3.
Import ListNotations.
Open Scope Z_scope.

Lemma everything_cons : forall c cs, everything (c :: cs) = everything [c] ++ everything cs.
Proof. intros. unfold everything. cbn [flat_map]. now rewrite app_nil_r. Qed.

(** Writing from the end on. *)
Lemma appending_calls : forall w cap cs l p, 1 <= w -> Forall (write_or_flush w) cs ->
  (len l + len (everything cs)) * (w + 1) < 2 ^ 63 -> p = Neutral \/ p = Appending ->
  all_allowed w cap (Store l (len l)) p cs /\
  expected_calls w (Store l (len l)) cs
  = (Store (l ++ everything cs) (len (l ++ everything cs)), map write_report cs) /\
  (last_phase w cap (Store l (len l)) p cs = Neutral \/ last_phase w cap (Store l (len l)) p cs = Appending).
Proof.
  intros w cap. induction cs as [|c cs IH]; intros l p W F B P.
  - cbn. rewrite app_nil_r. tauto.
  - inversion F as [|? ? Fc Fs]; subst. rewrite everything_cons in *. rewrite len_app in B.
    pose proof (len_nonneg l). pose proof (len_nonneg (everything cs)).
    destruct c as [b n|d| |n o|n|n]; cbn [write_or_flush] in Fc; try contradiction.
    + change (everything [Write d]) with (d ++ []) in *. rewrite app_nil_r in *. pose proof (len_nonneg d).
      set (p' := next_phase cap (Store l (len l)) p (Write d)).
      assert (P' : p' = Neutral \/ p' = Appending).
      { unfold p', next_phase. cbn [at_ bytes]. rewrite Z.eqb_refl. destruct (cap =? 0); destruct P as [-> | ->]; tauto. }
      assert (E : expected_call w (Store l (len l)) (Write d) = (Store (l ++ d) (len (l ++ d)), Wrote (len d))).
      { cbn [expected_call bytes at_]. now rewrite overwrite_end, len_app. }
      cbn [all_allowed expected_calls last_phase map write_report]. fold p'. rewrite E. cbn [fst snd].
      destruct (IH (l ++ d) p') as (A & X & L); try assumption; [rewrite len_app; lia|].
      split; [split; [|exact A]|split; [|exact L]].
      * cbn [allowed bytes at_]. fold p'. rewrite overwrite_end, len_app. split; [destruct P; congruence|].
        split; [nia|]. destruct P' as [-> | ->]; auto.
      * rewrite X. now rewrite <- app_assoc.
    + change (everything [Flush]) with (@nil N) in *. cbn [app] in *. change (len []) with 0 in B.
      set (p' := next_phase cap (Store l (len l)) p Flush).
      assert (P' : p' = Neutral \/ p' = Appending).
      { unfold p', next_phase. destruct (cap =? 0); destruct P as [-> | ->]; tauto. }
      cbn [all_allowed expected_calls last_phase map write_report expected_call fst snd]. fold p'.
      destruct (IH l p') as (A & X & L); try assumption. rewrite X. cbn [allowed]. tauto.
Qed.

(** Writing over what is there. *)
Lemma replacing_calls : forall w cap cs l a p, 1 <= w -> 0 <= a -> Forall (write_or_flush w) cs ->
  a + len (everything cs) <= len l -> len l * (w + 1) < 2 ^ 63 ->
  p <> Reading -> (p = Appending -> a = len l) ->
  all_allowed w cap (Store l a) p cs /\
  expected_calls w (Store l a) cs
  = (Store (overwrite l a (everything cs)) (a + len (everything cs)), map write_report cs) /\
  last_phase w cap (Store l a) p cs <> Reading.
Proof.
  intros w cap. induction cs as [|c cs IH]; intros l a p W A F B L P Q.
  - cbn. rewrite overwrite_nil by lia. rewrite Z.add_0_r. tauto.
  - inversion F as [|? ? Fc Fs]; subst. rewrite everything_cons in *. rewrite len_app in B.
    pose proof (len_nonneg l). pose proof (len_nonneg (everything cs)).
    destruct c as [b n|d| |n o|n|n]; cbn [write_or_flush] in Fc; try contradiction.
    + change (everything [Write d]) with (d ++ []) in *. rewrite app_nil_r in *. pose proof (len_nonneg d).
      set (p' := next_phase cap (Store l a) p (Write d)).
      assert (P' : p' <> Reading /\ (p' = Appending -> a = len l)).
      { unfold p', next_phase. cbn [at_ bytes]. destruct (cap =? 0); [split; discriminate|].
        destruct p; try (split; [congruence|auto]); try congruence;
          destruct (a =? len l) eqn:X; split; try congruence; lia. }
      cbn [all_allowed expected_calls last_phase map write_report expected_call bytes at_ fst snd]. fold p'.
      assert (Lo : len (overwrite l a d) = len l) by (rewrite len_overwrite; lia).
      destruct (IH (overwrite l a d) (a + len d) p') as (X & Y & Z); try assumption; try lia; try tauto.
      { intros Ap. rewrite Lo. destruct P' as [_ P']. specialize (P' Ap). lia. }
      split; [split; [|exact X]|split; [|exact Z]].
      * cbn [allowed bytes at_]. fold p'. rewrite Lo. split; [assumption|]. split; [assumption|].
        destruct p'; tauto || (left; lia) || lia.
      * rewrite Y. rewrite overwrite_app by lia. rewrite len_app. now rewrite Z.add_assoc.
    + change (everything [Flush]) with (@nil N) in *. cbn [app] in *. change (len []) with 0 in B.
      set (p' := next_phase cap (Store l a) p Flush).
      assert (P' : p' <> Reading /\ (p' = Appending -> a = len l)).
      { unfold p', next_phase. destruct (cap =? 0); [split; discriminate|]. destruct p; split; congruence. }
      cbn [all_allowed expected_calls last_phase map write_report expected_call fst snd]. fold p'.
      destruct (IH l a p') as (X & Y & Z); try assumption; try lia; try tauto.
      rewrite Y. cbn [allowed]. tauto.
Qed.

(** Flushing a resource delivers everything, and reaches its container. *)
Lemma flush_delivers : forall w cap p s r, stands_for w cap p s r -> p <> Reading ->
  exists r', flush container_ops r = Ok r' /\ content (inner r') = bytes s /\ get_position r' = at_ s.
Proof.
  intros w cap p s r S P. destruct (flush_step _ _ _ _ _ S) as (r' & E & S'). exists r'. split; [exact E|].
  assert (S2 : stands_for w cap Neutral s r') by (destruct p; congruence). split.
  - destruct S2 as [_ _ _ _ _ _ _ I]. cbn [in_phase] in I. tauto.
  - apply (position_ok _ _ _ _ _ S2). right. discriminate.
Qed.

(** Before it, the container has what was delivered so far. *)
Lemma prefix_before : forall w cap p s r, stands_for w cap p s r -> p = Neutral \/ p = Appending ->
  exists rest, bytes s = content (inner r) ++ rest.
Proof.
  intros w cap p s r [_ _ _ _ _ _ _ I] [-> | ->]; cbn [in_phase] in I.
  - exists []. rewrite app_nil_r. symmetry. tauto.
  - destruct I as (_ & _ & _ & _ & _ & _ & _ & ->). eauto.
Qed.

(* -------------------------------------------------------------------- reads *)


Lemma next_phase_read : forall cap s p b n, next_phase cap s p (Read b n) = if cap =? 0 then Neutral else Reading.
Proof. reflexivity. Qed.

Lemma drop_min : forall n l, 0 <= n -> drop (len (take n l)) l = drop n l.
Proof.
  intros n l H. rewrite len_take by lia. destruct (Z.le_ge_cases n (len l)).
  - now rewrite Z.min_l by lia.
  - rewrite Z.min_r by lia. now rewrite !drop_all by lia.
Qed.

Lemma reading_calls : forall w cap rs l a p, large_enough rs -> 0 <= a ->
  (cap = 0 \/ Forall (fun '(_, n) => n <= cap) rs) -> p = Neutral \/ p = Reading ->
  all_allowed w cap (Store l a) p (read_calls rs) /\
  received (snd (expected_calls w (Store l a) (read_calls rs))) = blocks (drop a l) (map snd rs) /\
  forallb for_input (read_calls rs) = true /\
  bytes (fst (expected_calls w (Store l a) (read_calls rs))) = l.
Proof.
  intros w cap. induction rs as [|[b n] rs IH]; intros l a p G A C P; [cbn; tauto|].
  inversion G as [|? ? G1 G2]; subst. cbn [read_calls map all_allowed expected_calls forallb for_input blocks andb snd].
  set (k := len (next_bytes (Store l a) n)). pose proof (len_nonneg (next_bytes (Store l a) n)).
  assert (Cn : cap = 0 \/ n <= cap) by (destruct C as [C|C]; [auto|right; now inversion C]).
  assert (Cr : cap = 0 \/ Forall (fun '(_, n) => n <= cap) rs) by (destruct C as [C|C]; [auto|right; now inversion C]).
  destruct (IH l (a + k) (next_phase cap (Store l a) p (Read b n))) as (X & Y & Z & V); try assumption.
  { lia. } { rewrite next_phase_read. destruct (cap =? 0); auto. }
  cbn [expected_call fst bytes at_]. fold k. change (map (fun '(b0, n0) => Read b0 n0) rs) with (read_calls rs).
  destruct (expected_calls w (Store l (a + k)) (read_calls rs)) as [s2 ans] eqn:E2. cbn [snd fst] in *.
  split; [split; [cbn [allowed]; tauto|exact X]|]. split; [|split; [exact Z|exact V]].
  cbn [received flat_map app]. f_equal.
  - unfold k. rewrite take_app_exact. reflexivity.
  - change (flat_map _ ans) with (received ans). rewrite Y. f_equal.
    rewrite <- (drop_drop k a l) by lia. unfold k, next_bytes. cbn [bytes at_]. apply drop_min. lia.
Qed.

(* ----------------------------------------------------- reads in any state *)

Lemma memcpy_inv : forall dst doff src soff n dst', memcpy dst doff src soff n = Ok dst' ->
  0 <= soff /\ 0 <= n /\ soff + n <= len src /\ 0 <= doff /\ doff + n <= len dst /\
  dst' = overwrite dst doff (take n (drop soff src)).
Proof.
  intros dst doff src soff n dst' H. unfold memcpy, slice in H. change size_of with len in H.
  destruct ((0 <=? soff) && (0 <=? n) && (soff + n <=? len src)) eqn:E; [|discriminate]. cbn [bind] in H.
  change (firstn (Z.to_nat n) (skipn (Z.to_nat soff) src)) with (take n (drop soff src)) in H.
  assert (L : len (take n (drop soff src)) = n) by (rewrite len_take, len_drop by lia; lia).
  unfold blit in H. change size_of with len in H. rewrite L in H.
  destruct ((0 <=? doff) && (doff + n <=? len dst)) eqn:F; [|discriminate].
  injection H as <-. unfold overwrite. rewrite L. repeat split; lia.
Qed.

(** The block after a copy of n bytes to offset off. *)
Lemma overwrite_beyond : forall dst off d m, 0 <= off -> off + len d <= m -> m <= len dst ->
  drop m (overwrite dst off d) = drop m dst /\ len (overwrite dst off d) = len dst.
Proof.
  intros dst off d m O D M. pose proof (len_nonneg d). split.
  - unfold overwrite. assert (T : len (take off dst) = off) by (rewrite len_take by lia; lia).
    rewrite drop_app_r by lia. rewrite drop_app_r by lia. rewrite drop_drop by lia. f_equal. lia.
  - rewrite len_overwrite by lia. lia.
Qed.

(** Memory effects of a successful call: at most n bytes reported, the block keeps
    its size and is unchanged after what was reported. *)
Definition modest (off n : Z) (dst dst' : list N) (k : Z) : Prop :=
  0 <= k <= n /\ len dst' = len dst /\ off + k <= len dst /\ drop (off + k) dst' = drop (off + k) dst /\
  take off dst' = take off dst.

Lemma take_overwrite : forall dst off d, 0 <= off <= len dst -> take off (overwrite dst off d) = take off dst.
Proof.
  intros dst off d O. unfold overwrite. rewrite take_app_l by (rewrite len_take; lia).
  rewrite take_take by lia. f_equal. lia.
Qed.

Lemma memcpy_modest : forall dst off src soff n m dst', memcpy dst off src soff m = Ok dst' -> m <= n ->
  modest off n dst dst' m.
Proof.
  intros dst off src soff n m dst' H L. apply memcpy_inv in H. destruct H as (A & B & C & D & E & ->).
  assert (Ld : len (take m (drop soff src)) = m) by (rewrite len_take, len_drop by lia; lia).
  destruct (overwrite_beyond dst off (take m (drop soff src)) (off + m)) as [X Y]; try lia.
  repeat split; try lia; try assumption. apply take_overwrite. lia.
Qed.

Lemma buffer_read_modest : forall b dst off n b' dst' k, buffer_read b dst off n = Ok (b', dst', k) ->
  size_of (mem b) < 2 ^ 62 -> - 2 ^ 62 < bpos b < 2 ^ 62 -> - 2 ^ 62 < filled b < 2 ^ 62 ->
  modest off n dst dst' k.
Proof.
  intros b dst off n b' dst' k H M P F. unfold buffer_read in H. cbv zeta in H.
  set (m := if filled b <? bpos b + n then as_size (n - (bpos b + n - filled b)) else n) in *.
  destruct (memcpy dst off (mem b) (bpos b) m) eqn:E; try discriminate. cbn [bind] in H. injection H as <- <- <-.
  apply (memcpy_modest _ _ _ _ n _ _ E).
  apply memcpy_inv in E. destruct E as (A & B & C & _). change size_of with len in M.
  unfold m in *. destruct (filled b <? bpos b + n) eqn:X; [|lia].
  unfold as_size in *. destruct (n - (bpos b + n - filled b) <? 0) eqn:Y; lia.
Qed.

Lemma container_read_modest : forall c dst off n rr c' dst' k, container_read c dst off n rr = Ok (c', dst', k) ->
  0 <= n < 2 ^ 63 -> size_of (content c) < 2 ^ 62 -> modest off n dst dst' k.
Proof.
  intros c dst off n rr c' dst' k H N M. unfold container_read in H. cbv zeta in H.
  set (c1 := match rr with LeanRetrieval => c | FillBuffer => if 0 <? last_fill c then go_forward c (last_fill c) else c end) in *.
  assert (K : content c1 = content c) by (unfold c1; destruct rr; [reflexivity|]; now destruct (0 <? last_fill c)).
  rewrite K in H.
  set (m := if size_of (content c) <? as_size (position c1 + n) then as_size (size_of (content c) - position c1) else n) in *.
  destruct (memcpy dst off (content c) (position c1) m) eqn:E; try discriminate. cbn [bind] in H.
  assert (k = m /\ dst' = a) as [-> ->] by (destruct rr; injection H as <- <- <-; split; reflexivity).
  apply (memcpy_modest _ _ _ _ n _ _ E). apply memcpy_inv in E. destruct E as (A & B & C & _).
  clearbody c1. unfold m in *. change size_of with len in *.
  destruct (len (content c) <? as_size (position c1 + n)) eqn:X; [|lia].
  unfold as_size in *. destruct (len (content c) - position c1 <? 0) eqn:Y; [lia|].
  destruct (position c1 + n <? 0) eqn:Z; lia.
Qed.

Lemma buffer_read_clip : forall b dst off n b' dst' k, buffer_read b dst off n = Ok (b', dst', k) ->
  size_of (mem b) < 2 ^ 62 -> - 2 ^ 62 < bpos b < 2 ^ 62 -> - 2 ^ 62 < filled b < 2 ^ 62 ->
  b' = Buffer (mem b) (filled b) (bpos b + k) (read_dirty b) (write_dirty b) /\ 0 <= bpos b /\
  (filled b < bpos b + n -> k = filled b - bpos b).
Proof.
  intros b dst off n b' dst' k H M P F. unfold buffer_read in H. cbv zeta in H.
  set (m := if filled b <? bpos b + n then as_size (n - (bpos b + n - filled b)) else n) in *.
  destruct (memcpy dst off (mem b) (bpos b) m) eqn:E; try discriminate. cbn [bind] in H. injection H as <- <- <-.
  apply memcpy_inv in E. destruct E as (A & B & C & _). change size_of with len in M.
  split; [reflexivity|]. split; [assumption|]. intros X. unfold m in *.
  replace (filled b <? bpos b + n) with true in * by lia.
  unfold as_size in *. destruct (n - (bpos b + n - filled b) <? 0) eqn:Y; lia.
Qed.

(** Sizes that fit in memory. *)
Definition bounded (r : resource container) : Prop :=
  size_of (content (inner r)) < 2 ^ 62 /\ size_of (mem (buf r)) < 2 ^ 62 /\
  - 2 ^ 62 < bpos (buf r) < 2 ^ 62 /\ - 2 ^ 62 < filled (buf r) < 2 ^ 62.

Lemma container_read_content : forall c dst off n rr c' dst' k,
  container_read c dst off n rr = Ok (c', dst', k) -> content c' = content c.
Proof.
  intros c dst off n rr c' dst' k H. unfold container_read in H. cbv zeta in H.
  match type of H with bind ?m _ = _ => destruct m; try discriminate end. cbn [bind] in H. injection H as <- <- <-.
  destruct rr; [reflexivity|]. unfold go_back, set_position_raw, set_position. cbn [content].
  now destruct (0 <? last_fill c).
Qed.

Lemma fill_bounded : forall r r' k, fill container_ops r = Ok (r', k) -> bounded r ->
  bounded r' /\ 0 <= k <= size_of (mem (buf r)) /\ filled (buf r') = k /\ bpos (buf r') = 0.
Proof.
  intros r r' k H (B1 & B2 & B3 & B4). unfold fill in H.
  destruct (raw_read container_ops (inner r) (mem (buf r)) 0 (capacity (buf r)) FillBuffer) as [[[c m] j]| | | |] eqn:E; try discriminate.
  cbn [bind] in H. injection H as <- <-. unfold container_ops in E. cbn [raw_read] in E.
  assert (Cap : 0 <= capacity (buf r) < 2 ^ 63) by (unfold capacity; pose proof (len_nonneg (mem (buf r))); change size_of with len in *; lia).
  assert (X := container_read_modest _ _ _ _ _ _ _ _ E Cap B1). destruct X as (X1 & X2 & _).
  assert (Y := container_read_content _ _ _ _ _ _ _ _ E).
  unfold bounded, capacity in *. cbn [inner buf mem filled bpos]. change size_of with len in *. rewrite Y, X2. lia.
Qed.

Lemma read_modest : forall r dst n r' dst' k, read container_ops r dst n = Ok (r', dst', k) ->
  0 <= n < 2 ^ 62 -> bounded r -> modest 0 n dst dst' k.
Proof.
  intros r dst n r' dst' k H N B. unfold read in H. destruct (0 <? capacity (buf r)) eqn:C.
  - unfold read_buffered in H.
    assert (R1 : exists r1, (if read_dirty (buf r) then bind (fill container_ops r) (fun '(r, _) => Ok r) else Ok r) = Ok r1 /\ bounded r1).
    { destruct (read_dirty (buf r)); [|eauto].
      destruct (fill container_ops r) as [[r1 j]| | | |] eqn:F; try discriminate. apply fill_bounded in F; [|assumption].
      cbn [bind]. eexists. split; [reflexivity|]. tauto. }
    destruct R1 as (r1 & E1 & B1). rewrite E1 in H. cbn [bind] in H. clear E1 C B r.
    assert (B1' := B1). destruct B1' as (Bc & Bm & Bp & Bf).
    destruct (filled (buf r1) <? bpos (buf r1) + n) eqn:More.
    + set (diff := as_size (filled (buf r1) - bpos (buf r1))) in *.
      assert (Fst : exists r2 dst2 k1, (if 0 <? diff
        then bind (buffer_read (buf r1) dst 0 diff) (fun '(b, dst, k) => Ok (Resource (inner r1) b, dst, k, as_size (n - k)))
        else Ok (r1, dst, 0, n)) = Ok (r2, dst2, k1, n - k1) /\ bounded r2 /\ modest 0 n dst dst2 k1
        /\ mem (buf r2) = mem (buf r1) /\ content (inner r2) = content (inner r1)).
      { destruct (0 <? diff) eqn:D.
        - destruct (buffer_read (buf r1) dst 0 diff) as [[[b d] j]| | | |] eqn:F; try discriminate.
          assert (X := buffer_read_modest _ _ _ _ _ _ _ F Bm Bp Bf).
          assert (Y := buffer_read_clip _ _ _ _ _ _ _ F Bm Bp Bf). destruct Y as (-> & Y1 & Y2).
          destruct X as (X1 & X2 & X3 & X4 & X5).
          assert (Jn : j <= n). { unfold diff, as_size in *. destruct (filled (buf r1) - bpos (buf r1) <? 0) eqn:Z; lia. }
          cbn [bind]. rewrite as_size_pos by lia. do 3 eexists. split; [reflexivity|].
          split; [|repeat split; try assumption; lia].
          unfold bounded. cbn [inner buf mem filled bpos]. repeat split; try assumption; lia.
        - exists r1, dst, 0. rewrite Z.sub_0_r. split; [reflexivity|]. split; [assumption|].
          pose proof (len_nonneg dst). repeat split; lia. }
      destruct Fst as (r2 & dst2 & k1 & E2 & B2 & M2 & Mm & Mc). rewrite E2 in H. cbn [bind] in H.
      destruct M2 as (M1 & M2 & M3 & M4 & M5). rewrite Z.add_0_l in *.
      assert (Combine : forall dst3 k2, modest k1 (n - k1) dst2 dst3 k2 -> modest 0 n dst dst3 (k1 + k2)).
      { intros dst3 k2 (Q1 & Q2 & Q3 & Q4 & Q5). repeat split; try lia. rewrite Z.add_0_l. rewrite Q4.
        rewrite <- !(drop_drop k2 k1) by lia. now rewrite M4. }
      destruct (capacity (buf r2) <? n - k1) eqn:Big.
      * destruct (raw_read container_ops (inner r2) dst2 k1 (n - k1) LeanRetrieval) as [[[c d] j]| | | |] eqn:F; try discriminate.
        cbn [bind] in H. injection H as <- <- <-. apply Combine. destruct B2 as (B2 & _).
        assert (Nk : 0 <= n - k1 < 2 ^ 63) by (clear - M1 N; lia).
        change (raw_read container_ops) with container_read in F.
        exact (container_read_modest _ _ _ _ _ _ _ _ F Nk B2).
      * destruct (fill container_ops r2) as [[r3 j]| | | |] eqn:F; try discriminate. cbn [bind] in H.
        assert (F' := fill_bounded _ _ _ F B2). destruct F' as (B3 & J1 & J2 & J3).
        set (last := if j <? n - k1 then j else n - k1) in *.
        destruct (buffer_read (buf r3) dst2 k1 last) as [[[b d] i]| | | |] eqn:G; try discriminate.
        cbn [bind] in H. injection H as <- <- <-. apply Combine.
        destruct B3 as (_ & B3m & B3p & B3f). assert (X := buffer_read_modest _ _ _ _ _ _ _ G B3m B3p B3f).
        destruct X as (X1 & X2). split; [|assumption]. unfold last in *. destruct (j <? n - k1) eqn:Z; lia.
    + destruct (buffer_read (buf r1) dst 0 n) as [[[b d] j]| | | |] eqn:F; try discriminate. cbn [bind] in H.
      injection H as <- <- <-. eapply buffer_read_modest; eassumption.
  - destruct (raw_read container_ops (inner r) dst 0 n LeanRetrieval) as [[[c d] j]| | | |] eqn:F; try discriminate.
    cbn [bind] in H. injection H as <- <- <-. destruct B as (B & _).
    assert (Nk : 0 <= n < 2 ^ 63) by (clear - N; lia).
    change (raw_read container_ops) with container_read in F. exact (container_read_modest _ _ _ _ _ _ _ _ F Nk B).
Qed.

(** A first read that is longer than the buffer. *)
Lemma long_read : forall cap l block n, 0 < Z.of_nat cap -> len l * 2 < 2 ^ 63 -> n <= len block ->
  Z.of_nat cap + Z.min (Z.of_nat cap) (len l) < n ->
  let f := Z.min (Z.of_nat cap) (len l) in
  let d := take f l ++ take (n - f) l in
  exists r, read container_ops (new_resource l 1 cap) block n = Ok (r, d ++ drop (len d) block, len d).
Proof.
  intros cap l block n C B N L f d. pose proof (len_nonneg l).
  assert (S := fresh 1 cap l (Z.le_refl 1) (Z.divide_1_l _) B).
  unfold read. assert (K := sf_cap _ _ _ _ _ S). rewrite K. replace (0 <? Z.of_nat cap) with true by lia.
  unfold read_buffered. change (read_dirty (buf (new_resource l 1 cap))) with true. cbv iota.
  destruct (fill_ok 1 (Z.of_nat cap) (Store l 0) (new_resource l 1 cap) (Z.le_refl 1) eq_refl K eq_refl B)
    as (r1 & F & G1 & G2 & G3 & G4 & G5 & G6 & G7 & G8 & G9 & G10); cbn [bytes at_] in *; try lia; try reflexivity.
  rewrite F. cbn [bind]. rewrite G5. assert (Ff : filled (buf r1) = f) by (unfold f; lia). rewrite Ff in *.
  replace (f <? 0 + n) with true by lia. rewrite as_size_pos by (unfold f; lia). rewrite Z.sub_0_r in *.
  assert (Lf : len (take f l) = f) by (rewrite len_take by (unfold f; lia); unfold f; lia).
  assert (Bl : 0 <= len block) by apply len_nonneg.
  assert (Fst : (if 0 <? f
    then bind (buffer_read (buf r1) block 0 f) (fun '(b, dst, k) => Ok (Resource (inner r1) b, dst, k, as_size (n - k)))
    else Ok (r1, block, 0, n))
    = Ok (Resource (inner r1) (Buffer (mem (buf r1)) f f (read_dirty (buf r1)) (write_dirty (buf r1))),
          take f l ++ drop f block, f, n - f)).
  { destruct (0 <? f) eqn:Fp.
    - rewrite buffer_read_ok by (rewrite ?G2, ?G5, ?Ff; unfold f in *; lia). cbn [bind]. rewrite as_size_pos by (unfold f in *; lia).
      rewrite overwrite_start, G5, drop_0, G10, drop_0, Ff, Lf. reflexivity.
    - assert (f0 : f = 0) by (unfold f in *; lia). rewrite f0 in *. rewrite take_0, drop_0, Z.sub_0_r. cbn [app].
      do 4 f_equal. destruct r1 as [i b]. cbn [inner buf] in *. f_equal. destruct b. cbn in *. congruence. }
  rewrite Fst. cbn [bind inner buf]. unfold capacity at 1. cbn [mem]. fold (capacity (buf r1)). rewrite G2.
  replace (Z.of_nat cap <? n - f) with true by (unfold f in *; lia).
  unfold container_ops. cbn [raw_read].
  assert (P0 : position (inner r1) = 0) by lia.
  assert (X := lean (inner r1) (take f l ++ drop f block) f (n - f)).
  rewrite P0, G6, drop_0 in X. cbv zeta in X.
  assert (L2 : len (take (n - f) l) <= n - f) by (rewrite len_take by (unfold f in *; lia); lia).
  rewrite X; [|lia|unfold f in *; lia|unfold f in *; lia|rewrite len_app, Lf, len_drop by (unfold f; lia); unfold f in *; lia].
  cbn [bind]. eexists. f_equal. f_equal; [f_equal|unfold d; rewrite len_app; lia].
  unfold overwrite, d. rewrite take_app_l by lia. rewrite take_take, Z.min_id by (unfold f; lia). rewrite <- app_assoc. f_equal. f_equal.
  pose proof (len_nonneg (take (n - f) l)). rewrite drop_app_r by lia. rewrite drop_drop by (unfold f in *; lia). rewrite len_app. f_equal. lia.
Qed.

(* --------------------------------------------------------------------- ties *)

Lemma tied_run : forall cap ocap cs l a before p po r out,
  stands_for 1 cap p (Store l a) r -> p = Neutral \/ p = Reading ->
  stands_for 1 ocap po (Store before (len before)) out -> po = Neutral \/ po = Appending ->
  large_enough (reads cs) -> (cap = 0 \/ Forall (fun '(_, n) => n <= cap) (reads cs)) ->
  (len before + len (written cs)) * 2 < 2 ^ 63 ->
  exists answers, run_tied r out cs = Ok (delivered before cs, answers) /\
    received answers = blocks (drop a l) (map snd (reads cs)).
Proof.
  intros cap ocap. induction cs as [|c cs IH]; intros l a before p po r out S P So Po G C B.
  - exists []. split; reflexivity.
  - destruct c as [d|b n]; cbn [run_tied delivered].
    + assert (Wr : written (WriteOut d :: cs) = d ++ written cs) by reflexivity. rewrite Wr, len_app in B.
      pose proof (len_nonneg before). pose proof (len_nonneg d). pose proof (len_nonneg (written cs)).
      assert (Np : next_phase ocap (Store before (len before)) po (Write d) = Neutral \/
                   next_phase ocap (Store before (len before)) po (Write d) = Appending).
      { unfold next_phase. cbn [at_ bytes]. rewrite Z.eqb_refl. destruct (ocap =? 0); destruct Po as [-> | ->]; auto. }
      destruct (write_step _ _ _ _ _ d So) as (out' & E & S').
      * destruct Po; congruence.
      * cbn [bytes at_]. rewrite overwrite_end, len_app. lia.
      * cbn [bytes at_]. destruct Np as [-> | ->]; [right|]; try split; try reflexivity; apply Z.divide_1_l.
      * rewrite E. cbn [bind]. cbn [bytes at_] in S'. rewrite overwrite_end in S'.
        replace (len before + len d) with (len (before ++ d)) in S' by apply len_app.
        apply (IH l a (before ++ d) p _ r out' S P S' Np); [exact G|exact C|rewrite len_app; lia].
    + cbn [reads flat_map app] in G, C |- *. change (flat_map _ cs) with (reads cs) in *.
      inversion G as [|? ? G1 G2]; subst.
      assert (Cn : cap = 0 \/ n <= cap) by (destruct C as [C|C]; [auto|right; now inversion C]).
      assert (Cr : cap = 0 \/ Forall (fun '(_, n) => n <= cap) (reads cs)) by (destruct C as [C|C]; [auto|right; now inversion C]).
      unfold read_tied. destruct (flush_step _ _ _ _ _ So) as (out' & E & S'). rewrite E. cbn [bind].
      assert (S'' : stands_for 1 ocap Neutral (Store before (len before)) out') by (destruct Po as [-> | ->]; exact S').
      assert (Ct : content (inner out') = before) by (destruct S'' as [_ _ _ _ _ _ _ I]; cbn [in_phase bytes] in I; tauto).
      destruct (read_step _ _ _ _ _ b n S G1 Cn P) as (r' & Er & Sr). rewrite Er. cbn [bind bytes at_] in *.
      set (k := len (next_bytes (Store l a) n)) in *.
      destruct (IH l (a + k) before _ Neutral r' out' Sr) as (ans & R & X); try assumption; auto.
      { destruct (cap =? 0); auto. }
      rewrite R. cbn [bind]. rewrite Ct. eexists. split; [reflexivity|].
      cbn [received flat_map app map snd blocks]. f_equal.
      * unfold k. rewrite take_app_exact. reflexivity.
      * change (flat_map _ ans) with (received ans). rewrite X. f_equal.
        assert (0 <= a) by (destruct S; cbn in *; lia). pose proof (len_nonneg (next_bytes (Store l a) n)).
        rewrite <- (drop_drop k a l) by (unfold k; lia). unfold k, next_bytes. cbn [bytes at_]. apply drop_min. lia.
Qed.

(** Whatever the reads do. *)
Lemma tied_delivers : forall ocap cs before po r out outs answers,
  stands_for 1 ocap po (Store before (len before)) out -> po = Neutral \/ po = Appending ->
  (len before + len (written cs)) * 2 < 2 ^ 63 ->
  run_tied r out cs = Ok (outs, answers) -> outs = delivered before cs.
Proof.
  intros ocap. induction cs as [|c cs IH]; intros before po r out outs answers So Po B H.
  - now injection H as <- <-.
  - destruct c as [d|b n]; cbn [run_tied delivered] in *.
    + assert (Wr : written (WriteOut d :: cs) = d ++ written cs) by reflexivity. rewrite Wr, len_app in B.
      pose proof (len_nonneg before). pose proof (len_nonneg d). pose proof (len_nonneg (written cs)).
      assert (Np : next_phase ocap (Store before (len before)) po (Write d) = Neutral \/
                   next_phase ocap (Store before (len before)) po (Write d) = Appending).
      { unfold next_phase. cbn [at_ bytes]. rewrite Z.eqb_refl. destruct (ocap =? 0); destruct Po as [-> | ->]; auto. }
      destruct (write_step _ _ _ _ _ d So) as (out' & E & S').
      * destruct Po; congruence.
      * cbn [bytes at_]. rewrite overwrite_end, len_app. lia.
      * cbn [bytes at_]. destruct Np as [-> | ->]; [right|]; try split; try reflexivity; apply Z.divide_1_l.
      * rewrite E in H. cbn [bind] in H. cbn [bytes at_] in S'. rewrite overwrite_end in S'.
        replace (len before + len d) with (len (before ++ d)) in S' by apply len_app.
        apply (IH (before ++ d) _ r out' outs answers S' Np); [rewrite len_app; lia|exact H].
    + unfold read_tied in H. destruct (flush_step _ _ _ _ _ So) as (out' & E & S'). rewrite E in H. cbn [bind] in H.
      assert (S'' : stands_for 1 ocap Neutral (Store before (len before)) out') by (destruct Po as [-> | ->]; exact S').
      assert (Ct : content (inner out') = before) by (destruct S'' as [_ _ _ _ _ _ _ I]; cbn [in_phase bytes] in I; tauto).
      destruct (read container_ops r b n) as [[[r' b'] k]| | | |]; try discriminate. cbn [bind] in H.
      destruct (run_tied r' out' cs) as [[os ans]| | | |] eqn:R; try discriminate. cbn [bind] in H.
      injection H as <- <-. rewrite Ct. f_equal. apply (IH before Neutral r' out' os ans S''); auto.
Qed.
