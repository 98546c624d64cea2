(** Reads and seeks do what the machine of CursorSpec does. *)
From Coq Require Import NArith ZArith List Bool Lia.
From Coq Require Import ZifyBool ZifyNat ZifyN.
From Verif Require Import Base Integers ResourceModel ResourceSpec ResourceText ResourceLemmas ResourceLemmas2 CursorSpec.
Import ListNotations.
Open Scope Z_scope.

Lemma convert_wrap : forall x, convert I64 x = wrap x.
Proof.
  intros x. unfold convert, I64, wrap. cbn [is_signed width andb]. change (2 ^ (64 - 1)) with (2 ^ 63).
  change (2 ^ 64) with (2 * 2 ^ 63). set (h := 2 ^ 63). assert (H : 0 < h) by reflexivity. clearbody h.
  assert (M := Z.mod_pos_bound x (2 * h) ltac:(lia)). assert (D := Z.div_mod x (2 * h) ltac:(lia)).
  set (m := x mod (2 * h)) in *. set (k := x / (2 * h)) in *.
  assert (E : (x + h) mod (2 * h) = (m + h) mod (2 * h)).
  { replace (x + h) with (m + h + k * (2 * h)) by lia. apply Z_mod_plus_full. }
  rewrite E. destruct (h <=? m) eqn:Q.
  - replace (m + h) with (m - h + 1 * (2 * h)) by lia. rewrite Z_mod_plus_full, Z.mod_small by lia. lia.
  - rewrite Z.mod_small by lia. lia.
Qed.

Lemma wrap_range : forall x, - 2 ^ 63 <= wrap x < 2 ^ 63.
Proof.
  intros x. unfold wrap. change (2 ^ 64) with (2 * 2 ^ 63). set (h := 2 ^ 63). assert (H : 0 < h) by reflexivity.
  clearbody h. assert (M := Z.mod_pos_bound (x + h) (2 * h) ltac:(lia)). lia.
Qed.

(** A resource that stands at a cursor. *)
Record at_cursor (big w cap : Z) (l : list N) (c : cursor) (r : resource container) : Prop := {
  ac_elem : elem (inner r) = w;
  ac_cap : capacity (buf r) = cap;
  ac_content : content (inner r) = l;
  ac_stale : read_dirty (buf r) = stale c;
  ac_place : position (inner r) = place c;
  ac_step : last_fill (inner r) = step c;
  ac_spent : bpos (buf r) = spent c;
  ac_bound : - 2 ^ 63 <= place c < 2 ^ 63;
  ac_from : step c <> 0 -> - (big * w) <= place c <= big /\ 0 <= step c <= big;
  ac_bare : cap = 0 -> stale c = true /\ spent c = 0 /\ step c = 0;
  ac_idle : stale c = true -> spent c = 0;
  ac_range : stale c = false -> 0 <= spent c /\ spent c + len (held c) = filled (buf r) /\ filled (buf r) <= cap;
  ac_mem : stale c = false -> take (len (held c)) (drop (spent c) (mem (buf r))) = held c }.

Lemma outside_fill : forall big w cap l c r, 1 <= w -> at_cursor big w cap l c r -> len l <= big -> big * (w + 1) < 2 ^ 63 ->
  inside l (place c + step c * w) = false -> fill container_ops r = UB OutOfBoundsRead.
Proof.
  intros big w cap l c r W A Bl B O. destruct A as [E K Ct S P T U Bd F Ba Id R M]. pose proof (capacity_nonneg (buf r)).
  unfold fill, container_ops. cbn [raw_read]. unfold container_read. rewrite T.
  set (s := place c + step c * w) in *.
  assert (X : exists q, (if 0 <? step c then go_forward (inner r) (step c) else inner r) = q /\ content q = l /\ position q = s).
  { destruct (0 <? step c) eqn:Z0.
    - destruct (F ltac:(lia)) as (F1 & F2). eexists. split; [reflexivity|]. unfold go_forward, set_position_raw.
      cbn [content position]. split; [exact Ct|]. rewrite P, E. rewrite convert_I64 by nia. reflexivity.
    - assert (step c = 0) by (destruct (Z.eq_dec (step c) 0) as [e|e]; [exact e|destruct (F e); lia]).
      exists (inner r). split; [reflexivity|]. split; [exact Ct|]. unfold s. rewrite P. lia. }
  destruct X as (q & -> & Cq & Pq). cbv zeta. rewrite Cq, Pq. unfold memcpy, slice. change size_of with len.
  pose proof (len_nonneg l). unfold inside in O. destruct (0 <=? s) eqn:Q1; [|reflexivity]. cbn [andb] in O.
  assert (As : as_size (s + capacity (buf r)) = s + capacity (buf r)) by (apply as_size_pos; lia).
  rewrite As. replace (len l <? s + capacity (buf r)) with true by lia.
  unfold as_size. replace (len l - s <? 0) with true by lia.
  replace (s + (len l - s + 2 ^ 64) <=? len l) with false by lia. rewrite andb_false_r. reflexivity.
Qed.

Lemma inside_fill : forall big w cap l c r c', 1 <= w -> 0 < cap -> at_cursor big w cap l c r -> len l <= big -> big * (w + 1) < 2 ^ 63 ->
  refilled w cap l c = Some c' ->
  exists r', fill container_ops r = Ok (r', len (held c')) /\ at_cursor big w cap l c' r'.
Proof.
  intros big w cap l c r c' W C A Bl B H. destruct A as [E K Ct S P T U Bd F Ba Id R M]. unfold refilled in H. cbv zeta in H.
  set (s := place c + step c * w) in *. destruct (inside l s) eqn:I; [|discriminate]. unfold inside in I.
  injection H as <-. cbn [held]. set (d := take cap (drop s l)).
  assert (Bs : len l * (w + 1) < 2 ^ 63) by nia.
  destruct (fill_ok w cap (Store l s) r W E K Ct Bs) as (r1 & Fi & G1 & G2 & G3 & G4 & G5 & G6 & G7 & G8 & G9 & G10);
    cbn [bytes at_] in *; [lia| |].
  { unfold resumes. rewrite P, T, E. unfold s. destruct (0 <? step c) eqn:Z0; [reflexivity|].
    assert (step c = 0) by (destruct (Z.eq_dec (step c) 0) as [e|e]; [exact e|destruct (F e); lia]). nia. }
  assert (Ld : len d = filled (buf r1)) by (unfold d; rewrite len_take, len_drop by lia; lia).
  exists r1. rewrite Ld. split; [exact Fi|]. pose proof (len_nonneg l). pose proof (len_nonneg d).
  assert (Hw : 0 <= len d * w <= len l * w) by (split; [apply Z.mul_nonneg_nonneg; lia|apply Z.mul_le_mono_nonneg_r; lia]).
  assert (Hb : len l * w <= big * w) by (apply Z.mul_le_mono_nonneg_r; lia).
  assert (Md : take (len d) (mem (buf r1)) = d) by (rewrite Ld, G10, <- Ld; unfold d; apply take_len_take).
  rewrite <- Ld in *. clearbody d.
  constructor; cbn [place step held spent stale]; try assumption; try lia.
  intros _. now rewrite drop_0.
Qed.

Lemma lean_cursor : forall big w cap l c r block off n, at_cursor big w cap l c r -> 0 <= n -> 0 <= off -> off + n <= len block ->
  match direct l c n with
  | None => container_read (inner r) block off n LeanRetrieval = UB OutOfBoundsRead
  | Some (d, c') => exists q, container_read (inner r) block off n LeanRetrieval = Ok (q, overwrite block off d, len d) /\
      len d <= n /\ (len l <= big -> big * (w + 1) < 2 ^ 63 -> 1 <= w -> at_cursor big w cap l c' (Resource q (buf r)))
  end.
Proof.
  intros big w cap l c r block off n A Hn Ho Hb. destruct A as [E K Ct S P T U Bd F Ba Id R M]. pose proof (len_nonneg l).
  unfold direct. destruct (inside l (place c)) eqn:I; unfold inside in I.
  - assert (X := lean (inner r) block off n). rewrite P, Ct in X. cbv zeta in X.
    set (d := take n (drop (place c) l)) in *. pose proof (len_nonneg d).
    assert (Ld : len d <= n /\ len d <= len l - place c) by (unfold d; rewrite len_take, len_drop by lia; lia).
    rewrite X by lia. eexists. split; [reflexivity|]. split; [lia|]. intros Bl B W.
    assert (Bw : 0 <= big * w) by (apply Z.mul_nonneg_nonneg; lia). assert (Bg : big < 2 ^ 63) by nia.
    constructor; cbn [inner buf elem content position last_fill place step held spent stale]; try assumption; try reflexivity; try lia.
  - unfold container_read. cbv zeta. rewrite Ct, P. unfold memcpy, slice. change size_of with len.
    destruct (0 <=? place c) eqn:Q1; [|reflexivity]. cbn [andb] in I.
    rewrite as_size_pos by lia. replace (len l <? place c + n) with true by lia.
    unfold as_size. replace (len l - place c <? 0) with true by lia.
    replace (place c + (len l - place c + 2 ^ 64) <=? len l) with false by lia. rewrite andb_false_r. reflexivity.
Qed.

(** Handing out bytes of the buffer. *)
Lemma hand_step : forall big w cap l c r block off n, at_cursor big w cap l c r -> stale c = false -> 0 < cap ->
  0 <= n <= len (held c) -> 0 <= off -> off + n <= len block ->
  buffer_read (buf r) block off n
  = Ok (Buffer (mem (buf r)) (filled (buf r)) (bpos (buf r) + n) (read_dirty (buf r)) (write_dirty (buf r)),
        overwrite block off (take n (held c)), n) /\
  at_cursor big w cap l (snd (hand_out c n))
    (Resource (inner r) (Buffer (mem (buf r)) (filled (buf r)) (bpos (buf r) + n) (read_dirty (buf r)) (write_dirty (buf r)))).
Proof.
  intros big w cap l c r block off n A Sc C Hn Ho Hb. destruct A as [E K Ct S P T U Bd F Ba Id R M].
  destruct (R Sc) as (R1 & R2 & R3). specialize (M Sc).
  assert (Tk : forall j, 0 <= j <= len (held c) -> take j (drop (spent c) (mem (buf r))) = take j (held c)).
  { intros j J. rewrite <- M. rewrite take_take by lia. rewrite Z.min_l by lia. reflexivity. }
  split.
  - rewrite buffer_read_ok by lia. rewrite U, Tk by lia. reflexivity.
  - unfold hand_out. cbn [snd].
    constructor; cbn [inner buf place step held spent stale bpos filled read_dirty mem]; try assumption; try lia.
    + intros _. rewrite len_drop by lia. lia.
    + intros _. rewrite len_drop by lia. rewrite Z.max_r by lia. rewrite <- drop_drop by lia.
      rewrite <- take_drop_comm by lia. replace (n + (len (held c) - n)) with (len (held c)) by lia. now rewrite M.
Qed.

Lemma taken_step : forall big w cap l c r block n, 1 <= w -> 0 <= cap -> at_cursor big w cap l c r ->
  len l <= big -> big * (w + 1) < 2 ^ 63 -> 0 <= n <= len block ->
  match taken w cap l c n with
  | None => read container_ops r block n = UB OutOfBoundsRead
  | Some (d, c') => exists r', read container_ops r block n = Ok (r', d ++ drop (len d) block, len d) /\
      at_cursor big w cap l c' r'
  end.
Proof.
  intros big w cap l c r block n W C A Bl B Hn. unfold taken, read. rewrite (ac_cap _ _ _ _ _ _ A).
  destruct (cap =? 0) eqn:Z0.
  - replace (0 <? cap) with false by lia. unfold container_ops. cbn [raw_read].
    assert (X := lean_cursor big w cap l c r block 0 n A ltac:(lia) ltac:(lia) ltac:(lia)).
    destruct (direct l c n) as [[d c']|].
    + destruct X as (q & -> & _ & A'). cbn [bind]. rewrite overwrite_start. eexists. split; [reflexivity|]. now apply A'.
    + rewrite X. reflexivity.
  - replace (0 <? cap) with true by lia. assert (Cp : 0 < cap) by lia. unfold read_buffered.
    rewrite (ac_stale _ _ _ _ _ _ A).
    assert (First : match (if stale c then refilled w cap l c else Some c) with
      | None => (if stale c then bind (fill container_ops r) (fun '(r, _) => Ok r) else Ok r) = UB OutOfBoundsRead
      | Some c1 => exists r1, (if stale c then bind (fill container_ops r) (fun '(r, _) => Ok r) else Ok r) = Ok r1 /\
          at_cursor big w cap l c1 r1 /\ stale c1 = false
      end).
    { destruct (stale c) eqn:Sc.
      - destruct (refilled w cap l c) as [c1|] eqn:Rf.
        + destruct (inside_fill _ _ _ _ _ _ _ W Cp A Bl B Rf) as (r1 & -> & A1). exists r1. split; [reflexivity|]. split; [exact A1|].
          unfold refilled in Rf. cbv zeta in Rf. destruct (inside l (place c + step c * w)); [|discriminate]. now injection Rf as <-.
        + rewrite (outside_fill _ _ _ _ _ _ W A Bl B); [reflexivity|]. unfold refilled in Rf. cbv zeta in Rf.
          destruct (inside l (place c + step c * w)); [discriminate|reflexivity].
      - exists r. tauto. }
    destruct (if stale c then refilled w cap l c else Some c) as [c1|].
    2: { rewrite First. reflexivity. }
    destruct First as (r1 & -> & A1 & S1). cbn [bind]. clear A r c. cbv zeta.
    destruct (ac_range _ _ _ _ _ _ A1 S1) as (R1 & R2 & R3). pose proof (len_nonneg (held c1)) as Hh.
    rewrite (ac_spent _ _ _ _ _ _ A1).
    destruct (n <=? len (held c1)) eqn:Q1.
    + replace (filled (buf r1) <? spent c1 + n) with false by lia.
      destruct (hand_step big w cap l c1 r1 block 0 n A1 S1 Cp ltac:(lia) ltac:(lia) ltac:(lia)) as (Hb & A2).
      rewrite Hb. cbn [bind]. rewrite overwrite_start. unfold hand_out at 1. rewrite len_take by lia. rewrite Z.min_l by lia.
      eexists. split; [reflexivity|]. exact A2.
    + replace (filled (buf r1) <? spent c1 + n) with true by lia.
      rewrite as_size_pos by lia. replace (filled (buf r1) - spent c1) with (len (held c1)) by lia.
      set (t := len (held c1)) in *.
      destruct (hand_step big w cap l c1 r1 block 0 t A1 S1 Cp ltac:(lia) ltac:(lia) ltac:(lia)) as (Hb & A2).
      set (c2 := snd (hand_out c1 t)) in *.
      set (r2 := Resource (inner r1) (Buffer (mem (buf r1)) (filled (buf r1)) (bpos (buf r1) + t) (read_dirty (buf r1)) (write_dirty (buf r1)))) in *.
      assert (Th : take t (held c1) = held c1) by (apply take_all; lia).
      assert (Fst : (if 0 <? t
        then bind (buffer_read (buf r1) block 0 t) (fun '(b, dst, k) => Ok (Resource (inner r1) b, dst, k, as_size (n - k)))
        else Ok (r1, block, 0, n)) = Ok (r2, held c1 ++ drop t block, t, n - t)).
      { destruct (0 <? t) eqn:Fp.
        - rewrite Hb. cbn [bind]. rewrite as_size_pos by lia. rewrite overwrite_start, Th. reflexivity.
        - assert (H0 : t = 0) by lia. assert (He : held c1 = []) by (apply len_zero; exact H0).
          rewrite He, H0, drop_0, Z.sub_0_r. cbn [app]. do 4 f_equal. unfold r2. rewrite H0, Z.add_0_r.
          destruct r1 as [i b]. cbn [inner buf]. destruct b. reflexivity. }
      rewrite Fst. cbn [bind]. clear Fst. rewrite (ac_cap _ _ _ _ _ _ A2).
      change (hand_out c1 t) with (take t (held c1), c2). rewrite Th. cbv iota beta.
      assert (Lr : len (held c1 ++ drop t block) = len block) by (rewrite len_app, len_drop by lia; lia).
      assert (Join : forall x k, len x = k -> 0 <= k -> t + k <= len block ->
        overwrite (held c1 ++ drop t block) t x = (held c1 ++ x) ++ drop (len (held c1 ++ x)) block /\
        t + k = len (held c1 ++ x)).
      { intros x k Lx Kp Kb. rewrite len_app. fold t. split; [|lia].
        unfold overwrite. rewrite take_app_l by lia. rewrite Th, <- app_assoc. f_equal. f_equal.
        rewrite drop_app_r by lia. rewrite drop_drop by lia. f_equal. lia. }
      destruct (n - t <=? cap) eqn:Q2.
      * replace (cap <? n - t) with false by lia.
        destruct (refilled w cap l c2) as [c3|] eqn:Rf.
        -- destruct (inside_fill _ _ _ _ _ _ _ W Cp A2 Bl B Rf) as (r3 & -> & A3). cbn [bind].
           assert (S3 : stale c3 = false).
           { unfold refilled in Rf. cbv zeta in Rf. destruct (inside l (place c2 + step c2 * w)); [|discriminate]. now injection Rf as <-. }
           assert (Hk : (if len (held c3) <? n - t then len (held c3) else n - t) = Z.min (n - t) (len (held c3)))
             by (destruct (len (held c3) <? n - t) eqn:X; lia).
           rewrite Hk. set (k := Z.min (n - t) (len (held c3))). pose proof (len_nonneg (held c3)).
           destruct (hand_step big w cap l c3 r3 (held c1 ++ drop t block) t k A3 S3 Cp ltac:(lia) ltac:(lia) ltac:(lia)) as (Hb3 & A4).
           rewrite Hb3. cbn [bind]. unfold hand_out at 1.
           destruct (Join (take k (held c3)) k) as (J1 & J2); [rewrite len_take by lia; lia|lia|lia|].
           rewrite J1, J2. eexists. split; [reflexivity|]. exact A4.
        -- rewrite (outside_fill _ _ _ _ _ _ W A2 Bl B); [reflexivity|]. unfold refilled in Rf. cbv zeta in Rf.
           destruct (inside l (place c2 + step c2 * w)); [discriminate|reflexivity].
      * replace (cap <? n - t) with true by lia. unfold container_ops. cbn [raw_read].
        assert (X := lean_cursor big w cap l c2 r2 (held c1 ++ drop t block) t (n - t) A2 ltac:(lia) ltac:(lia) ltac:(lia)).
        destruct (direct l c2 (n - t)) as [[d c3]|].
        -- destruct X as (q & -> & Ld & A3). cbn [bind]. pose proof (len_nonneg d).
           destruct (Join d (len d) eq_refl) as (J1 & J2); [lia|lia|]. rewrite J1, J2. eexists. split; [reflexivity|]. now apply A3.
        -- rewrite X. reflexivity.
Qed.

Lemma sought_position : forall big w cap l c r n o, at_cursor big w cap l c r ->
  set_position_raw (inner r) n (reference o) = Container l w (sought w l c n o) 0.
Proof.
  intros big w cap l c r n o A. unfold set_position_raw, sought. rewrite (ac_elem _ _ _ _ _ _ A), (ac_content _ _ _ _ _ _ A), (ac_place _ _ _ _ _ _ A).
  rewrite convert_wrap. destruct o; reflexivity.
Qed.

Lemma turn_step : forall big w cap l c r x, 1 <= w -> 0 <= cap -> at_cursor big w cap l c r -> len l <= big -> big * (w + 1) < 2 ^ 63 ->
  for_input x = true -> (forall b n, x = Read b n -> 0 <= n <= len b) ->
  match turn w cap l c x with
  | None => call_input r x = UB OutOfBoundsRead
  | Some (c', a) => exists r', call_input r x = Ok (r', a) /\ at_cursor big w cap l c' r'
  end.
Proof.
  intros big w cap l c r x W C A Bl B Fi G. destruct x as [b n|d| |n o|n|n]; try discriminate Fi; cbn [turn call_input call_io].
  - assert (X := taken_step big w cap l c r b n W C A Bl B (G b n eq_refl)). destruct (taken w cap l c n) as [[d c']|].
    + destruct X as (r' & -> & A'). eexists. split; [reflexivity|exact A'].
    + rewrite X. reflexivity.
  - eexists. split; [reflexivity|]. unfold seek_input. rewrite (sought_position _ _ _ _ _ _ _ _ A).
    destruct A as [E K Ct S P T U Bd F Ba Id R M].
    constructor; cbn [inner buf elem content position last_fill place step held spent stale set_read_dirty read_dirty bpos filled mem];
      try reflexivity; try assumption; try lia; try discriminate; try apply wrap_range.
  - eexists. split; [reflexivity|]. change (go_back (inner r) n) with (set_position_raw (inner r) (- n) (reference Current)).
    rewrite (sought_position _ _ _ _ _ _ _ _ A).
    destruct A as [E K Ct S P T U Bd F Ba Id R M].
    constructor; cbn [inner buf elem content position last_fill place step held spent stale];
      try reflexivity; try assumption; try lia; try apply wrap_range.
  - eexists. split; [reflexivity|]. change (go_forward (inner r) n) with (set_position_raw (inner r) n (reference Current)).
    rewrite (sought_position _ _ _ _ _ _ _ _ A).
    destruct A as [E K Ct S P T U Bd F Ba Id R M].
    constructor; cbn [inner buf elem content position last_fill place step held spent stale];
      try reflexivity; try assumption; try lia; try apply wrap_range.
Qed.

Lemma turns_run : forall big w cap l xs c r, 1 <= w -> 0 <= cap -> at_cursor big w cap l c r -> len l <= big -> big * (w + 1) < 2 ^ 63 ->
  forallb for_input xs = true -> (forall b n, In (Read b n) xs -> 0 <= n <= len b) ->
  match turns w cap l c xs with
  | None => run call_input r xs = UB OutOfBoundsRead
  | Some (c', a) => exists r', run call_input r xs = Ok (r', a) /\ at_cursor big w cap l c' r'
  end.
Proof.
  intros big w cap l xs. induction xs as [|x xs IH]; intros c r W C A Bl B Fi G.
  - exists r. split; [reflexivity|exact A].
  - cbn [forallb] in Fi. apply andb_prop in Fi. destruct Fi as (F1 & F2).
    assert (X := turn_step big w cap l c r x W C A Bl B F1 (fun b n e => G b n (or_introl e))).
    cbn [turns run]. destruct (turn w cap l c x) as [[c1 a]|].
    + destruct X as (r1 & -> & A1). cbn [bind].
      assert (Y := IH c1 r1 W C A1 Bl B F2 (fun b n e => G b n (or_intror e))).
      destruct (turns w cap l c1 xs) as [[c2 al]|].
      * destruct Y as (r2 & -> & A2). eexists. split; [reflexivity|exact A2].
      * rewrite Y. reflexivity.
    + rewrite X. reflexivity.
Qed.

Lemma start_cursor : forall big w cap l, at_cursor big w (Z.of_nat cap) l start (new_resource l w cap).
Proof.
  intros big w cap l. constructor; try reflexivity; cbn; try lia; try tauto; try discriminate.
  unfold capacity, new_buffer. cbn [mem]. unfold size_of. now rewrite repeat_length.
Qed.
