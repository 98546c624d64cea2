(** The relation between a file and the store it stands for; reads. *)
From Coq Require Import NArith ZArith List Bool Lia.
From Coq Require Import ZifyBool ZifyNat ZifyN.
From Verif Require Import Base Integers ResourceSpec ResourceModel ResourceText FileSpec FileModel FileText.
From Verif Require Import ResourceLemmas ResourceLemmas2 FileLemmas.
Import ListNotations.
Open Scope Z_scope.

(** The part that depends on the stage.  c: the file's bytes, a: the offset in it,
    last: what the buffer was last filled with. *)
Definition in_stage (p : stage) (s : store) (c : list N) (a last : Z) (b : buffer) : Prop :=
  match p with
  | Resting =>
      c = bytes s /\ a = at_ s /\ last = 0 /\ read_dirty b = true /\ write_dirty b = false /\ bpos b = 0
  | InReads =>
      c = bytes s /\ a + bpos b = at_ s /\ last = filled b /\ read_dirty b = false /\ write_dirty b = false /\
      0 <= bpos b <= filled b /\ filled b <= capacity b /\ filled b <= len (drop a c) /\
      take (filled b) (mem b) = take (filled b) (drop a c)
  | InWrites =>
      a + bpos b = at_ s /\ last = 0 /\ read_dirty b = true /\ (write_dirty b = false -> bpos b = 0) /\
      0 <= bpos b <= capacity b /\ bytes s = put c a (take (bpos b) (mem b))
  end.

(** The open file behind a resource. *)
Record opened (s : sys) (q : N) (rd wr : bool) (c : list N) (a : Z) : Prop := {
  op_handle : exists n h, lookup (os s) (descriptor s) = Some (n, h) /\ file_name h = q /\
                readable h = rd /\ writable h = wr /\ offset h = a;
  op_content : disk (os s) q = Some c }.

Record file_for (pl : platform) (cap : Z) (q : N) (rd wr : bool) (others : N -> option (list N))
    (p : stage) (s : store) (r : resource sys) : Prop := {
  ff_open : exists c a, opened (inner r) q rd wr c a /\ 0 <= a /\
              in_stage p s c a (filled_last (inner r)) (buf r);
  ff_cap : capacity (buf r) = cap;
  ff_most : cap <= chunk_max pl;
  ff_at : 0 <= at_ s < 2 ^ 63;
  ff_fits : len (bytes s) < 2 ^ 63;
  ff_others : forall x, x <> q -> disk (os (inner r)) x = others x;
  ff_unbuffered : cap = 0 -> p = Resting }.

Lemma content_of_opened : forall s q rd wr c a, opened s q rd wr c a -> content_of (os s) q = c.
Proof. intros s q rd wr c a [_ H]. unfold content_of. now rewrite H. Qed.

(** A seek by the operating system. *)
Lemma seek_current : forall pl s q rd wr c a n, opened s q rd wr c a -> 0 <= a + n < 2 ^ 63 ->
  opened (seek_raw pl s n FromCurrent) q rd wr c (a + n) /\
  disk (os (seek_raw pl s n FromCurrent)) = disk (os s) /\
  script (os (seek_raw pl s n FromCurrent)) = script (os s) /\
  filled_last (seek_raw pl s n FromCurrent) = 0.
Proof.
  intros pl s q rd wr c a n [(k & h & L & H1 & H2 & H3 & H4) D] B.
  assert (E : seek_raw pl s n FromCurrent
    = Sys (set_handle (os s) k (Some (move_to h (a + n)))) (descriptor s) 0).
  { unfold seek_raw. destruct pl; unfold sys_seek; rewrite L, H4;
    replace ((0 <=? a + n) && (a + n <? 2 ^ 63)) with true by lia; reflexivity. }
  rewrite E. cbn [os descriptor filled_last]. split; [|tauto]. constructor; cbn [os descriptor]; [|exact D].
  exists k, (move_to h (a + n)). split; [now apply lookup_set with h|].
  cbn [move_to file_name readable writable offset]. tauto.
Qed.

Definition some_prefix (d all : list N) : Prop := d = take (len d) all.

(** What a raw read of at most [n] bytes gets. *)
Lemma raw_lean : forall pl s q wr c a dst off n, opened s q true wr c a -> 0 <= a -> 0 <= off -> 0 <= n <= chunk_max pl ->
  off + n <= len dst -> no_short_read_on_unix pl (os s) ->
  exists s' d, file_read_raw pl s dst off n LeanRetrieval = Ok (s', overwrite dst off d, len d) /\
    opened s' q true wr c (a + len d) /\ disk (os s') = disk (os s) /\ filled_last s' = filled_last s /\
    (forall P : response -> Prop, Forall P (script (os s)) -> Forall P (script (os s'))) /\
    some_prefix d (take n (drop a c)) /\ (no_failure (os s) -> d = take n (drop a c)).
Proof.
  intros pl s q wr c a dst off n H A O N D S. assert (CO := content_of_opened _ _ _ _ _ _ H).
  destruct H as [(k & h & L & H1 & H2 & H3 & H4) DK].
  unfold file_read_raw.
  destruct (read_blocks_got pl (os s) (descriptor s) k h dst off n) as (w' & d & X & X1 & X2 & X3 & X4 & X5); try assumption; try lia.
  rewrite X. cbn [bind]. rewrite Z.add_0_r, Z.add_0_l. exists (Sys w' (descriptor s) (filled_last s)), d.
  rewrite H1, H4, CO, Z.sub_0_r in *. split; [reflexivity|].
  split.
  { constructor; cbn [os descriptor]; [|now rewrite X1]. exists k, (move_to h (a + len d)).
    rewrite X5. cbn [move_to file_name readable writable offset]. tauto. }
  cbn [os filled_last]. tauto.
Qed.

Lemma len_some_prefix : forall d n l, some_prefix d (take n l) -> 0 <= n -> len d <= n /\ len d <= len l.
Proof. exact len_prefix. Qed.

(** Filling the buffer, from where the last filling ended. *)
Lemma raw_fill : forall pl s q wr c a dst n, opened s q true wr c a -> 0 <= a -> 0 <= filled_last s ->
  a + filled_last s < 2 ^ 63 -> len c < 2 ^ 63 -> 0 <= n <= chunk_max pl -> n <= len dst ->
  no_short_read_on_unix pl (os s) ->
  exists s' d, file_read_raw pl s dst 0 n FillBuffer = Ok (s', overwrite dst 0 d, len d) /\
    opened s' q true wr c (a + filled_last s) /\ disk (os s') = disk (os s) /\ filled_last s' = len d /\
    (forall P : response -> Prop, Forall P (script (os s)) -> Forall P (script (os s'))) /\
    some_prefix d (take n (drop (a + filled_last s) c)) /\
    (no_failure (os s) -> d = take n (drop (a + filled_last s) c)).
Proof.
  intros pl s q wr c a dst n H A F B LC N D S.
  assert (S1 : exists s1, (if 0 <? filled_last s then seek_raw pl s (filled_last s) FromCurrent else s) = s1 /\
    opened s1 q true wr c (a + filled_last s) /\ disk (os s1) = disk (os s) /\ script (os s1) = script (os s)).
  { destruct (0 <? filled_last s) eqn:Z.
    - destruct (seek_current pl s q true wr c a (filled_last s) H ltac:(lia)) as (K1 & K2 & K3 & _). eauto 10.
    - replace (a + filled_last s) with a by lia. eauto 10. }
  destruct S1 as (s1 & E1 & O1 & D1 & C1).
  unfold file_read_raw. rewrite E1. clear E1.
  assert (L := raw_lean pl s1 q wr c (a + filled_last s) dst 0 n O1 ltac:(lia) ltac:(lia) N ltac:(lia)).
  destruct L as (s2 & d & X & O2 & D2 & F2 & P2 & Q2 & R2).
  { unfold no_short_read_on_unix. now rewrite C1. }
  unfold file_read_raw in X.
  destruct (read_blocks pl (chunk_count pl n) (os s1) (descriptor s1) dst 0 n 0) as [[[w' dst'] t]| | | |]; try discriminate.
  cbn [bind] in X |- *. injection X as <- -> ->.
  destruct (len_some_prefix _ _ _ Q2 ltac:(lia)) as [K1 K2]. rewrite len_drop in K2 by lia. pose proof (len_nonneg d).
  destruct (seek_current pl (Sys w' (descriptor s1) (filled_last s1)) q true wr c (a + filled_last s + len d) (- len d) O2 ltac:(lia)) as (J1 & J2 & J3 & _).
  replace (a + filled_last s + len d + - len d) with (a + filled_last s) in J1 by lia.
  eexists _, d. split; [reflexivity|]. cbn [os descriptor filled_last] in *.
  split.
  { destruct J1 as [J1 J1']. constructor; assumption. }
  split; [congruence|]. split; [reflexivity|].
  split; [intros P HP; rewrite J3; apply P2; now rewrite C1|].
  split; [assumption|]. intro NF. apply R2. unfold no_failure. now rewrite C1.
Qed.

Lemma fill_file : forall pl (r : resource sys) q wr c a, opened (inner r) q true wr c a -> 0 <= a ->
  0 <= filled_last (inner r) -> a + filled_last (inner r) < 2 ^ 63 -> len c < 2 ^ 63 ->
  capacity (buf r) <= chunk_max pl -> no_short_read_on_unix pl (os (inner r)) ->
  exists r' d, fill (file_ops pl) r = Ok (r', len d) /\
    opened (inner r') q true wr c (a + filled_last (inner r)) /\ disk (os (inner r')) = disk (os (inner r)) /\
    filled_last (inner r') = len d /\
    (forall P : response -> Prop, Forall P (script (os (inner r))) -> Forall P (script (os (inner r')))) /\
    capacity (buf r') = capacity (buf r) /\ filled (buf r') = len d /\ bpos (buf r') = 0 /\
    read_dirty (buf r') = false /\ write_dirty (buf r') = write_dirty (buf r) /\ len d <= capacity (buf r) /\
    take (len d) (mem (buf r')) = d /\
    some_prefix d (take (capacity (buf r)) (drop (a + filled_last (inner r)) c)) /\
    (no_failure (os (inner r)) -> d = take (capacity (buf r)) (drop (a + filled_last (inner r)) c)).
Proof.
  intros pl r q wr c a H A F B LC M S. pose proof (capacity_nonneg (buf r)).
  unfold fill, file_ops. cbn [raw_read].
  destruct (raw_fill pl (inner r) q wr c a (mem (buf r)) (capacity (buf r)) H A F B LC ltac:(lia)) as (s' & d & X & X1 & X2 & X3 & X4 & X5 & X6).
  { unfold capacity. change size_of with len. lia. } { assumption. }
  rewrite X. cbn [bind]. destruct (len_some_prefix _ _ _ X5 ltac:(lia)) as [K1 K2].
  eexists _, d. split; [reflexivity|]. cbn [inner buf mem filled bpos read_dirty write_dirty].
  split; [assumption|]. split; [assumption|]. split; [assumption|]. split; [assumption|].
  split.
  { unfold capacity in *. cbn [mem]. change size_of with len in *. rewrite len_overwrite; pose proof (len_nonneg d); lia. }
  split; [reflexivity|]. split; [reflexivity|]. split; [reflexivity|]. split; [reflexivity|]. split; [assumption|].
  split; [rewrite overwrite_start; apply take_app_exact|]. tauto.
Qed.

Lemma next_drop : forall s f n, 0 <= at_ s -> 0 <= f <= n -> f <= len (drop (at_ s) (bytes s)) ->
  next_bytes s n = next_bytes s f ++ take (n - f) (drop (at_ s + f) (bytes s)).
Proof.
  intros s f n A F L. unfold next_bytes. replace n with (f + (n - f)) at 1 by lia.
  rewrite take_split by lia. now rewrite drop_drop by lia.
Qed.

Lemma some_prefix_app : forall a d l, some_prefix d l -> some_prefix (a ++ d) (a ++ l).
Proof.
  intros a d l H. unfold some_prefix in *. pose proof (len_nonneg a). pose proof (len_nonneg d).
  rewrite len_app. rewrite take_app by lia. rewrite take_all by lia.
  replace (len a + len d - len a) with (len d) by lia. congruence.
Qed.

Lemma some_prefix_take : forall d n m l, some_prefix d (take n l) -> 0 <= m <= n -> some_prefix (take m d) (take m l).
Proof.
  intros d n m l H M. unfold some_prefix in *. pose proof (len_nonneg d).
  rewrite (len_take m d) by lia. rewrite take_take by lia.
  assert (E : forall k, 0 <= k -> d = take k (take n l) -> take m d = take (Z.min (Z.min m k) m) l).
  { intros k K ->. rewrite !take_take by lia. f_equal. lia. }
  now apply E.
Qed.

Lemma some_prefix_of : forall d n l, some_prefix d (take n l) -> 0 <= n -> d = take (len d) l.
Proof.
  intros d n l H M. pose proof (len_nonneg d). destruct (len_some_prefix _ _ _ H M) as [K _].
  unfold some_prefix in H. rewrite take_take in H by lia. now rewrite Z.min_l in H by lia.
Qed.

Lemma read_file_step : forall pl cap q wr others p s r block n, file_for pl cap q true wr others p s r ->
  no_short_read_on_unix pl (os (inner r)) ->
  0 <= n <= len block -> n <= chunk_max pl -> cap = 0 \/ n <= cap -> p <> InWrites ->
  exists r' d, read (file_ops pl) r block n = Ok (r', d ++ drop (len d) block, len d) /\
    some_prefix d (next_bytes s n) /\ (no_failure (os (inner r)) -> d = next_bytes s n) /\
    (forall P : response -> Prop, Forall P (script (os (inner r))) -> Forall P (script (os (inner r')))) /\
    file_for pl cap q true wr others (if cap =? 0 then Resting else InReads) (Store (bytes s) (at_ s + len d)) r'.
Proof.
  intros pl cap q wr others p s r block n S NS N M C Ph.
  destruct S as [(c & a & O & A0 & I) K CM At Fi Ot U].
  unfold read. rewrite K. destruct (0 <? cap) eqn:Z.
  - (* buffered *)
    replace (cap =? 0) with false by lia.
    assert (Reads : exists r1 a1, (if read_dirty (buf r) then bind (fill (file_ops pl) r) (fun '(r, _) => Ok r) else Ok r) = Ok r1
        /\ opened (inner r1) q true wr (bytes s) a1 /\ 0 <= a1 /\
        in_stage InReads s (bytes s) a1 (filled_last (inner r1)) (buf r1) /\ capacity (buf r1) = cap /\
        (forall x, x <> q -> disk (os (inner r1)) x = others x) /\
        (no_failure (os (inner r)) -> no_failure (os (inner r1))) /\ no_short_read_on_unix pl (os (inner r1)) /\
        (forall P : response -> Prop, Forall P (script (os (inner r))) -> Forall P (script (os (inner r1)))) /\
        (no_failure (os (inner r)) -> p = Resting -> filled (buf r1) = Z.min cap (len (drop (at_ s) (bytes s))))).
    { destruct p; [| |congruence]; cbn [in_stage] in I.
      - destruct I as (I1 & I2 & I3 & I4 & I5 & I6). rewrite I4. subst c a.
        destruct (fill_file pl r q wr (bytes s) (at_ s) O) as (r1 & d & F & G1 & G2 & G3 & G4 & G5 & G6 & G7 & G8 & G9 & G10 & G11 & G12 & G13); try assumption; try lia.
        rewrite F. cbn [bind]. exists r1, (at_ s). rewrite I3, Z.add_0_r in *.
        split; [reflexivity|]. split; [assumption|]. split; [lia|].
        destruct (len_some_prefix _ _ _ G12 ltac:(lia)) as [L1 L2]. pose proof (len_nonneg d).
        split.
        { cbn [in_stage]. rewrite G6, G7, G5, G8, G9, I5, G11.
          split; [reflexivity|]. split; [lia|]. split; [assumption|]. split; [reflexivity|]. split; [reflexivity|].
          split; [lia|]. split; [lia|]. split; [assumption|].
          apply some_prefix_of with (capacity (buf r)); [assumption|lia]. }
        split; [congruence|]. split; [now rewrite G2|]. split; [apply G4|].
        split. { destruct NS as [NS|NS]; [now left|right; now apply G4]. }
        split; [assumption|]. intros NF _. rewrite G6, (G13 NF), K. rewrite len_take by lia. reflexivity.
      - exists r, a. destruct I as (I1 & I2 & I3 & I4 & I'). rewrite I4. subst c.
        split; [reflexivity|]. split; [assumption|]. split; [lia|]. split; [cbn [in_stage]; tauto|].
        split; [assumption|]. split; [assumption|]. split; [auto|]. split; [assumption|]. split; [auto|]. discriminate. }
    unfold read_buffered. destruct Reads as (r1 & a1 & -> & O1 & A1 & I1 & K1 & Ot1 & NF1 & NS1 & P1 & FL). cbn [bind].
    destruct I1 as (_ & J2 & J3 & J4 & J5 & J6 & J7 & J8 & J9).
    assert (Wi := fun n => window (filled (buf r1)) (bpos (buf r1)) n a1 (mem (buf r1)) (bytes s)).
    rewrite J2 in Wi.
    assert (JD : filled (buf r1) - bpos (buf r1) <= len (drop (at_ s) (bytes s))).
    { rewrite len_drop in J8 |- * by lia. lia. }
    destruct (filled (buf r1) <? bpos (buf r1) + n) eqn:More.
    + (* the buffer does not have all of it *)
      rewrite as_size_pos by lia. set (f := filled (buf r1) - bpos (buf r1)) in *.
      assert (Lnf : len (next_bytes s f) = f) by (unfold next_bytes; rewrite len_take by lia; lia).
      assert (Fst : (if 0 <? f
        then bind (buffer_read (buf r1) block 0 f) (fun '(b, dst, k) => Ok (Resource (inner r1) b, dst, k, as_size (n - k)))
        else Ok (r1, block, 0, n))
        = Ok (Resource (inner r1) (Buffer (mem (buf r1)) (filled (buf r1)) (filled (buf r1)) false false),
              next_bytes s f ++ drop f block, f, n - f)).
      { destruct (0 <? f) eqn:Fp.
        - rewrite buffer_read_ok by lia. cbn [bind]. rewrite as_size_pos by lia.
          rewrite overwrite_start. rewrite Wi by (try assumption; lia). rewrite J4, J5.
          fold (next_bytes s f). rewrite Lnf.
          replace (bpos (buf r1) + f) with (filled (buf r1)) by lia. reflexivity.
        - assert (f = 0) by lia. replace f with 0 by lia. unfold next_bytes. rewrite take_0, drop_0. cbn [app].
          rewrite Z.sub_0_r. f_equal. f_equal. f_equal. f_equal. destruct r1 as [i b]. cbn [inner buf] in *. f_equal.
          destruct b as [bm bf bp br bw]. cbn [mem filled bpos read_dirty write_dirty] in *. subst br bw. f_equal. lia. }
      rewrite Fst. cbn [bind inner buf]. unfold capacity at 1. cbn [mem]. fold (capacity (buf r1)). rewrite K1.
      replace (cap <? n - f) with false by lia.
      destruct (fill_file pl (Resource (inner r1) (Buffer (mem (buf r1)) (filled (buf r1)) (filled (buf r1)) false false)) q wr (bytes s) a1)
        as (r2 & d & F & G1 & G2 & G3 & G4 & G5 & G6 & G7 & G8 & G9 & G10 & G11 & G12 & G13); cbn [inner buf]; try assumption; try lia.
      { rewrite len_drop in J8 by lia. lia. }
      { unfold capacity in *. cbn [mem]. lia. }
      cbn [inner buf] in *. change (capacity (Buffer (mem (buf r1)) (filled (buf r1)) (filled (buf r1)) false false)) with (capacity (buf r1)) in *.
      cbn [write_dirty] in G9.
      rewrite F. cbn [bind].
      rewrite J3 in *. replace (a1 + filled (buf r1)) with (at_ s + f) in * by lia. rewrite K1 in *.
      destruct (len_some_prefix _ _ _ G12 ltac:(lia)) as [L1 L2]. pose proof (len_nonneg d).
      set (m := if len d <? n - f then len d else n - f).
      assert (Hm : m = Z.min (n - f) (len d)) by (unfold m; destruct (len d <? n - f) eqn:X; lia).
      assert (Lf : len (next_bytes s f ++ drop f block) = len block).
      { rewrite len_app, Lnf, len_drop by lia. lia. }
      rewrite buffer_read_ok by lia. cbn [bind].
      assert (Tm : take m (drop (bpos (buf r2)) (mem (buf r2))) = take m d).
      { rewrite G7, drop_0. transitivity (take m (take (len d) (mem (buf r2)))); [|now rewrite G11].
        rewrite take_take by lia. f_equal. lia. }
      rewrite Tm.
      assert (Lm : len (take m d) = m) by (rewrite len_take by lia; lia).
      assert (All := next_drop s f n ltac:(lia) ltac:(lia) JD).
      exists (Resource (inner r2) (Buffer (mem (buf r2)) (filled (buf r2)) (bpos (buf r2) + m) (read_dirty (buf r2)) (write_dirty (buf r2)))), (next_bytes s f ++ take m d).
      assert (Ld : len (next_bytes s f ++ take m d) = f + m) by (rewrite len_app; lia).
      split.
      { f_equal. f_equal; [f_equal|lia]. rewrite Ld.
        unfold overwrite. rewrite take_app_l by lia. rewrite (take_all f) by lia.
        rewrite <- app_assoc. f_equal. f_equal. rewrite drop_app_r by lia. rewrite drop_drop by lia. f_equal. lia. }
      assert (Pm : take m d = take (n - f) d).
      { destruct (Z.le_ge_cases (n - f) (len d)).
        - replace m with (n - f) by lia. reflexivity.
        - rewrite !take_all by lia. reflexivity. }
      split. { rewrite All, Pm. apply some_prefix_app. apply some_prefix_take with cap; [assumption|lia]. }
      split.
      { intro NF. rewrite All, Pm. f_equal. rewrite (G13 (NF1 NF)). rewrite take_take by lia. f_equal. lia. }
      split. { intros P HP. cbn [inner]. auto. }
      rewrite Ld. constructor; cbn [inner buf bytes at_]; try assumption; try lia.
      * exists (bytes s), (at_ s + f). split; [assumption|]. split; [lia|].
        cbn [in_stage mem filled bpos read_dirty write_dirty bytes at_].
        unfold capacity in *. cbn [mem]. rewrite G5, G6, G7, G8, G9, G11, Z.add_0_l.
        split; [reflexivity|]. split; [lia|]. split; [assumption|]. split; [reflexivity|]. split; [reflexivity|].
        split; [lia|]. split; [lia|]. split; [assumption|].
        apply some_prefix_of with cap; [assumption|lia].
      * rewrite len_drop in L2, JD by lia. lia.
      * intros x X. rewrite G2. auto.
    + (* it does *)
      rewrite buffer_read_ok by lia. cbn [bind]. rewrite Wi by (try assumption; lia). fold (next_bytes s n).
      assert (Ln' : len (next_bytes s n) = n) by (unfold next_bytes; rewrite len_take by lia; lia).
      rewrite overwrite_start, Ln'.
      eexists _, (next_bytes s n). rewrite Ln'. split; [reflexivity|].
      split. { unfold some_prefix. now rewrite take_all by lia. }
      split; [reflexivity|]. split; [assumption|].
      constructor; cbn [inner buf bytes at_]; try assumption; try lia.
      * exists (bytes s), a1. split; [assumption|]. split; [assumption|].
        cbn [in_stage mem filled bpos read_dirty write_dirty bytes at_].
        unfold capacity in *. cbn [mem]. repeat split; try assumption; lia.
      * rewrite len_drop in JD by lia. lia.
  - (* unbuffered *)
    pose proof (capacity_nonneg (buf r)). assert (cap = 0) by lia. rewrite (U ltac:(assumption)) in *.
    replace (cap =? 0) with true by lia. destruct I as (-> & -> & I3 & I4 & I5 & I6).
    unfold file_ops. cbn [raw_read].
    destruct (raw_lean pl (inner r) q wr (bytes s) (at_ s) block 0 n O) as (s' & d & X & X1 & X2 & X3 & X4 & X5 & X6); try assumption; try lia.
    rewrite X. cbn [bind]. rewrite overwrite_start. exists (Resource s' (buf r)), d. split; [reflexivity|].
    split; [assumption|]. split; [assumption|]. split; [assumption|].
    destruct (len_some_prefix _ _ _ X5 ltac:(lia)) as [L1 L2]. rewrite len_drop in L2 by lia. pose proof (len_nonneg d).
    constructor; cbn [inner buf bytes at_]; try assumption; try lia; try tauto.
    + exists (bytes s), (at_ s + len d). split; [assumption|]. split; [lia|].
      cbn [in_stage bytes at_]. rewrite X3. tauto.
    + intros x Hx. rewrite X2. auto.
Qed.
