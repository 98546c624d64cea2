(** Reads of any size of a file do what the machine of LongFileSpec does. *)
From Coq Require Import NArith ZArith List Bool Lia.
From Coq Require Import ZifyBool ZifyNat ZifyN.
From Verif Require Import Base Integers ResourceSpec ResourceModel ResourceText FileSpec FileModel FileText.
From Verif Require Import ResourceLemmas ResourceLemmas2 FileLemmas FileLemmas2 FileLemmas3 LongSpec LongFileSpec.
Import ListNotations.
Open Scope Z_scope.

(** No short reads on Unix-like systems, and no failures. *)
Definition calm (pl : platform) (w : world) : Prop := no_short_read_on_unix pl w /\ no_failure w.

Record at_point (pl : platform) (cap : Z) (q : N) (wr : bool) (l : list N) (p : place) (r : resource sys) : Prop := {
  pt_open : opened (inner r) q true wr l (dev p);
  pt_last : filled_last (inner r) = win p;
  pt_cap : capacity (buf r) = cap;
  pt_most : cap <= chunk_max pl;
  pt_calm : calm pl (os (inner r));
  pt_clean : read_dirty (buf r) = false;
  pt_win : filled (buf r) = win p;
  pt_used : bpos (buf r) = used p;
  pt_range : 0 <= used p <= win p;
  pt_small : win p <= cap /\ win p <= len l;
  pt_dev : 0 <= dev p <= 2 * len l;
  pt_inside : 0 < win p -> dev p <= len l;
  pt_start : used p < win p -> dev p + win p <= len l;
  pt_mem : used p < win p -> take (win p) (mem (buf r)) = take (win p) (drop (dev p) l) }.

Lemma filled_point : forall pl cap q wr l (r : resource sys) a, opened (inner r) q true wr l a -> 0 < cap ->
  capacity (buf r) = cap -> cap <= chunk_max pl -> calm pl (os (inner r)) -> 0 <= a -> 0 <= filled_last (inner r) ->
  a + filled_last (inner r) <= 2 * len l -> len l < 2 ^ 62 ->
  let p := file_refill cap l (a + filled_last (inner r)) in
  exists r', fill (file_ops pl) r = Ok (r', win p) /\ at_point pl cap q wr l p r'.
Proof.
  intros pl cap q wr l r a O C K M [S F] A Fl B L p.
  destruct (fill_file pl r q wr l a O) as (r1 & d & Fi & G1 & G2 & G3 & G4 & G5 & G6 & G7 & G8 & G9 & G10 & G11 & G12 & G13);
    try assumption; try lia.
  specialize (G13 F). rewrite K in *. set (s := a + filled_last (inner r)) in *.
  assert (Ld : len d = win p) by (unfold p, file_refill; cbn [win]; now rewrite <- G13).
  assert (Lw : win p = Z.min cap (Z.max 0 (len l - s))).
  { unfold p, file_refill. cbn [win]. rewrite len_take, len_drop by lia. reflexivity. }
  exists r1. split; [now rewrite <- Ld|]. pose proof (len_nonneg d). pose proof (len_nonneg l).
  change (dev p) with s. constructor; change (dev p) with s; change (used p) with 0; try assumption; try congruence; try lia.
  - split; [|now apply G4]. destruct S as [S|S]; [now left|right; now apply G4].
  - intros _. rewrite <- Ld, G11. rewrite G13 at 1. rewrite G13. symmetry. apply take_len_take.
Qed.

Lemma file_get_step : forall pl cap q wr l p r block n, 0 < cap -> at_point pl cap q wr l p r -> len l < 2 ^ 62 ->
  0 <= n <= len block -> n <= chunk_max pl ->
  exists r', read_buffered (file_ops pl) r block n
    = Ok (r', fst (file_get cap l p n) ++ drop (len (fst (file_get cap l p n))) block, len (fst (file_get cap l p n))) /\
    at_point pl cap q wr l (snd (file_get cap l p n)) r'.
Proof.
  intros pl cap q wr l p r block n C A B Hn Hm.
  destruct A as [O Ls K M Cm Cl F U R S D I St Me].
  unfold read_buffered. rewrite Cl. cbn [bind]. unfold file_get. cbv zeta. rewrite F, U.
  assert (Wi : forall j, 0 <= j -> used p + j <= win p ->
    take j (drop (used p) (mem (buf r))) = take j (drop (dev p + used p) l)).
  { intros j J1 J2. destruct (Z.eq_dec j 0) as [->|N0]; [now rewrite !take_0|].
    apply window with (win p); try lia. apply Me. lia. }
  set (d0 := win p - used p) in *.
  assert (Len0 : forall j, 0 <= j <= d0 -> len (take j (drop (dev p + used p) l)) = j).
  { intros j J. destruct (Z.eq_dec j 0) as [->|N0]; [now rewrite take_0|].
    assert (S1 := St ltac:(lia)). rewrite len_take, len_drop by lia. lia. }
  destruct (n - d0 <=? 0) eqn:Q1.
  - (* in the buffer *)
    replace (win p <? used p + n) with false by lia. cbn [fst snd].
    rewrite buffer_read_ok by (rewrite ?F, ?U, ?K; lia). cbn [bind]. rewrite U, Wi by lia.
    rewrite Z.min_l by lia. rewrite overwrite_start, (Len0 n) by lia. eexists. split; [reflexivity|].
    constructor; cbn [inner buf dev win used read_dirty filled bpos mem]; try assumption; try lia.
    intros X. apply Me. lia.
  - replace (win p <? used p + n) with true by lia. rewrite as_size_pos by lia. fold d0.
    rewrite Z.min_r by lia. set (first := take d0 (drop (dev p + used p) l)) in *.
    assert (Lf : len first = d0) by (apply Len0; lia).
    assert (Fst : (if 0 <? d0
      then bind (buffer_read (buf r) block 0 d0) (fun '(b, dst, k) => Ok (Resource (inner r) b, dst, k, as_size (n - k)))
      else Ok (r, block, 0, n))
      = Ok (Resource (inner r) (Buffer (mem (buf r)) (win p) (win p) false (write_dirty (buf r))), first ++ drop d0 block, d0, n - d0)).
    { destruct (0 <? d0) eqn:Fp.
      - rewrite buffer_read_ok by (rewrite ?F, ?U, ?K; lia). cbn [bind]. rewrite as_size_pos by lia.
        rewrite overwrite_start, U, Wi, F, Cl by lia. fold first. rewrite Lf.
        replace (used p + d0) with (win p) by lia. reflexivity.
      - assert (H0 : d0 = 0) by lia. unfold first. rewrite H0, take_0, drop_0, Z.sub_0_r. cbn [app].
        do 4 f_equal. destruct r as [i b]. cbn [inner buf] in *. f_equal. destruct b as [bm bf bp br bw].
        cbn [mem filled bpos read_dirty write_dirty] in *. subst. f_equal; lia. }
    rewrite Fst. cbn [bind inner buf]. clear Fst.
    set (r1 := Resource (inner r) (Buffer (mem (buf r)) (win p) (win p) false (write_dirty (buf r)))).
    change (capacity (Buffer (mem (buf r)) (win p) (win p) false (write_dirty (buf r)))) with (capacity (buf r)). rewrite K.
    assert (Lr : len (first ++ drop d0 block) = len block) by (rewrite len_app, Lf, len_drop by lia; lia).
    destruct (n - d0 <=? cap) eqn:Q2.
    + replace (cap <? n - d0) with false by lia. cbn [fst snd].
      destruct (filled_point pl cap q wr l r1 (dev p) O C K M Cm) as (r2 & F2 & A2); try lia.
      { change (filled_last (inner r1)) with (filled_last (inner r)). lia. }
      { change (filled_last (inner r1)) with (filled_last (inner r)). rewrite Ls.
        destruct (Z.eq_dec (win p) 0) as [E0|E0]; [lia|]. specialize (I ltac:(lia)). lia. }
      change (filled_last (inner r1)) with (filled_last (inner r)) in F2, A2. rewrite Ls in F2, A2.
      rewrite F2. cbn [bind]. set (s := dev p + win p) in *. set (q2 := file_refill cap l s) in *.
      assert (Hk : (if win q2 <? n - d0 then win q2 else n - d0) = Z.min (n - d0) (win q2)) by (destruct (win q2 <? n - d0) eqn:X; lia).
      rewrite Hk. set (k := Z.min (n - d0) (win q2)) in *.
      change (dev q2) with s.
      destruct A2 as [O2 Ls2 K2 M2 Cm2 Cl2 F2' U2 R2 S2 D2 I2 St2 Me2].
      change (used q2) with 0 in *. change (dev q2) with s in *.
      rewrite buffer_read_ok by (rewrite ?F2', ?U2, ?K2; lia). cbn [bind].
      assert (T : take k (drop (bpos (buf r2)) (mem (buf r2))) = take k (drop s l)).
      { rewrite U2, drop_0. destruct (Z.eq_dec k 0) as [->|N0]; [now rewrite !take_0|].
        replace k with (Z.min k (win q2)) by lia. rewrite <- !take_take by lia. rewrite Me2 by lia. reflexivity. }
      rewrite T.
      assert (Lk : len (take k (drop s l)) = k).
      { destruct (Z.eq_dec k 0) as [->|N0]; [now rewrite !take_0|].
        specialize (St2 ltac:(lia)). rewrite len_take, len_drop by lia. lia. }
      eexists. split.
      * f_equal. f_equal; [f_equal|rewrite len_app; lia].
        unfold overwrite. rewrite take_app_l by lia. rewrite (take_all d0) by lia. rewrite <- app_assoc. f_equal. f_equal.
        rewrite drop_app_r by lia. rewrite drop_drop by lia. f_equal. rewrite len_app. lia.
      * constructor; cbn [inner buf dev win used read_dirty filled bpos mem]; try assumption; try lia.
        intros X. apply Me2. lia.
    + replace (cap <? n - d0) with true by lia. cbn [fst snd]. unfold file_ops. cbn [raw_read].
      destruct (raw_lean pl (inner r) q wr l (dev p) (first ++ drop d0 block) d0 (n - d0) O) as (s' & d & X & X1 & X2 & X3 & X4 & X5 & X6);
        try assumption; try lia; try apply Cm.
      specialize (X6 (proj2 Cm)). subst d. set (more := take (n - d0) (drop (dev p) l)) in *.
      assert (Lm : len more <= n - d0 /\ (len more = 0 \/ len more <= len l - dev p))
        by (unfold more; rewrite len_take, len_drop by lia; lia).
      pose proof (len_nonneg more).
      rewrite X. cbn [bind]. eexists. split.
      * f_equal. f_equal; [f_equal|rewrite len_app; lia].
        unfold overwrite. rewrite take_app_l by lia. rewrite (take_all d0) by lia. rewrite <- app_assoc. f_equal. f_equal.
        rewrite drop_app_r by lia. rewrite drop_drop by lia. f_equal. rewrite len_app. lia.
      * constructor; cbn [inner buf dev win used read_dirty filled bpos mem]; try assumption; try congruence; try lia.
        split; [|now apply X4, Cm]. destruct (proj1 Cm) as [Y|Y]; [now left|right; now apply X4].
Qed.

Lemma run_file_read : forall pl f b n rs, mode_reads (mode f) = true -> 0 < capacity (buf (res f)) ->
  run_file pl f (read_calls ((b, n) :: rs))
  = bind (read_buffered (file_ops pl) (res f) b n) (fun '(r, d, k) =>
    bind (run_file pl (File r (path f) (mode f)) (read_calls rs)) (fun '(f, l) => Ok (f, Returned (Got d k) :: l))).
Proof.
  intros pl f b n rs Mr C. unfold read_calls. cbn [map run_file call_file]. unfold file_read, read.
  replace (0 <? capacity (buf (res f))) with true by lia.
  destruct (mode f); try discriminate Mr; destruct (read_buffered (file_ops pl) (res f) b n) as [[[r1 d] k]| | | |]; reflexivity.
Qed.

Lemma file_gets_run : forall pl cap q wr l rs p f, 0 < cap -> mode_reads (mode f) = true ->
  at_point pl cap q wr l p (res f) -> len l < 2 ^ 62 ->
  Forall (fun '(b, n) => 0 <= n <= len b /\ n <= chunk_max pl) rs ->
  exists f', run_file pl f (read_calls rs) = Ok (f', map Returned (got_each (file_gets cap l p (map snd rs)) rs)).
Proof.
  intros pl cap q wr l rs. induction rs as [|[b n] rs IH]; intros p f C Mr A B G.
  - exists f. reflexivity.
  - inversion G as [|? ? Hn G']; subst. destruct Hn as [Hn Hm].
    rewrite run_file_read by (try assumption; rewrite (pt_cap _ _ _ _ _ _ _ A); lia).
    destruct (file_get_step pl cap q wr l p (res f) b n C A B Hn Hm) as (r' & E & A'). rewrite E. cbn [bind].
    destruct (IH _ (File r' (path f) (mode f)) C Mr A' B G') as (f' & E'). rewrite E'. cbn [bind].
    exists f'. cbn [map snd file_gets]. destruct (file_get cap l p n) as [d p2]. reflexivity.
Qed.

Lemma file_first_read : forall pl cap q m others l f b n, 0 < cap -> mode_reads m = true ->
  keeps pl cap q m others Resting (Store l 0) f -> len l < 2 ^ 62 -> calm pl (os (inner (res f))) ->
  exists r, at_point pl cap q (mode_writes m) l (file_refill cap l 0) r /\
    read_buffered (file_ops pl) (res f) b n = read_buffered (file_ops pl) r b n.
Proof.
  intros pl cap q m others l f b n C Mr [[(c & a & O & A0 & I) K M At Fi Ot U] Md] L Cm.
  cbn [in_stage bytes at_] in *. destruct I as (-> & -> & I3 & I4 & I5 & I6). rewrite Mr in O.
  destruct (filled_point pl cap q (mode_writes m) l (res f) 0 O C K M Cm) as (r & F & A); try lia.
  { rewrite I3. pose proof (len_nonneg l). lia. }
  rewrite I3, Z.add_0_l in F, A. exists r. split; [exact A|]. unfold read_buffered. rewrite I4, F. cbn [bind].
  rewrite (pt_clean _ _ _ _ _ _ _ A). reflexivity.
Qed.

Lemma file_all_gets_run : forall pl cap q m others l f rs, 0 < cap -> mode_reads m = true ->
  keeps pl cap q m others Resting (Store l 0) f -> len l < 2 ^ 62 -> calm pl (os (inner (res f))) ->
  Forall (fun '(b, n) => 0 <= n <= len b /\ n <= chunk_max pl) rs ->
  exists f', run_file pl f (read_calls rs) = Ok (f', map Returned (got_each (file_all_gets cap l (map snd rs)) rs)).
Proof.
  intros pl cap q m others l f rs C Mr K L Cm G. destruct rs as [|[b n] rs].
  - exists f. reflexivity.
  - destruct (file_first_read pl cap q m others l f b n C Mr K L Cm) as (r & A & E).
    assert (Mf : mode f = m) by apply K.
    assert (Kc : capacity (buf (res f)) = cap) by apply K.
    destruct (file_gets_run pl cap q (mode_writes m) l ((b, n) :: rs) (file_refill cap l 0) (File r (path f) (mode f)) C) as (f' & X); try assumption.
    { cbn [mode]. now rewrite Mf. }
    exists f'. unfold file_all_gets. rewrite <- X.
    rewrite !run_file_read; cbn [mode res path]; try (now rewrite Mf); [|rewrite (pt_cap _ _ _ _ _ _ _ A); lia|lia].
    rewrite E. reflexivity.
Qed.

(** Where the container machine has an answer, the file machine has the same. *)
Lemma file_get_same : forall cap l p n d q, 0 < cap -> 0 <= dev p -> 0 <= win p -> get 1 cap l p n = Some (d, q) ->
  file_get cap l p n = (d, q) /\ 0 <= dev q /\ 0 <= win q.
Proof.
  intros cap l p n d q C D W H. unfold get, file_get, window_start in *. cbv zeta in *.
  rewrite !Z.mul_1_r, Z.add_simpl_r in H.
  destruct (n - (win p - used p) <=? 0) eqn:Q1.
  - injection H as <- <-. split; [reflexivity|]. split; assumption.
  - destruct (n - (win p - used p) <=? cap) eqn:Q2.
    + destruct (len l <? dev p + win p) eqn:Q3; [discriminate|].
      unfold refill, file_refill in *. cbn [dev win] in *. rewrite !Z.mul_1_r, !Z.add_simpl_r in H.
      rewrite len_take, len_drop by lia. rewrite Z.max_r by lia. injection H as <- <-. split; [reflexivity|]. cbn [dev win]. lia.
    + replace (dev p <? 0) with false in H by lia. injection H as <- <-. split; [reflexivity|]. cbn [dev win].
      pose proof (len_nonneg (take (n - (win p - used p)) (drop (dev p) l))). lia.
Qed.

Lemma file_gets_same : forall cap l ns p ds, 0 < cap -> 0 <= dev p -> 0 <= win p -> gets 1 cap l p ns = Some ds ->
  file_gets cap l p ns = ds.
Proof.
  intros cap l ns. induction ns as [|n ns IH]; intros p ds C D W H; cbn [gets file_gets] in *.
  - now injection H as <-.
  - destruct (get 1 cap l p n) as [[d q]|] eqn:E; [|discriminate].
    destruct (file_get_same _ _ _ _ _ _ C D W E) as (-> & D' & W').
    destruct (gets 1 cap l q ns) as [ds'|] eqn:E'; [|discriminate]. injection H as <-. f_equal. now apply IH.
Qed.

Lemma file_all_gets_same : forall cap l ns ds, 0 < cap -> all_gets 1 cap l ns = Some ds -> file_all_gets cap l ns = ds.
Proof.
  intros cap l ns ds C H. pose proof (len_nonneg l). unfold all_gets, file_all_gets, refill, file_refill in *.
  rewrite drop_0, len_take by lia. rewrite Z.mul_1_r, Z.add_simpl_r, Z.sub_0_r in H.
  apply file_gets_same; cbn [dev win]; try assumption; lia.
Qed.

(** A long read of the beginning of a file, and a short one after it. *)
Lemma file_long_then_short : forall cap l n m, 0 < cap -> 2 * cap < n -> n <= len l -> 0 <= m <= cap ->
  file_all_gets cap l [n; m] = [take cap l ++ take (n - cap) l; take m (drop n l)].
Proof.
  intros cap l n m C N L M. unfold file_all_gets, file_refill. rewrite drop_0, len_take by lia. rewrite Z.min_l by lia.
  cbn [file_gets]. unfold file_get at 1. cbn [win used dev]. cbv zeta.
  replace (n - (cap - 0) <=? 0) with false by lia. replace (n - (cap - 0) <=? cap) with false by lia.
  rewrite Z.sub_0_r, Z.min_r, !Z.add_0_l, !drop_0 by lia. rewrite (len_take (n - cap)) by lia. rewrite Z.min_l by lia.
  f_equal. unfold file_get. cbn [win used dev]. cbv zeta. rewrite !Z.sub_diag, Z.sub_0_r.
  destruct (m <=? 0) eqn:Q.
  - assert (m = 0) by lia. subst m. rewrite Z.min_id, !take_0. reflexivity.
  - replace (m <=? cap) with true by lia. rewrite Z.min_r, take_0 by lia. cbn [app]. unfold file_refill. cbn [dev win].
    replace (n - cap + cap) with n by lia. f_equal. rewrite len_take, len_drop by lia.
    destruct (Z.le_ge_cases m (len l - n)) as [X|X].
    + f_equal. lia.
    + rewrite !take_all by (rewrite len_drop by lia; lia). reflexivity.
Qed.
