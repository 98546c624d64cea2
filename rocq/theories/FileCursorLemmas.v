(** Reads and seeks of files do what the machine of FileCursorSpec does. *)
From Coq Require Import NArith ZArith List Bool Lia.
From Coq Require Import ZifyBool ZifyNat ZifyN.
From Verif Require Import Base Integers ResourceSpec ResourceModel ResourceText FileSpec FileModel FileText.
From Verif Require Import ResourceLemmas ResourceLemmas2 FileLemmas FileLemmas2 FileLemmas3 CursorSpec FileCursorSpec.
Import ListNotations.
Open Scope Z_scope.

(** No short reads on Unix-like systems, and no failures. *)
Definition quiet (pl : platform) (w : world) : Prop := no_short_read_on_unix pl w /\ no_failure w.

(** A resource over a file that stands at a cursor. *)
Record at_place (pl : platform) (cap : Z) (q : N) (wr : bool) (l : list N) (c : cursor) (r : resource sys) : Prop := {
  ap_open : opened (inner r) q true wr l (place c);
  ap_last : filled_last (inner r) = step c;
  ap_cap : capacity (buf r) = cap;
  ap_most : cap <= chunk_max pl;
  ap_quiet : quiet pl (os (inner r));
  ap_stale : read_dirty (buf r) = stale c;
  ap_kept : write_dirty (buf r) = false;
  ap_spent : bpos (buf r) = spent c;
  ap_bound : 0 <= place c < 2 ^ 63;
  ap_from : step c <> 0 -> place c <= len l /\ 0 <= step c <= len l;
  ap_bare : cap = 0 -> stale c = true /\ step c = 0;
  ap_idle : stale c = true -> spent c = 0;
  ap_range : stale c = false -> 0 <= spent c /\ spent c + len (held c) = filled (buf r) /\ filled (buf r) <= cap;
  ap_mem : stale c = false -> take (len (held c)) (drop (spent c) (mem (buf r))) = held c }.

Lemma place_fill : forall pl cap q wr l c r, 0 < cap -> at_place pl cap q wr l c r -> len l < 2 ^ 62 ->
  let c' := file_refilled cap l c in
  exists r', fill (file_ops pl) r = Ok (r', len (held c')) /\ at_place pl cap q wr l c' r'.
Proof.
  intros pl cap q wr l c r C [O Ls K M [S F] St Kp U B Fr Ba Id R Me] L c'.
  assert (Fl : 0 <= step c /\ place c + step c < 2 ^ 63).
  { destruct (Z.eq_dec (step c) 0) as [e|e]; [lia|]. destruct (Fr e). lia. }
  destruct (fill_file pl r q wr l (place c) O) as (r1 & d & Fi & G1 & G2 & G3 & G4 & G5 & G6 & G7 & G8 & G9 & G10 & G11 & G12 & G13);
    try assumption; try lia.
  specialize (G13 F). rewrite K, Ls in *. set (s := place c + step c) in *.
  assert (Ec : c' = Cursor s (len d) d 0 false) by (unfold c', file_refilled; cbv zeta; fold s; now rewrite <- G13).
  rewrite Ec. cbn [held]. exists r1. split; [exact Fi|]. pose proof (len_nonneg d). pose proof (len_nonneg l).
  assert (Ld : len d = Z.min cap (Z.max 0 (len l - s))) by (rewrite G13, len_take, len_drop by lia; reflexivity).
  clear Ec c'.
  constructor; cbn [place step held spent stale]; try assumption; try lia; try congruence.
  - split; [|now apply G4]. destruct S as [S|S]; [now left|right; now apply G4].
  - intros _. now rewrite drop_0.
Qed.

Lemma place_direct : forall pl cap q wr l c r block off n, at_place pl cap q wr l c r -> len l < 2 ^ 62 ->
  0 <= n <= chunk_max pl -> 0 <= off -> off + n <= len block ->
  let d := fst (file_direct l c n) in
  exists s, file_read_raw pl (inner r) block off n LeanRetrieval = Ok (s, overwrite block off d, len d) /\
    len d <= n /\ at_place pl cap q wr l (snd (file_direct l c n)) (Resource s (buf r)).
Proof.
  intros pl cap q wr l c r block off n [O Ls K M [S F] St Kp U B Fr Ba Id R Me] L Hn Ho Hb d.
  destruct (raw_lean pl (inner r) q wr l (place c) block off n O) as (s' & d' & X & X1 & X2 & X3 & X4 & X5 & X6);
    try assumption; try lia.
  specialize (X6 F). unfold file_direct in *. cbv zeta in *. cbn [fst snd] in *. subst d'. fold d in X, X1. fold d.
  assert (Ld : len d <= n /\ (len d = 0 \/ len d <= len l - place c)) by (unfold d; rewrite len_take, len_drop by lia; lia).
  pose proof (len_nonneg d). clearbody d.
  exists s'. split; [exact X|]. split; [lia|].
  constructor; cbn [inner buf place step held spent stale]; try assumption; try lia; try congruence.
  split; [|now apply X4]. destruct S as [S|S]; [now left|right; now apply X4].
Qed.

Lemma place_hand : forall pl cap q wr l c r block off n, at_place pl cap q wr l c r -> stale c = false -> 0 < cap ->
  0 <= n <= len (held c) -> 0 <= off -> off + n <= len block ->
  buffer_read (buf r) block off n
  = Ok (Buffer (mem (buf r)) (filled (buf r)) (bpos (buf r) + n) (read_dirty (buf r)) (write_dirty (buf r)),
        overwrite block off (take n (held c)), n) /\
  at_place pl cap q wr l (snd (hand_out c n))
    (Resource (inner r) (Buffer (mem (buf r)) (filled (buf r)) (bpos (buf r) + n) (read_dirty (buf r)) (write_dirty (buf r)))).
Proof.
  intros pl cap q wr l c r block off n [O Ls K Mo Qu St Kp U B Fr Ba Id R M] Sc C Hn Ho Hb.
  destruct (R Sc) as (R1 & R2 & R3). specialize (M Sc).
  assert (Tk : forall j, 0 <= j <= len (held c) -> take j (drop (spent c) (mem (buf r))) = take j (held c)).
  { intros j J. rewrite <- M. rewrite take_take by lia. rewrite Z.min_l by lia. reflexivity. }
  split.
  - rewrite buffer_read_ok by lia. rewrite U, Tk by lia. reflexivity.
  - unfold hand_out. cbn [snd].
    constructor; cbn [inner buf place step held spent stale bpos filled read_dirty write_dirty mem]; try assumption; try lia.
    + intros _. rewrite len_drop by lia. lia.
    + intros _. rewrite len_drop by lia. rewrite Z.max_r by lia. rewrite <- drop_drop by lia.
      rewrite <- take_drop_comm by lia. replace (n + (len (held c) - n)) with (len (held c)) by lia. now rewrite M.
Qed.

Lemma file_taken_step : forall pl cap q wr l c r block n, 0 <= cap -> at_place pl cap q wr l c r -> len l < 2 ^ 62 ->
  0 <= n <= len block -> n <= chunk_max pl ->
  let d := fst (file_taken cap l c n) in
  exists r', read (file_ops pl) r block n = Ok (r', d ++ drop (len d) block, len d) /\
    at_place pl cap q wr l (snd (file_taken cap l c n)) r'.
Proof.
  intros pl cap q wr l c r block n C A L Hn Hm. cbv zeta. unfold file_taken, read. rewrite (ap_cap _ _ _ _ _ _ _ A).
  destruct (cap =? 0) eqn:Z0.
  - replace (0 <? cap) with false by lia. unfold file_ops. cbn [raw_read].
    destruct (place_direct pl cap q wr l c r block 0 n A L ltac:(lia) ltac:(lia) ltac:(lia)) as (s & -> & _ & A').
    cbn [bind]. rewrite overwrite_start. eexists. split; [reflexivity|exact A'].
  - replace (0 <? cap) with true by lia. assert (Cp : 0 < cap) by lia. unfold read_buffered.
    rewrite (ap_stale _ _ _ _ _ _ _ A). set (c1 := if stale c then file_refilled cap l c else c).
    assert (First : exists r1, (if stale c then bind (fill (file_ops pl) r) (fun '(r, _) => Ok r) else Ok r) = Ok r1 /\
          at_place pl cap q wr l c1 r1 /\ stale c1 = false).
    { unfold c1. destruct (stale c) eqn:Sc.
      - destruct (place_fill pl cap q wr l c r Cp A L) as (r1 & -> & A1). exists r1. split; [reflexivity|]. split; [exact A1|reflexivity].
      - exists r. tauto. }
    destruct First as (r1 & -> & A1 & S1). cbn [bind]. clearbody c1. clear A r c. cbv zeta.
    destruct (ap_range _ _ _ _ _ _ _ A1 S1) as (R1 & R2 & R3). pose proof (len_nonneg (held c1)) as Hh.
    rewrite (ap_spent _ _ _ _ _ _ _ A1).
    destruct (n <=? len (held c1)) eqn:Q1.
    + replace (filled (buf r1) <? spent c1 + n) with false by lia.
      destruct (place_hand pl cap q wr l c1 r1 block 0 n A1 S1 Cp ltac:(lia) ltac:(lia) ltac:(lia)) as (Hb & A2).
      rewrite Hb. cbn [bind]. rewrite overwrite_start. unfold hand_out at 1 2 3. cbn [fst]. rewrite len_take by lia. rewrite Z.min_l by lia.
      eexists. split; [reflexivity|]. exact A2.
    + replace (filled (buf r1) <? spent c1 + n) with true by lia.
      rewrite as_size_pos by lia. replace (filled (buf r1) - spent c1) with (len (held c1)) by lia.
      set (t := len (held c1)) in *.
      destruct (place_hand pl cap q wr l c1 r1 block 0 t A1 S1 Cp ltac:(lia) ltac:(lia) ltac:(lia)) as (Hb & A2).
      set (c2 := snd (hand_out c1 t)) in *.
      set (r2 := Resource (inner r1) (Buffer (mem (buf r1)) (filled (buf r1)) (bpos (buf r1) + t) (read_dirty (buf r1)) (write_dirty (buf r1)))) in *.
      assert (Th : take t (held c1) = held c1) by (apply take_all; lia).
      assert (Fst : (if 0 <? t
        then bind (buffer_read (buf r1) block 0 t) (fun '(b, dst, k) => Ok (Resource (inner r1) b, dst, k, as_size (n - k)))
        else Ok (r1, block, 0, n)) = Ok (r2, held c1 ++ drop t block, t, n - t)).
      { destruct (0 <? t) eqn:Fp.
        - rewrite Hb. cbn [bind]. rewrite as_size_pos by lia. rewrite overwrite_start, Th. reflexivity.
        - assert (H0 : t = 0) by lia. assert (He : held c1 = []) by (apply len_zero; exact H0).
          rewrite He, H0, drop_0, Z.sub_0_r. cbn [app]. do 4 f_equal. unfold r2. rewrite H0, Z.add_0_r.
          destruct r1 as [i b]. cbn [inner buf]. destruct b. reflexivity. }
      rewrite Fst. cbn [bind]. clear Fst. rewrite (ap_cap _ _ _ _ _ _ _ A2).
      change (hand_out c1 t) with (take t (held c1), c2). rewrite Th. cbv iota beta.
      assert (Lr : len (held c1 ++ drop t block) = len block) by (rewrite len_app, len_drop by lia; lia).
      assert (Join : forall x k, len x = k -> 0 <= k -> t + k <= len block ->
        overwrite (held c1 ++ drop t block) t x = (held c1 ++ x) ++ drop (len (held c1 ++ x)) block /\
        t + k = len (held c1 ++ x)).
      { intros x k Lx Kp Kb. rewrite len_app. fold t. split; [|lia].
        unfold overwrite. rewrite take_app_l by lia. rewrite Th, <- app_assoc. f_equal. f_equal.
        rewrite drop_app_r by lia. rewrite drop_drop by lia. f_equal. lia. }
      destruct (n - t <=? cap) eqn:Q2.
      * replace (cap <? n - t) with false by lia.
        destruct (place_fill pl cap q wr l c2 r2 Cp A2 L) as (r3 & F3 & A3). rewrite F3. cbn [bind].
        set (c3 := file_refilled cap l c2) in *.
        assert (S3 : stale c3 = false) by reflexivity.
        assert (Hk : (if len (held c3) <? n - t then len (held c3) else n - t) = Z.min (n - t) (len (held c3)))
          by (destruct (len (held c3) <? n - t) eqn:X; lia).
        rewrite Hk. set (k := Z.min (n - t) (len (held c3))). pose proof (len_nonneg (held c3)).
        destruct (place_hand pl cap q wr l c3 r3 (held c1 ++ drop t block) t k A3 S3 Cp ltac:(lia) ltac:(lia) ltac:(lia)) as (Hb3 & A4).
        rewrite Hb3. cbn [bind]. change (hand_out c3 k) with (take k (held c3), snd (hand_out c3 k)). cbn [fst snd].
        destruct (Join (take k (held c3)) k) as (J1 & J2); [rewrite len_take by lia; lia|lia|lia|].
        rewrite J1, J2. eexists. split; [reflexivity|]. exact A4.
      * replace (cap <? n - t) with true by lia. unfold file_ops. cbn [raw_read].
        destruct (place_direct pl cap q wr l c2 r2 (held c1 ++ drop t block) t (n - t) A2 L ltac:(lia) ltac:(lia) ltac:(lia)) as (s & X & Ld & A3).
        rewrite X. destruct (file_direct l c2 (n - t)) as [d c3]. cbn [fst snd] in *. cbn [bind]. pose proof (len_nonneg d).
        destruct (Join d (len d) eq_refl) as (J1 & J2); [lia|lia|]. rewrite J1, J2. eexists. split; [reflexivity|]. exact A3.
Qed.

Definition clamps (pl : platform) : bool := match pl with UnixLike => true | Windows => false end.

Lemma place_seek : forall pl cap q wr l c r n o, at_place pl cap q wr l c r -> len l < 2 ^ 62 ->
  let s := seek_raw pl (inner r) n (reference o) in
  opened s q true wr l (file_sought (clamps pl) l c n o) /\ filled_last s = 0 /\ script (os s) = script (os (inner r)) /\
  0 <= file_sought (clamps pl) l c n o < 2 ^ 63.
Proof.
  intros pl cap q wr l c r n o A L. assert (CO := content_of_opened _ _ _ _ _ _ (ap_open _ _ _ _ _ _ _ A)).
  destruct A as [[(k & h & Lk & H1 & H2 & H3 & H4) D] Ls K Mo Qu St Kp U B Fr Ba Id R M]. cbv zeta.
  set (t := match o with Begin => if clamps pl then Z.max 0 n else n | Current => place c + n | End => len l + n end).
  assert (E : seek_raw pl (inner r) n (reference o)
    = Sys (if (0 <=? t) && (t <? 2 ^ 63) then set_handle (os (inner r)) k (Some (move_to h t)) else os (inner r)) (descriptor (inner r)) 0).
  { unfold seek_raw, sys_seek. rewrite Lk, H1, CO, H4. change size_of with len.
    destruct o, pl; cbn [reference clamps] in *; fold t; destruct ((0 <=? t) && (t <? 2 ^ 63)); reflexivity. }
  rewrite E. unfold file_sought. fold t. cbn [os descriptor filled_last].
  destruct ((0 <=? t) && (t <? 2 ^ 63)) eqn:Q.
  - split; [|repeat split; lia]. constructor; cbn [os descriptor]; [|exact D].
    exists k, (move_to h t). split; [now apply lookup_set with h|]. cbn [move_to file_name readable writable offset]. tauto.
  - split; [|repeat split; lia]. constructor; cbn [os descriptor]; [|exact D]. exists k, h. tauto.
Qed.

Lemma quiet_script : forall pl w w', script w' = script w -> quiet pl w -> quiet pl w'.
Proof. intros pl w w' E [H1 H2]. split; unfold no_short_read_on_unix, no_failure in *; now rewrite E. Qed.

Lemma file_turn_step : forall pl cap q wr l c f x, 0 <= cap -> mode_reads (mode f) = true ->
  at_place pl cap q wr l c (res f) -> len l < 2 ^ 62 -> writes_nothing x = true ->
  (forall b n, x = Read b n -> 0 <= n <= len b /\ n <= chunk_max pl) ->
  exists f', call_file pl f x = Ok (f', Returned (snd (file_turn (clamps pl) cap l c x))) /\ path f' = path f /\ mode f' = mode f /\
    at_place pl cap q wr l (fst (file_turn (clamps pl) cap l c x)) (res f').
Proof.
  intros pl cap q wr l c f x C Mr A L W G. destruct x as [b n|d| |n o|n|n]; try discriminate W; cbn [file_turn call_file].
  - destruct (G b n eq_refl) as (G1 & G2).
    destruct (file_taken_step pl cap q wr l c (res f) b n C A L G1 G2) as (r' & E & A').
    unfold file_read. rewrite E. destruct (file_taken cap l c n) as [d c']. cbn [fst snd bind] in *.
    destruct (mode f) eqn:Md; try discriminate Mr; eexists; (split; [reflexivity|]); cbn [path mode res]; (split; [reflexivity|]); (split; [reflexivity|exact A']).
  - unfold file_flush, flush. rewrite (ap_kept _ _ _ _ _ _ _ A). cbn [bind fst snd]. destruct f as [rs pa md]. cbn [res path mode] in *.
    eexists. split; [reflexivity|]. split; [reflexivity|]. split; [reflexivity|exact A].
  - unfold file_seek, flush. rewrite (ap_kept _ _ _ _ _ _ _ A). cbn [bind noexcept fst snd].
    eexists. split; [reflexivity|]. cbn [path mode res]. split; [reflexivity|]. split; [reflexivity|].
    destruct (place_seek pl cap q wr l c (res f) n o A L) as (O' & F' & S' & B').
    destruct A as [O Ls K Mo Qu St Kp U B Fr Ba Id R M].
    constructor; cbn [inner buf place step held spent stale set_read_dirty read_dirty write_dirty bpos filled mem];
      try reflexivity; try assumption; try lia; try discriminate. now apply (quiet_script _ _ _ S').
  - unfold file_go. cbn [fst snd]. eexists. split; [reflexivity|]. cbn [path mode res]. split; [reflexivity|]. split; [reflexivity|].
    destruct (place_seek pl cap q wr l c (res f) (- n) Current A L) as (O' & F' & S' & B'). cbn [reference] in *.
    destruct A as [O Ls K Mo Qu St Kp U B Fr Ba Id R M].
    constructor; cbn [inner buf place step held spent stale]; try assumption; try lia; try (now apply (quiet_script _ _ _ S')).
  - unfold file_go. cbn [fst snd]. eexists. split; [reflexivity|]. cbn [path mode res]. split; [reflexivity|]. split; [reflexivity|].
    destruct (place_seek pl cap q wr l c (res f) n Current A L) as (O' & F' & S' & B'). cbn [reference] in *.
    destruct A as [O Ls K Mo Qu St Kp U B Fr Ba Id R M].
    constructor; cbn [inner buf place step held spent stale]; try assumption; try lia; try (now apply (quiet_script _ _ _ S')).
Qed.

Lemma file_turns_run : forall pl cap q wr l xs c f, 0 <= cap -> mode_reads (mode f) = true ->
  at_place pl cap q wr l c (res f) -> len l < 2 ^ 62 -> forallb writes_nothing xs = true ->
  (forall b n, In (Read b n) xs -> 0 <= n <= len b /\ n <= chunk_max pl) ->
  exists f', run_file pl f xs = Ok (f', map Returned (snd (file_turns (clamps pl) cap l c xs))) /\ path f' = path f /\
    at_place pl cap q wr l (fst (file_turns (clamps pl) cap l c xs)) (res f').
Proof.
  intros pl cap q wr l xs. induction xs as [|x xs IH]; intros c f C Mr A L W G.
  - exists f. split; [reflexivity|]. split; [reflexivity|exact A].
  - cbn [forallb] in W. apply andb_prop in W. destruct W as (W1 & W2).
    destruct (file_turn_step pl cap q wr l c f x C Mr A L W1 (fun b n e => G b n (or_introl e))) as (f1 & E1 & P1 & M1 & A1).
    cbn [run_file file_turns]. rewrite E1. cbn [bind]. destruct (file_turn (clamps pl) cap l c x) as [c1 a]. cbn [fst snd] in *.
    destruct (IH c1 f1 C ltac:(congruence) A1 L W2 (fun b n e => G b n (or_intror e))) as (f2 & E2 & P2 & A2). rewrite E2. cbn [bind].
    destruct (file_turns (clamps pl) cap l c1 xs) as [c2 al]. cbn [fst snd map] in *. exists f2. split; [reflexivity|]. split; [congruence|exact A2].
Qed.

Lemma start_place : forall pl cap q m others l f, mode_reads m = true ->
  keeps pl cap q m others Resting (Store l 0) f -> quiet pl (os (inner (res f))) ->
  at_place pl cap q (mode_writes m) l start (res f).
Proof.
  intros pl cap q m others l f Mr [[(c & a & O & A0 & I) K M At Fi Ot U] Md] Cm.
  cbn [in_stage bytes at_] in *. destruct I as (-> & -> & I3 & I4 & I5 & I6). rewrite Mr in O.
  constructor; cbn [start place step held spent stale]; try assumption; try lia; try discriminate; try tauto.
Qed.
