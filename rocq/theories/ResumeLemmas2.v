From Coq Require Import NArith ZArith List Bool Lia.
From Coq Require Import ZifyBool ZifyNat ZifyN.
From Verif Require Import Base Integers ResourceSpec ResourceModel ResourceText FileSpec FileModel FileText.
From Verif Require Import ResourceLemmas ResourceLemmas2 FileLemmas FileLemmas2 FileLemmas3 FileLemmas4 FileLemmas5 FileLemmas6
  CrashSpec CrashModel CrashLemmas CrashLemmas2 CrashProps DiarySpec DiaryText DiaryLemmas ResumeSpec ResumeText ResumeLemmas.
Import ListNotations.
Open Scope Z_scope.

(** Two open files, each after its calls. *)
Definition core (pl : platform) (cap1 cap2 : Z) (q r : N) (m1 m2 : access_mode) (l1 l2 : list N) (d0 : N -> option (list N))
    (done1 done2 : list call) (p1 p2 : stage) (w : world) (f g : file) : Prop :=
  exists k1 k2 o1 o2,
    keeps pl cap1 q m1 o1 p1 (state_after l1 done1) (in_world w f) /\ pending q l1 done1 (res (in_world w f)) /\
    keeps pl cap2 r m2 o2 p2 (state_after l2 done2) (in_world w g) /\ pending r l2 done2 (res (in_world w g)) /\
    descriptor (inner (res f)) = Some k1 /\ descriptor (inner (res g)) = Some k2 /\ k1 <> k2 /\ q <> r /\ obliging w /\
    (p1 = InWrites -> mode_writes m1 = true) /\ (p2 = InWrites -> mode_writes m2 = true) /\
    (forall x, x <> q -> x <> r -> disk w x = d0 x).

Lemma core_swap : forall pl cap1 cap2 q r m1 m2 l1 l2 d0 done1 done2 p1 p2 w f g,
  core pl cap1 cap2 q r m1 m2 l1 l2 d0 done1 done2 p1 p2 w f g -> core pl cap2 cap1 r q m2 m1 l2 l1 d0 done2 done1 p2 p1 w g f.
Proof.
  intros pl cap1 cap2 q r m1 m2 l1 l2 d0 done1 done2 p1 p2 w f g (k1 & k2 & o1 & o2 & H). exists k2, k1, o2, o1.
  destruct H as (H1 & H2 & H3 & H4 & H5 & H6 & H7 & H8 & H9 & H10 & H11 & H12). repeat (split; [congruence || assumption|]). auto.
Qed.

(** One more call on the first file, and what a kill in it leaves. *)
Lemma core_call : forall pl cap1 cap2 q r m1 m2 l1 l2 d0 done1 done2 p1 p2 w f g c,
  core pl cap1 cap2 q r m1 m2 l1 l2 d0 done1 done2 p1 p2 w f g ->
  permits m1 c = true -> file_allowed (chunk_max pl) cap1 (state_after l1 done1) p1 c ->
  exists f1 t, call_file pl (in_world w f) c = Ok (f1, Returned (snd (file_call (state_after l1 done1) c))) /\
    watched_call pl (in_world w f) c = Ok (f1, Returned (snd (file_call (state_after l1 done1) c)), t) /\
    core pl cap1 cap2 q r m1 m2 l1 l2 d0 (done1 ++ [c]) done2 (next_stage cap1 p1 c) p2 (os (inner (res f1))) f1 g /\
    forall torn d, left_by_kill torn (disk w) t d ->
      remains cap1 l1 done1 [c] (d q) /\ remains cap2 l2 done2 [] (d r) /\ forall x, x <> q -> x <> r -> d x = d0 x.
Proof.
  intros pl cap1 cap2 q r m1 m2 l1 l2 d0 done1 done2 p1 p2 w f g c (k1 & k2 & o1 & o2 & K1 & Pe1 & K2 & Pe2 & D1 & D2 & Dk & QR & B & W1 & W2 & Ot) P A.
  destruct (kill_step pl cap1 q m1 o1 p1 (in_world w f) l1 done1 c K1 Pe1 B P A W1) as (f1 & a & t & Ew & E & -> & B1 & K1' & Pe1' & X).
  destruct (other_kept _ _ _ _ _ _ _ _ _ _ _ _ _ _ _ _ _ _ _ _ _ _ _ K1 K2 Pe2 D1 D2 Dk QR E) as (K2' & Pe2' & D1' & Ot').
  exists f1, t. split; [exact E|]. split; [exact Ew|]. split.
  - exists k1, k2, o1. eexists. rewrite in_world_id. split; [exact K1'|]. split; [exact Pe1'|]. split; [exact K2'|]. split; [exact Pe2'|].
    repeat (split; [assumption|]). split; [apply writes_stage; assumption|]. split; [assumption|].
    intros x X1 X2. rewrite Ot' by exact X1. now apply Ot.
  - intros torn d LK. change (disk w) with (disk_of (in_world w f)) in LK.
    destruct (remains_here _ _ _ _ _ _ _ _ _ _ _ _ _ _ _ K1 Pe1 Ew X LK) as [R1 R2]. split; [exact R1|]. split.
    + eapply remains_untouched; [exact K2|exact Pe2|]. rewrite R2 by congruence. reflexivity.
    + intros x X1 X2. rewrite R2 by exact X1. now apply Ot.
Qed.

(** The first file is closed. *)
Lemma core_close : forall pl cap1 cap2 q r m1 m2 l1 l2 d0 done1 done2 p1 p2 w f g,
  core pl cap1 cap2 q r m1 m2 l1 l2 d0 done1 done2 p1 p2 w f g ->
  exists f1 t, file_close pl (in_world w f) = Ok f1 /\ watched_close pl (in_world w f) = Ok (f1, t) /\
    disk_of f1 q = Some (bytes (state_after l1 done1)) /\ obliging (os (inner (res f1))) /\
    (forall x, x <> q -> x <> r -> disk_of f1 x = d0 x) /\
    (exists o2, keeps pl cap2 r m2 o2 p2 (state_after l2 done2) (in_world (os (inner (res f1))) g)) /\
    forall torn d, left_by_kill torn (disk w) t d ->
      remains cap1 l1 done1 [Flush] (d q) /\ remains cap2 l2 done2 [] (d r) /\ forall x, x <> q -> x <> r -> d x = d0 x.
Proof.
  intros pl cap1 cap2 q r m1 m2 l1 l2 d0 done1 done2 p1 p2 w f g Co.
  destruct (core_call _ _ _ _ _ _ _ _ _ _ _ _ _ _ _ _ _ Flush Co) as (f3 & t & E3 & Ew & _ & LK); [reflexivity|exact I|].
  destruct Co as (k1 & k2 & o1 & o2 & K1 & Pe1 & K2 & Pe2 & D1 & D2 & Dk & QR & B & W1 & W2 & Ot).
  destruct (close_file pl cap1 q m1 o1 p1 _ _ K1 B W1) as (f1 & Y1 & _ & Y2 & Y3 & _ & Y4 & _).
  exists f1, t. split; [exact Y1|]. split.
  { pose proof (close_erased pl (in_world w f)) as Er. rewrite Y1 in Er. unfold watched_close in *. rewrite Ew in *. cbn [bind noexcept] in *.
    injection Er as Er. now rewrite Er. }
  split; [exact Y2|]. split; [exact Y4|]. split.
  { intros x X1 X2. rewrite Y3 by exact X1. rewrite <- Ot by assumption.
    symmetry. apply (ff_others _ _ _ _ _ _ _ _ _ (proj1 K1) x X1). }
  split; [|exact LK].
  assert (T : table (os (inner (res f1))) k2 = table w k2).
  { unfold file_close in Y1. destruct (file_flush pl (in_world w f)) as [f4| | | |] eqn:FF; cbn [bind noexcept] in Y1; try discriminate.
    destruct (file_flush_tame _ _ _ FF) as ([T1 (_ & _ & _ & T2 & _)] & _). injection Y1 as <-.
    cbn [with_sys res inner os]. cbn [in_world with_sys res inner os descriptor] in T1, T2. rewrite T1, D1. cbn [sys_close set_handle table].
    rewrite set_other by congruence. apply T2. congruence. }
  assert (D3 : disk (os (inner (res f1))) r = disk w r).
  { change (disk_of f1 r = disk w r). rewrite Y3 by congruence. symmetry. apply (ff_others _ _ _ _ _ _ _ _ _ (proj1 K1)). congruence. }
  eexists. rewrite <- (in_world_twice w). eapply keeps_in_world; [exact K2|exact D2|exact T|exact D3].
Qed.

(** Files that are only read. *)
Definition only_reads (c : call) : Prop := match c with Read _ _ | SetPosition _ _ | Flush => True | _ => False end.

Lemma reads_bytes : forall cs s, Forall only_reads cs -> bytes (fst (file_calls s cs)) = bytes s.
Proof.
  induction cs as [|c cs IH]; intros s H; [reflexivity|]. inversion H as [|? ? Hc Hcs]; subst. cbn [file_calls].
  destruct (file_call s c) as [s1 a] eqn:E. specialize (IH s1 Hcs). destruct (file_calls s1 cs) as [s2 b]. cbn [fst] in *. rewrite IH.
  destruct c; try contradiction; cbn [file_call] in E; injection E as <- _; reflexivity.
Qed.

Lemma begins_reads : forall X cs, begins X cs -> Forall only_reads cs -> Forall only_reads X.
Proof.
  intros X cs B. induction B as [cs|d e cs|c part cs B IH]; intro H; [constructor| |].
  - inversion H; contradiction.
  - inversion H; subst. constructor; auto.
Qed.

Lemma remains_read : forall cap l cs now x, remains cap l cs now x -> Forall only_reads cs -> Forall only_reads now -> x = Some l.
Proof.
  intros cap l cs now x (kept & lost & part & (M1 & M2 & M3) & B & ->) H1 H2. f_equal. unfold file_bytes. rewrite reads_bytes; [reflexivity|].
  subst cs. apply Forall_app in H1 as [H3 H4]. apply Forall_app. split; [exact H3|]. eapply begins_reads; [exact B|]. now apply Forall_app.
Qed.

(** The target is an initial part of the source. *)
Lemma remains_logged : forall cap l cs done now x, remains cap l done now x -> done ++ now = appends cs -> Forall logs cs ->
  exists r e, x = Some (l ++ r) /\ written cs = r ++ e.
Proof.
  intros cap l cs done now x (kept & lost & part & (M1 & M2 & M3) & B & ->) E H.
  assert (BX : begins (kept ++ part) (appends cs)).
  { rewrite <- E, M1, <- app_assoc. now apply begins_kept. }
  destruct (begins_appends _ _ l BX H) as [G1 [e G2]]. exists (written (kept ++ part)), e. split; [now rewrite G1|exact G2].
Qed.

Lemma appends_state : forall cs l, Forall logs cs -> state_after l (appends cs) = Store (l ++ written cs) (len (l ++ written cs)).
Proof.
  intros cs l H. unfold state_after, appends. cbn [file_calls file_call bytes file_target]. rewrite Z.add_0_r.
  pose proof (log_effect cs l H) as E. destruct (file_calls (Store l (len l)) cs) as [s a]. exact E.
Qed.

Lemma begun_more : forall l l2 wr r e p, l2 ++ wr = take p l -> 0 <= p <= len l -> wr = r ++ e ->
  exists k, len l2 <= k <= len l /\ l2 ++ r = take k l.
Proof.
  intros l l2 wr r e p E P ->. rewrite app_assoc in E.
  assert (L : len ((l2 ++ r) ++ e) = p) by (rewrite E, len_take by lia; lia).
  destruct (prefix_take _ _ _ (eq_sym E)) as [T _]. pose proof (len_nonneg r). pose proof (len_nonneg e). pose proof (len_nonneg l2).
  rewrite take_take in T by (try apply len_nonneg; lia). rewrite !len_app in *. exists (len l2 + len r). split; [lia|].
  rewrite T at 1. f_equal. lia.
Qed.

(** Both files are open. *)
Lemma both_open : forall pl w q r l1 l2 m1 m2 how1 how2 cap1 cap2, q <> r ->
  disk w q = Some l1 \/ disk w q = None /\ how1 = Create /\ l1 = [] -> len l1 < 2 ^ 63 ->
  disk w r = Some l2 \/ disk w r = None /\ how2 = Create /\ l2 = [] -> len l2 < 2 ^ 63 ->
  obliging w -> Z.of_nat cap1 <= chunk_max pl -> Z.of_nat cap2 <= chunk_max pl ->
  exists f g, new_file pl w q m1 how1 cap1 = Ok f /\ new_file pl (os (inner (res f))) r m2 how2 cap2 = Ok g /\
    core pl (Z.of_nat cap1) (Z.of_nat cap2) q r m1 m2 l1 l2 (disk w) [] [] Resting Resting (os (inner (res g))) f g.
Proof.
  intros pl w q r l1 l2 m1 m2 how1 how2 cap1 cap2 QR D1 L1 D2 L2 B C1 C2.
  destruct (new_file_opens pl w q l1 m1 how1 cap1 D1 L1 B C1) as (f & E1 & _ & B1 & K1).
  destruct (new_file_frame _ _ _ _ _ _ _ E1) as [F1 F2].
  destruct (descriptor (inner (res f))) as [k1|] eqn:DF; [|pose proof (keeps_open _ _ _ _ _ _ _ _ K1) as X; unfold is_open in X; rewrite DF in X; discriminate].
  destruct F2 as (F2 & F3 & _ & _ & _ & _).
  destruct (new_file_opens pl (os (inner (res f))) r l2 m2 how2 cap2) as (g & E2 & _ & B2 & K2); try assumption.
  { rewrite F1 by congruence. assumption. }
  destruct (new_file_frame _ _ _ _ _ _ _ E2) as [G1 G2].
  destruct (descriptor (inner (res g))) as [k2|] eqn:DG; [|pose proof (keeps_open _ _ _ _ _ _ _ _ K2) as X; unfold is_open in X; rewrite DG in X; discriminate].
  destruct G2 as (G2 & _ & _ & G3 & _ & _).
  assert (KK : k1 <> k2) by lia. exists f, g. split; [exact E1|]. split; [exact E2|].
  assert (Cl : forall cap q m o s x l, keeps pl cap q m o Resting s x -> pending q l [] (res x)).
  { intros cap q' m o s x l [K _] D. rewrite (clean_unless_writing _ _ _ _ _ _ _ _ _ K) in D by discriminate. discriminate. }
  assert (K1' : keeps pl (Z.of_nat cap1) q m1 (disk (os (inner (res g)))) Resting (Store l1 0) (in_world (os (inner (res g))) f)).
  { eapply keeps_in_world; [exact K1|exact DF|now apply G3|now apply G1]. }
  exists k1, k2. do 2 eexists. rewrite in_world_id. split; [exact K1'|]. split; [eapply Cl; exact K1'|]. split; [exact K2|]. split; [eapply Cl; exact K2|].
  repeat (split; [assumption|]). split; [discriminate|]. split; [discriminate|].
  intros x X1 X2. rewrite G1, F1 by assumption. reflexivity.
Qed.
