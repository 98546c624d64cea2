From Coq Require Import NArith ZArith List Bool Lia.
From Coq Require Import ZifyBool ZifyNat ZifyN.
From Verif Require Import Base Integers ResourceSpec ResourceModel ResourceText FileSpec FileModel FileText.
From Verif Require Import ResourceLemmas ResourceLemmas2 FileLemmas FileLemmas2 FileLemmas3 FileLemmas4 FileLemmas5 FileLemmas6
  CrashSpec CrashModel CrashLemmas CrashLemmas2 CrashProps DiarySpec DiaryText DiaryLemmas ResumeSpec ResumeText ResumeLemmas ResumeLemmas2.
Import ListNotations.
Open Scope Z_scope.

Section Copying.
Variables (pl : platform) (q r : N) (cap1 cap2 : nat) (n : Z) (l : list N) (w0 : world) (k : Z).
Hypothesis (QR : q <> r).
Hypothesis (Hq : disk w0 q = Some l).
Hypothesis (Hl : len l < 2 ^ 63).
Hypothesis (Hk : 0 <= k <= len l).
Hypothesis (Hr : disk w0 r = Some (take k l) \/ disk w0 r = None /\ k = 0).
Hypothesis (Hb : obliging w0).
Hypothesis (C1 : Z.of_nat cap1 <= chunk_max pl).
Hypothesis (C2 : Z.of_nat cap2 <= chunk_max pl).
Hypothesis (Hn : 0 < n <= chunk_max pl).
Hypothesis (Hc : cap1 = 0%nat \/ n <= Z.of_nat cap1).

Definition copy_core := core pl (Z.of_nat cap1) (Z.of_nat cap2) q r ReadOnly WriteOnly l (take k l) (disk w0).

(** The target has the first p bytes, some of them in the buffer; the position of the source is a. *)
Definition here (w : world) (f g : file) (a : Z) (cs : list call) (p : Z) : Prop :=
  exists done1 p1 p2, copy_core done1 (appends cs) p1 p2 w f g /\ Forall only_reads done1 /\ at_ (state_after l done1) = a /\
    Forall logs cs /\ take k l ++ written cs = take p l /\ 0 <= p <= len l /\ p1 <> InWrites /\ p2 <> InReads.

(** Where the program stands. *)
Definition sound (w : world) (f g : file) (nx : next) : Prop :=
  match nx with
  | OnTarget (SetPosition i o) => i = 0 /\ o = End /\ copy_core [] [] Resting Resting w f g
  | OnSource (SetPosition i o) => i = k /\ o = Begin /\ here w f g 0 [] k
  | OnSource (Read b i) => b = zeros n /\ i = n /\ exists cs p, here w f g p cs p
  | OnTarget (Write d) => len d <= n /\ exists cs p, here w f g (p + len d) cs p /\ p + len d <= len l /\ d = take (len d) (drop p l)
  | CloseTarget => exists cs, here w f g (len l) cs (len l)
  | CloseSource => (exists o p1 done1, keeps pl (Z.of_nat cap1) q ReadOnly o p1 (state_after l done1) (in_world w f) /\ p1 <> InWrites /\ Forall only_reads done1) /\
      obliging w /\ disk w r = Some l /\ forall x, x <> q -> x <> r -> disk w x = disk w0 x
  | Over => disk w q = Some l /\ disk w r = Some l /\ forall x, x <> q -> x <> r -> disk w x = disk w0 x
  | _ => False
  end.

Lemma bytes_read : forall done, Forall only_reads done -> bytes (state_after l done) = l.
Proof. intros done H. unfold state_after. now rewrite reads_bytes. Qed.

Lemma len_take_k : len (take k l) = k.
Proof. rewrite len_take by lia. lia. Qed.

Lemma first_seek : forall w f g, copy_core [] [] Resting Resting w f g ->
  exists g1 a t, call_file pl (in_world w g) (SetPosition 0 End) = Ok (g1, a) /\ file_position pl g1 = Ok k /\
    watched_call pl (in_world w g) (SetPosition 0 End) = Ok (g1, a, t) /\ here (os (inner (res g1))) f g1 0 [] k /\
    forall torn d, left_by_kill torn (disk w) t d -> d q = Some l /\ (forall x, x <> q -> x <> r -> d x = disk w0 x) /\ d r = Some (take k l).
Proof.
  intros w f g Co. apply core_swap in Co.
  destruct (core_call _ _ _ _ _ _ _ _ _ _ _ _ _ _ _ _ _ (SetPosition 0 End) Co) as (g1 & t & E & Ew & Co' & LK); [reflexivity| |].
  { cbn [file_allowed file_target state_after file_calls fst bytes]. rewrite len_take_k. split; [lia|discriminate]. }
  cbn [app] in Co'. exists g1. do 2 eexists. split; [exact E|].
  assert (S0 : state_after (take k l) [SetPosition 0 End] = Store (take k l) k).
  { change [SetPosition 0 End] with (appends []). rewrite appends_state by constructor. cbn [written flat_map]. now rewrite app_nil_r, len_take_k. }
  split.
  { destruct Co' as (k1 & k2 & o1 & o2 & K1 & _). rewrite in_world_id in K1. rewrite (file_position_ok _ _ _ _ _ _ _ _ K1), S0. reflexivity. }
  split; [exact Ew|]. split.
  - eexists [], _, _. split; [apply core_swap; exact Co'|]. split; [constructor|]. split; [reflexivity|]. split; [constructor|].
    split; [apply app_nil_r|]. split; [exact Hk|]. split; [discriminate|]. unfold next_stage. destruct (Z.of_nat cap2 =? 0); discriminate.
  - intros torn d H. destruct (LK torn d H) as (R1 & R2 & R3). split; [eapply remains_read; [exact R2|constructor|constructor]|].
    split; [intros x X1 X2; now apply R3|]. eapply remains_read; [exact R1|constructor|repeat constructor].
Qed.

(** What a kill leaves in a state of the program in which the target has been written to. *)
Lemma kept_target : forall cs done now x p, remains (Z.of_nat cap2) (take k l) done now x -> done ++ now = appends cs -> Forall logs cs ->
  take k l ++ written cs = take p l -> 0 <= p <= len l -> exists k', k <= k' <= len l /\ x = Some (take k' l).
Proof.
  intros cs done now x p R E Lg W P. destruct (remains_logged _ _ _ _ _ _ R E Lg) as (y & e & -> & We).
  destruct (begun_more _ _ _ _ _ _ W P We) as (k' & K1 & K2). exists k'. rewrite len_take_k in K1. split; [exact K1|]. now rewrite K2.
Qed.

Definition harmless (d : N -> option (list N)) : Prop :=
  d q = Some l /\ (forall x, x <> q -> x <> r -> d x = disk w0 x) /\ exists k', k <= k' <= len l /\ d r = Some (take k' l).

Lemma source_call : forall w f g a cs p c, here w f g a cs p -> only_reads c -> permits ReadOnly c = true ->
  (forall s p1, bytes s = l -> at_ s = a -> p1 <> InWrites -> file_allowed (chunk_max pl) (Z.of_nat cap1) s p1 c) ->
  exists f1 t, call_file pl (in_world w f) c = Ok (f1, Returned (snd (file_call (Store l a) c))) /\
    watched_call pl (in_world w f) c = Ok (f1, Returned (snd (file_call (Store l a) c)), t) /\
    here (os (inner (res f1))) f1 g (at_ (fst (file_call (Store l a) c))) cs p /\
    forall torn d, left_by_kill torn (disk w) t d -> harmless d.
Proof.
  intros w f g a cs p c (done1 & p1 & p2 & Co & O & A & Lg & W & P & N1 & N2) Oc Pm Al.
  assert (S1 : state_after l done1 = Store l a).
  { pose proof (bytes_read done1 O). destruct (state_after l done1) as [b x]. cbn [bytes at_] in *. now subst. }
  destruct (core_call _ _ _ _ _ _ _ _ _ _ _ _ _ _ _ _ _ c Co Pm) as (f1 & t & E & Ew & Co' & LK).
  { rewrite S1. apply Al; auto. }
  rewrite S1 in *. exists f1, t. split; [exact E|]. split; [exact Ew|]. split.
  - eexists _, _, p2. split; [exact Co'|]. split; [apply Forall_app; split; [exact O|constructor; [exact Oc|constructor]]|].
    split; [now rewrite state_after_last, S1|]. split; [exact Lg|]. split; [exact W|]. split; [exact P|]. split; [|exact N2].
    unfold next_stage. destruct (Z.of_nat cap1 =? 0); [discriminate|]. destruct c; try contradiction; try discriminate. destruct p1; congruence.
  - intros torn d H. destruct (LK torn d H) as (R1 & R2 & R3). split; [eapply remains_read; [exact R1|exact O|constructor; [exact Oc|constructor]]|].
    split; [exact R3|]. eapply kept_target; [exact R2|apply app_nil_r|exact Lg|exact W|exact P].
Qed.

Lemma target_write : forall w f g cs p d, here w f g (p + len d) cs p -> len d <= n -> p + len d <= len l -> d = take (len d) (drop p l) ->
  exists g1 a t, call_file pl (in_world w g) (Write d) = Ok (g1, a) /\ watched_call pl (in_world w g) (Write d) = Ok (g1, a, t) /\
    here (os (inner (res g1))) f g1 (p + len d) (cs ++ [Write d]) (p + len d) /\
    forall torn e, left_by_kill torn (disk w) t e -> harmless e.
Proof.
  intros w f g cs p d (done1 & p1 & p2 & Co & O & A & Lg & W & P & N1 & N2) Ld Lp Dd. apply core_swap in Co.
  pose proof (len_nonneg d) as Pd.
  assert (W' : take k l ++ written (cs ++ [Write d]) = take (p + len d) l).
  { rewrite written_app, app_assoc, W. cbn [written flat_map]. rewrite app_nil_r, take_split by lia. now rewrite <- Dd. }
  assert (Lg' : Forall logs (cs ++ [Write d])) by (apply Forall_app; split; [exact Lg|repeat constructor]).
  destruct (core_call _ _ _ _ _ _ _ _ _ _ _ _ _ _ _ _ _ (Write d) Co) as (g1 & t & E & Ew & Co' & LK); [reflexivity| |].
  { cbn [file_allowed]. rewrite appends_state, W by exact Lg. cbn [at_]. rewrite len_take by lia. split; [exact N2|]. lia. }
  exists g1. do 2 eexists. split; [exact E|]. split; [exact Ew|]. split.
  - eexists done1, p1, _. split; [apply core_swap; exact Co'|]. split; [exact O|]. split; [exact A|]. split; [exact Lg'|].
    split; [exact W'|]. split; [lia|]. split; [exact N1|]. unfold next_stage. destruct (Z.of_nat cap2 =? 0); discriminate.
  - intros torn e H. destruct (LK torn e H) as (R1 & R2 & R3). split; [eapply remains_read; [exact R2|exact O|constructor]|].
    split; [intros x X1 X2; now apply R3|]. eapply kept_target; [exact R1|reflexivity|exact Lg'|exact W'|lia].
Qed.

Lemma target_close : forall w f g cs, here w f g (len l) cs (len l) ->
  exists g1 t, file_close pl (in_world w g) = Ok g1 /\ watched_close pl (in_world w g) = Ok (g1, t) /\
    sound (os (inner (res g1))) f g1 CloseSource /\ forall torn e, left_by_kill torn (disk w) t e -> harmless e.
Proof.
  intros w f g cs (done1 & p1 & p2 & Co & O & A & Lg & W & P & N1 & N2). apply core_swap in Co.
  destruct (core_close _ _ _ _ _ _ _ _ _ _ _ _ _ _ _ _ _ Co) as (g1 & t & E & Ew & D1 & B1 & Ot & (o2 & K2) & LK).
  exists g1, t. split; [exact E|]. split; [exact Ew|]. split.
  - cbn [sound]. split; [exists o2, p1, done1; auto|]. split; [exact B1|]. split; [|intros x X1 X2; now apply Ot].
    rewrite appends_state, W in D1 by exact Lg. cbn [bytes] in D1. now rewrite take_all in D1 by lia.
  - intros torn e H. destruct (LK torn e H) as (R1 & R2 & R3). split; [eapply remains_read; [exact R2|exact O|constructor]|].
    split; [intros x X1 X2; now apply R3|]. eapply kept_target with (cs := cs ++ [Flush]); [exact R1|reflexivity| | |exact P].
    + apply Forall_app. split; [exact Lg|repeat constructor].
    + rewrite written_app. cbn [written flat_map]. now rewrite app_nil_r.
Qed.

Lemma source_close : forall w f g, sound w f g CloseSource ->
  exists f1 t, file_close pl (in_world w f) = Ok f1 /\ watched_close pl (in_world w f) = Ok (f1, t) /\
    sound (os (inner (res f1))) f1 g Over /\ forall torn e, left_by_kill torn (disk w) t e -> harmless e.
Proof.
  intros w f g ((o & p1 & done1 & K & N1 & O) & B & Dr & Ot).
  assert (W : p1 = InWrites -> mode_writes ReadOnly = true) by congruence.
  assert (Pe : pending q l done1 (res (in_world w f))).
  { intro Y. destruct K as [K _]. rewrite (clean_unless_writing _ _ _ _ _ _ _ _ _ K N1) in Y. discriminate. }
  destruct (close_file _ _ _ _ _ _ _ _ K B W) as (f1 & E & _ & D1 & D2 & _).
  destruct (kill_step _ _ _ _ _ _ _ _ _ Flush K Pe B eq_refl I W) as (f3 & a & t & Ew & _ & _ & _ & _ & _ & X).
  assert (Oo : forall x, x <> q -> o x = disk w x) by (intros x Hx; symmetry; apply (ff_others _ _ _ _ _ _ _ _ _ (proj1 K) x Hx)).
  exists f1, t. split; [exact E|]. split.
  { pose proof (close_erased pl (in_world w f)) as Er. rewrite E in Er. unfold watched_close in *. rewrite Ew in *. cbn [bind noexcept] in *.
    injection Er as Er. now rewrite Er. }
  split.
  - cbn [sound]. split; [change (disk_of f1 q = Some l); rewrite D1; now rewrite bytes_read|]. split.
    + change (disk_of f1 r = Some l). rewrite D2, Oo by congruence. exact Dr.
    + intros x X1 X2. change (disk_of f1 x = disk w0 x). rewrite D2, Oo by assumption. now apply Ot.
  - intros torn e H. change (disk w) with (disk_of (in_world w f)) in H.
    destruct (remains_here _ _ _ _ _ _ _ _ _ _ _ _ _ _ _ K Pe Ew X H) as [R1 R2].
    split; [eapply remains_read; [exact R1|exact O|repeat constructor]|]. split; [intros x X1 X2; rewrite R2 by exact X1; now apply Ot|].
    exists (len l). split; [lia|]. rewrite R2, take_all by (congruence || lia). exact Dr.
Qed.

Lemma read_allowed : forall s p1 : _, bytes s = l -> 0 <= at_ s -> p1 <> InWrites -> file_allowed (chunk_max pl) (Z.of_nat cap1) s p1 (Read (zeros n) n).
Proof.
  intros s p1 _ _ H. cbn [file_allowed]. unfold zeros, len. rewrite repeat_length. split; [lia|]. split; [lia|]. split; [lia|exact H].
Qed.

(** What a read of a block gives. *)
Lemma block_read : forall w f g cs p, here w f g p cs p ->
  exists f1 d t, call_file pl (in_world w f) (Read (zeros n) n) = Ok (f1, Returned (Got (d ++ drop (len d) (zeros n)) (len d))) /\
    watched_call pl (in_world w f) (Read (zeros n) n) = Ok (f1, Returned (Got (d ++ drop (len d) (zeros n)) (len d)), t) /\
    here (os (inner (res f1))) f1 g (p + len d) cs p /\ len d <= n /\ p + len d <= len l /\ d = take (len d) (drop p l) /\
    (len d = 0 -> p = len l) /\ forall torn e, left_by_kill torn (disk w) t e -> harmless e.
Proof.
  intros w f g cs p H. assert (P : 0 <= p <= len l) by (destruct H as (? & ? & ? & H); tauto).
  destruct (source_call _ _ _ _ _ _ (Read (zeros n) n) H I eq_refl) as (f1 & t & E & Ew & H' & LK).
  { intros s p1 Y1 Y2 Y3. apply read_allowed; auto. lia. }
  cbn [file_call snd fst at_ bytes] in *. unfold next_bytes in *. cbn [at_ bytes] in *. set (d := take n (drop p l)) in *.
  assert (Ld : len d = Z.min n (len l - p)).
  { unfold d. rewrite len_take by lia. rewrite len_drop by lia. lia. }
  exists f1, d, t. split; [exact E|]. split; [exact Ew|]. split; [exact H'|]. split; [lia|]. split; [lia|]. split.
  - destruct (Z.le_gt_cases n (len l - p)); [rewrite Ld, Z.min_l by lia; reflexivity|].
    unfold d. rewrite !take_all by (try rewrite len_drop by lia; lia). reflexivity.
  - split; [lia|exact LK].
Qed.

(** The program is always sound, it can always take its next step, and a kill is harmless. *)
Lemma stands_sound : forall w f g nx, stands pl q r cap1 cap2 n w0 w f g nx -> sound w f g nx.
Proof.
  intros w f g nx H. induction H as [f g E1 E2|w f g g1 a i H IH E Ep|w f g f1 a i H IH E|w f g f1 d m H IH E M|w f g g1 d a H IH E|w f g f1 d H IH E|w f g g1 H IH E|w f g f1 H IH E].
  - destruct (both_open pl w0 q r l (take k l) ReadOnly WriteOnly Fail Create cap1 cap2 QR) as (f' & g' & F1 & F2 & Co); try assumption.
    { now left. }
    { destruct Hr as [Hr'|[Hr' ->]]; [now left|right; auto using take_0]. }
    { rewrite len_take_k. lia. }
    rewrite E1 in F1. injection F1 as <-. rewrite E2 in F2. injection F2 as <-. cbn [sound]. auto.
  - destruct IH as (_ & _ & Co). destruct (first_seek w f g Co) as (g1' & a' & t & F1 & F2 & _ & F3 & _).
    rewrite E in F1. injection F1 as <- _. rewrite Ep in F2. injection F2 as ->. cbn [sound]. auto.
  - destruct IH as (-> & _ & He). destruct (source_call _ _ _ _ _ _ (SetPosition k Begin) He I eq_refl) as (f1' & t & F1 & _ & F2 & _).
    { intros s p1 _ _ _. cbn [file_allowed file_target]. split; [lia|discriminate]. }
    rewrite E in F1. injection F1 as <- _. cbn [sound]. split; [reflexivity|]. split; [reflexivity|]. now exists [], k.
  - destruct IH as (_ & _ & cs & p & He). destruct (block_read _ _ _ _ _ He) as (f1' & d' & t & F1 & _ & F2 & F3 & F4 & F5 & _).
    rewrite E in F1. injection F1 as <- -> ->. rewrite take_app_exact. cbn [sound]. split; [exact F3|]. now exists cs, p.
  - destruct IH as (Ld & cs & p & He & Lp & Dd). destruct (target_write _ _ _ _ _ _ He Ld Lp Dd) as (g1' & a' & t & F1 & _ & F2 & _).
    rewrite E in F1. injection F1 as <- _. cbn [sound]. split; [reflexivity|]. split; [reflexivity|]. now exists (cs ++ [Write d]), (p + len d).
  - destruct IH as (_ & _ & cs & p & He). destruct (block_read _ _ _ _ _ He) as (f1' & d' & t & F1 & _ & F2 & F3 & F4 & F5 & F6 & _).
    rewrite E in F1. injection F1 as <- _ Z0. cbn [sound]. exists cs. rewrite <- Z0, Z.add_0_r in F2. rewrite (F6 (eq_sym Z0)) in F2. exact F2.
  - destruct IH as (cs & He). destruct (target_close _ _ _ _ He) as (g1' & t & F1 & _ & F2 & _).
    rewrite E in F1. injection F1 as <-. exact F2.
  - destruct (source_close _ _ _ IH) as (f1' & t & F1 & _ & F2 & _). rewrite E in F1. injection F1 as <-. exact F2.
Qed.

Lemma sound_kill : forall w f g nx, sound w f g nx ->
  exists t, tried pl w f g nx = Ok t /\ forall torn d, left_by_kill torn (disk w) t d -> harmless d.
Proof.
  intros w f g nx H. destruct nx as [c|c| | |].
  - destruct c as [b i|d| |i o|i|i]; cbn [sound] in H; try contradiction.
    + destruct H as (-> & -> & cs & p & He). destruct (block_read _ _ _ _ _ He) as (f1' & d' & t & _ & F1 & _ & _ & _ & _ & _ & F2).
      exists t. cbn [tried]. rewrite F1. cbn [bind]. auto.
    + destruct H as (-> & -> & He). destruct (source_call _ _ _ _ _ _ (SetPosition k Begin) He I eq_refl) as (f1' & t & _ & F1 & _ & F2).
      { intros s p1 _ _ _. cbn [file_allowed file_target]. split; [lia|discriminate]. }
      exists t. cbn [tried]. rewrite F1. cbn [bind]. auto.
  - destruct c as [b i|d| |i o|i|i]; cbn [sound] in H; try contradiction.
    + destruct H as (Ld & cs & p & He & Lp & Dd). destruct (target_write _ _ _ _ _ _ He Ld Lp Dd) as (g1' & a' & t & _ & F1 & _ & F2).
      exists t. cbn [tried]. rewrite F1. cbn [bind]. auto.
    + destruct H as (-> & -> & Co). destruct (first_seek w f g Co) as (g1' & a' & t & _ & _ & F1 & _ & F2).
      exists t. cbn [tried]. rewrite F1. cbn [bind]. split; [reflexivity|]. intros torn d X. destruct (F2 torn d X) as (Y1 & Y2 & Y3).
      split; [exact Y1|]. split; [exact Y2|]. exists k. split; [lia|exact Y3].
  - destruct H as (cs & He). destruct (target_close _ _ _ _ He) as (g1' & t & _ & F1 & _ & F2).
    exists t. cbn [tried]. rewrite F1. cbn [bind]. auto.
  - destruct (source_close _ _ _ H) as (f1' & t & _ & F1 & _ & F2). exists t. cbn [tried]. rewrite F1. cbn [bind]. auto.
  - exists []. split; [reflexivity|]. destruct H as (Y1 & Y2 & Y3). intros torn d X. destruct X as [|a [] |a []|a ? []].
    split; [exact Y1|]. split; [exact Y3|]. exists (len l). split; [lia|]. rewrite take_all by lia. exact Y2.
Qed.

(** The program comes to its end from everywhere. *)
Lemma loop_ends : forall m w f g cs p, len l - p <= Z.of_nat m -> here w f g p cs p -> stands pl q r cap1 cap2 n w0 w f g (OnSource (Read (zeros n) n)) ->
  exists w' f' g', stands pl q r cap1 cap2 n w0 w' f' g' Over.
Proof.
  induction m as [|m IH]; intros w f g cs p Hm He St;
    (destruct (block_read _ _ _ _ _ He) as (f1 & d & t & F1 & _ & F2 & F3 & F4 & F5 & F6 & _);
     pose proof (len_nonneg d);
     destruct (Z.eq_dec (len d) 0) as [Z0|NZ];
     [ rewrite Z0 in F1, F2; rewrite (F6 Z0), Z.add_0_r in F2;
       pose proof (AtEnd _ _ _ _ _ _ _ _ _ _ _ _ St F1) as St1;
       destruct (target_close _ _ _ _ F2) as (g1 & t1 & G1 & _ & G2 & _);
       pose proof (TargetClosed _ _ _ _ _ _ _ _ _ _ _ St1 G1) as St2;
       destruct (source_close _ _ _ G2) as (f2 & t2 & G3 & _);
       do 3 eexists; exact (BothClosed _ _ _ _ _ _ _ _ _ _ _ St2 G3)
     | pose proof (HasRead _ _ _ _ _ _ _ _ _ _ _ _ _ St F1 NZ) as St1; rewrite take_app_exact in St1;
       destruct (target_write _ _ _ _ _ _ F2 F3 F4 F5) as (g1 & a & t1 & G1 & _ & G2 & _);
       pose proof (HasWritten _ _ _ _ _ _ _ _ _ _ _ _ _ St1 G1) as St2 ]).
  - exfalso. lia.
  - eapply IH; [|exact G2|exact St2]. lia.
Qed.

Lemma program_ends : exists w f g, stands pl q r cap1 cap2 n w0 w f g Over.
Proof.
  destruct (both_open pl w0 q r l (take k l) ReadOnly WriteOnly Fail Create cap1 cap2 QR) as (f & g & F1 & F2 & Co); try assumption.
  { now left. }
  { destruct Hr as [Hr'|[Hr' ->]]; [now left|right; auto using take_0]. }
  { rewrite len_take_k. lia. }
  pose proof (Opened _ _ _ _ _ n _ _ _ F1 F2) as S1. destruct (first_seek _ _ _ Co) as (g1 & a & t & G1 & G2 & _ & He & _).
  pose proof (FoundEnd _ _ _ _ _ _ _ _ _ _ _ _ _ S1 G1 G2) as S2.
  destruct (source_call _ _ _ _ _ _ (SetPosition k Begin) He I eq_refl) as (f1 & t1 & H1 & _ & H2 & _).
  { intros s p1 _ _ _. cbn [file_allowed file_target]. split; [lia|discriminate]. }
  pose proof (AtPlace _ _ _ _ _ _ _ _ _ _ _ _ _ S2 H1) as S3.
  apply (loop_ends (Z.to_nat (len l)) _ _ _ [] k) in S3; [exact S3|lia|exact H2].
Qed.
End Copying.
