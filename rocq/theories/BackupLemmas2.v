(** Lemmas for C150 and C151: opening and closing. *)
From Coq Require Import NArith ZArith List Bool Lia.
From Coq Require Import ZifyBool ZifyNat ZifyN.
From Verif Require Import Base Integers ResourceSpec ResourceModel ResourceText FileSpec FileModel FileText.
From Verif Require Import ResourceLemmas ResourceLemmas2 FileLemmas FileLemmas2 FileLemmas3 FileLemmas4 FileLemmas5 FileLemmas6.
From Verif Require Import TextFileText TextFileLemmas2 BackupText BackupLemmas.
Import ListNotations.
Open Scope Z_scope.

(** Opening, whatever the system does. *)
Lemma open_any : forall pl w q l m how cap, will_open w q how l -> len l < 2 ^ 63 -> Z.of_nat cap <= chunk_max pl ->
  exists f, new_file pl w q m how cap = Ok f /\ script (os (inner (res f))) = tl (script w) /\ path f = Some q /\
    (obliging w -> is_open f = true) /\
    (is_open f = true -> keeps pl (Z.of_nat cap) q m (disk w) Resting (Store l 0) f).
Proof.
  intros pl w q l m how cap D L C. destruct (response_now w) eqn:R.
  - unfold new_file, file_open, is_open. cbn [res inner descriptor bind os buf path mode filled_last].
    assert (E : forall create, sys_open w q create (mode_reads m) (mode_writes m) = (World (disk w) (table w) (unused w) (tl (script w)), None)).
    { intros create. unfold sys_open. rewrite respond_eq, R. reflexivity. }
    assert (NB : obliging w -> False).
    { intros B. assert (response_now w = InFull) by exact (hd_Forall (fun r => r = InFull) _ eq_refl B). congruence. }
    destruct D as [D|(D & -> & ->)]; destruct pl; try destruct how; try rewrite D; rewrite E; cbn [bind];
      (eexists; split; [reflexivity|]); cbn [res inner os script descriptor path];
      (split; [reflexivity|]); (split; [reflexivity|]); (split; [tauto|discriminate]).
  - destruct (open_idle pl (Z.of_nat cap) _ q l m how (idle_new w (Some q) m cap) D) as (f & E & Pa & K & SC); try assumption.
    { cbn [res inner os]. congruence. }
    exists f. unfold new_file. rewrite E. split; [reflexivity|]. split; [exact SC|]. split; [exact Pa|].
    split; [intros _; exact (keeps_open _ _ _ _ _ _ _ _ K)|intros _; exact K].
  - destruct (open_idle pl (Z.of_nat cap) _ q l m how (idle_new w (Some q) m cap) D) as (f & E & Pa & K & SC); try assumption.
    { cbn [res inner os]. congruence. }
    exists f. unfold new_file. rewrite E. split; [reflexivity|]. split; [exact SC|]. split; [exact Pa|].
    split; [intros _; exact (keeps_open _ _ _ _ _ _ _ _ K)|intros _; exact K].
Qed.

(** Closing one object does not disturb another one. *)
Lemma close_frame : forall pl cap q m o p s w g g' k, keeps pl cap q m o p s (in_world w g) -> descriptor (inner (res g)) = Some k ->
  file_close pl (in_world w g) = Ok g' ->
  (forall x, x <> q -> disk (os (inner (res g'))) x = disk w x) /\
  (forall x, x <> k -> table (os (inner (res g'))) x = table w x).
Proof.
  intros pl cap q m o p s w g g' k K D E. unfold file_close in E.
  destruct (file_flush pl (in_world w g)) as [g1| | | |] eqn:F; cbn [bind noexcept] in E; try discriminate. injection E as <-.
  destruct (file_flush_tame _ _ _ F) as ([T1 (_ & _ & T2 & T3 & _)] & _).
  rewrite (keeps_name _ _ _ _ _ _ _ _ K) in T2.
  cbn [in_world with_sys res inner os descriptor] in *. rewrite T1, D. cbn [sys_close set_handle disk table].
  split; intros x X; [apply T2; congruence|]. rewrite set_other by congruence. apply T3. congruence.
Qed.

(** The destination is right after it was closed if the system obliges or there is no buffer. *)
Lemma close_to : forall pl cap q o p s g, keeps pl cap q WriteOnly o p s g -> p <> InReads ->
  obliging (os (inner (res g))) \/ cap = 0 -> exists g', file_close pl g = Ok g' /\ disk (os (inner (res g'))) q = Some (bytes s).
Proof.
  intros pl cap q o p s g K N [B| ->].
  - destruct (close_file _ _ _ _ _ _ _ _ K B ltac:(reflexivity)) as (g' & E & _ & X & _). exists g'. now split.
  - destruct (close_resting _ _ _ _ _ _ _ (resting_if_plain _ _ _ _ _ _ _ K)) as (g' & E & X & _). exists g'. now split.
Qed.

Lemma put_front : forall l2 l, put l2 0 l = l ++ drop (len l) l2.
Proof.
  intros l2 [|x l]; [reflexivity|]. rewrite put_eq by discriminate. rewrite take_0. unfold zeros.
  pose proof (len_nonneg l2). replace (Z.to_nat (0 - len l2)) with O by lia. reflexivity.
Qed.

Lemma len_front : forall a l, 0 <= a <= len l -> len (take a l) = a.
Proof. intros. rewrite len_take by lia. lia. Qed.

(** The whole program. *)
Lemma copy_file_ok : forall pl w q r l l2 n cap1 cap2 fuel,
  q <> r -> disk w q = Some l -> will_open w r Create l2 -> len l < 2 ^ 63 -> len l2 < 2 ^ 63 ->
  obliging w \/ cap2 = O -> no_short_read_on_unix pl w -> (0 < n)%nat -> Z.of_nat n <= chunk_max pl ->
  cap1 = O \/ (n <= cap1)%nat -> Z.of_nat cap1 <= chunk_max pl -> Z.of_nat cap2 <= chunk_max pl -> len l < Z.of_nat fuel ->
  exists w' b, copy_file pl fuel w q r n cap1 cap2 = Ok (w', b) /\
    (b = true -> disk w' r = Some (l ++ drop (len l) l2)) /\ (obliging w -> b = true) /\
    (disk w' r = disk w r \/ exists k, 0 <= k <= len l /\ disk w' r = Some (take k l ++ drop k l2)) /\
    (forall x, x <> r -> disk w' x = disk w x).
Proof.
  intros pl w q r l l2 n cap1 cap2 fuel QR D1 D2 L1 L2 H NS N0 M C C1 C2 Fu.
  assert (SCR : forall a, no_short_read_on_unix pl w -> script a = tl (script w) -> no_short_read_on_unix pl a).
  { intros a [-> |X] E; [now left|right; rewrite E; now apply Forall_tl]. }
  assert (OB : forall a, obliging w -> script a = tl (script w) -> obliging a).
  { intros a X E. unfold obliging. rewrite E. now apply Forall_tl. }
  destruct (open_any pl w q l ReadOnly Fail cap1 (or_introl D1) L1 C1) as (f & E1 & S1 & P1 & O1 & K1).
  destruct (new_file_frame _ _ _ _ _ _ _ E1) as [F1 F2]. unfold copy_file. rewrite E1. cbn [bind].
  destruct (is_open f) eqn:IO.
  2:{ exists (os (inner (res f))), false. unfold is_open in IO. destruct (descriptor (inner (res f))); [discriminate|].
      destruct F2 as [F2 _]. split; [reflexivity|]. split; [discriminate|]. split; [intros B; now apply O1|].
      split; [left; now rewrite F2|]. intros x X. now rewrite F2. }
  specialize (K1 eq_refl). set (w1 := os (inner (res f))) in *.
  destruct (descriptor (inner (res f))) as [k1|] eqn:DF; [|unfold is_open in IO; rewrite DF in IO; discriminate].
  destruct F2 as (F2 & F3 & _ & _ & F4 & _). rewrite D1 in F4.
  assert (NS1 := SCR _ NS S1).
  assert (D2' : will_open w1 r Create l2) by (unfold will_open in *; now rewrite F1 by congruence).
  destruct (open_any pl w1 r l2 WriteOnly Create cap2 D2' L2 C2) as (g & E2 & S2 & P2 & O2 & K2).
  destruct (new_file_frame _ _ _ _ _ _ _ E2) as [G1 G2]. rewrite E2. cbn [bind]. set (w2 := os (inner (res g))) in *.
  assert (OB2 : obliging w -> obliging w2).
  { intros B. unfold obliging. rewrite S2. apply Forall_tl. now apply OB. }
  destruct (is_open g) eqn:IG.
  2:{ unfold is_open in IG. destruct (descriptor (inner (res g))); [discriminate|]. destruct G2 as [G2 G3].
      assert (KF : keeps pl (Z.of_nat cap1) q ReadOnly (disk w2) Resting (Store l 0) (in_world w2 f)).
      { eapply keeps_in_world; [exact K1|exact DF|now rewrite G3|now rewrite G2]. }
      destruct (close_reader _ _ _ _ _ _ _ _ KF ltac:(discriminate)) as (f' & X1 & X2 & X3 & _).
      rewrite X1. cbn [bind]. exists (os (inner (res f'))), false. split; [reflexivity|]. split; [discriminate|].
      split; [intros B; apply O2; now apply OB|].
      assert (Dx : forall x, disk (os (inner (res f'))) x = disk w x).
      { intros x. destruct (N.eq_dec x q) as [-> |X].
        - change (disk_of f' q = disk w q). rewrite X2. now rewrite D1.
        - change (disk_of f' x = disk w x). rewrite X3 by assumption. rewrite G2. now apply F1. }
      split; [left; apply Dx|intros x _; apply Dx]. }
  specialize (K2 eq_refl).
  destruct (descriptor (inner (res g))) as [k2|] eqn:DG; [|unfold is_open in IG; rewrite DG in IG; discriminate].
  destruct G2 as (G2 & _ & _ & G3 & G4 & _).
  assert (KF : keeps pl (Z.of_nat cap1) q ReadOnly (disk w2) Resting (Store l 0) (in_world w2 f)).
  { assert (k1 <> k2) by lia. eapply keeps_in_world; [exact K1|exact DF|now apply G3|now apply G1]. }
  assert (Cp : copying pl (Z.of_nat cap1) (Z.of_nat cap2) q r l l2 w2 f g 0).
  { pose proof (len_nonneg l). constructor; try assumption; try lia.
    - exists (disk w2), Resting. split; [exact KF|discriminate].
    - exists (disk w1), Resting. rewrite take_0, put_nil. unfold w2. rewrite in_world_id. split; [exact K2|discriminate].
    - exists k1, k2. repeat split; auto. lia. }
  assert (NS2 : no_short_read_on_unix pl w2).
  { destruct NS1 as [X|X]; [now left|right; rewrite S2; now apply Forall_tl]. }
  destruct (copy_loop _ _ _ _ _ _ _ n fuel _ _ _ _ Cp) as (w3 & f3 & g3 & b & a1 & a2 & R & X1 & X2 & X3 & X4 & (o5 & p5 & K5 & N5) & (o6 & p6 & K6 & N6) & k3 & k4 & D5 & D6 & Dk); try assumption; try lia.
  { destruct H as [B| ->]; [left; auto|now right]. }
  rewrite R. cbn [bind].
  destruct (close_to _ _ _ _ _ _ _ K6 N6) as (g4 & Y1 & Y2).
  { destruct H as [B| ->]; [left; cbn [in_world with_sys res inner os]; apply X3; auto|now right]. }
  destruct (close_frame _ _ _ _ _ _ _ _ _ _ _ K6 D6 Y1) as [Y3 Y4].
  rewrite Y1. cbn [bind]. set (w4 := os (inner (res g4))) in *.
  assert (KF' : keeps pl (Z.of_nat cap1) q ReadOnly (disk w4) p5 (Store l a1) (in_world w4 f3)).
  { rewrite <- (twice _ w3 f3). eapply keeps_in_world; [exact K5|exact D5|now apply Y4|now apply Y3]. }
  destruct (close_reader _ _ _ _ _ _ _ _ KF' N5) as (f5 & Z1 & Z2 & Z3 & _).
  rewrite Z1. cbn [bind]. exists (os (inner (res f5))), b. split; [reflexivity|].
  assert (Dr : disk (os (inner (res f5))) r = Some (take a2 l ++ drop a2 l2)).
  { change (disk_of f5 r = Some (take a2 l ++ drop a2 l2)). rewrite Z3 by congruence. rewrite Y2. cbn [bytes].
    now rewrite put_front, len_front by lia. }
  split; [intros Hb; rewrite Dr, (X2 Hb), take_all by lia; reflexivity|].
  split; [intros B; apply X3; auto|]. split; [right; exists a2; auto|].
  intros x X. change (disk_of f5 x = disk w x). destruct (N.eq_dec x q) as [-> |Xq]; [now rewrite Z2|].
  rewrite Z3 by assumption. rewrite Y3, X4, G1, F1 by assumption. reflexivity.
Qed.
