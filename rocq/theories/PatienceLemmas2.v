(** Lemmas for C152: the loops end. *)
From Coq Require Import NArith ZArith List Bool Lia.
From Coq Require Import ZifyBool ZifyNat ZifyN.
From Verif Require Import Base Integers ResourceSpec ResourceModel ResourceText FileSpec FileModel FileText.
From Verif Require Import ResourceLemmas ResourceLemmas2 FileLemmas FileLemmas2 FileLemmas3 FileLemmas4 FileLemmas5 FileLemmas6.
From Verif Require Import TextFileText TextFileLemmas2 BackupText BackupLemmas BackupLemmas2 PatienceText PatienceLemmas.
Import ListNotations.
Open Scope Z_scope.

Lemma write_until_ok : forall pl cap1 q r m s1 p1 l2 k1 k2 fuel w f g x a d o1 o p,
  keeps pl cap1 q m o1 p1 s1 (in_world w f) ->
  keeps pl 0 r WriteOnly o p (Store (put l2 0 x) a) (in_world w g) -> p <> InReads -> a = len x ->
  descriptor (inner (res f)) = Some k1 -> descriptor (inner (res g)) = Some k2 -> k1 <> k2 -> q <> r ->
  no_short_read_on_unix pl w -> len d <= chunk_max pl -> a + len d < 2 ^ 63 -> (left_of w < fuel)%nat ->
  exists w' g' o1' o' p', write_until pl fuel w g d = Ok (w', g') /\ (left_of w' <= left_of w)%nat /\ no_short_read_on_unix pl w' /\
    (forall y, y <> r -> disk w' y = disk w y) /\
    keeps pl cap1 q m o1' p1 s1 (in_world w' f) /\
    keeps pl 0 r WriteOnly o' p' (Store (put l2 0 (x ++ d)) (a + len d)) (in_world w' g') /\ p' <> InReads /\
    descriptor (inner (res g')) = Some k2.
Proof.
  intros pl cap1 q r m s1 p1 l2 k1 k2. induction fuel as [|fuel IH]; intros w f g x a d o1 o p K1 K2 NP Ax D1 D2 Dk QR NS M L F; [lia|].
  destruct (copy_write pl 0 q r m s1 o1 p1 cap1 w f g l2 a x d o p k1 k2 K1 K2 NP Ax D1 D2 Dk QR (or_intror eq_refl) M L)
    as (g1 & k & W & Rk & Kk & Ob & Ns & W1 & (o3 & K3) & (o4 & p4 & K4 & N4) & D3).
  assert (NS1 : no_short_read_on_unix pl (os (inner (res g1)))).
  { destruct (Ns NS) as [X|X]; [|exact X]. apply obliging_lean. auto. }
  cbn [write_until]. rewrite W. cbn [bind]. change size_of with len. set (w1 := os (inner (res g1))) in *.
  assert (K4' : keeps pl 0 r WriteOnly o4 p4 (Store (put l2 0 (x ++ take k d)) (a + k)) (in_world w1 g1)) by (unfold w1; now rewrite in_world_id).
  destruct (k =? len d) eqn:Kd.
  - assert (k = len d) by lia. subst k. rewrite take_all in K4' by lia.
    exists w1, g1, o3, o4, p4. split; [reflexivity|]. apply write_left in W. cbn [in_world with_sys res inner os] in W. auto 10.
  - assert (SW := short_write pl r WriteOnly o _ _ d g1 k (resting_if_plain _ _ _ _ _ _ _ K2) eq_refl M W ltac:(lia)).
    cbn [in_world with_sys res inner os] in SW. fold w1 in SW. fold (drop k d).
    assert (Lk : len (take k d) = k) by (rewrite len_take by lia; lia).
    assert (Ld : len (drop k d) = len d - k) by (rewrite len_drop by lia; lia).
    assert (A1 : a + k = len (x ++ take k d)) by (rewrite len_app; lia).
    assert (M1 : len (drop k d) <= chunk_max pl) by lia.
    assert (L1 : a + k + len (drop k d) < 2 ^ 63) by lia.
    assert (F1 : (left_of w1 < fuel)%nat) by lia.
    destruct (IH w1 f g1 (x ++ take k d) (a + k) (drop k d) o3 o4 p4 K3 K4' N4 A1 D1 D3 Dk QR NS1 M1 L1 F1)
      as (w' & g' & o1' & o' & p' & R & X1 & X2 & X3 & X4 & X5 & X6 & X7).
    exists w', g', o1', o', p'. split; [exact R|]. split; [lia|]. split; [exact X2|].
    split; [intros y Y; rewrite X3 by assumption; now apply W1|]. split; [exact X4|].
    rewrite <- app_assoc, take_drop in X5. replace (a + k + len (drop k d)) with (a + len d) in X5 by lia. auto.
Qed.

Lemma copy_until_ok : forall pl cap1 q r l l2 n fuel w f g a, copying pl cap1 0 q r l l2 w f g a ->
  no_short_read_on_unix pl w -> (0 < n)%nat -> Z.of_nat n <= chunk_max pl ->
  cap1 = 0 \/ Z.of_nat n <= cap1 -> len l < 2 ^ 63 -> Z.of_nat (left_of w) + (len l - a) < Z.of_nat fuel ->
  exists w' f' g', copy_until pl fuel n w f g = Ok (w', f', g') /\
    (forall y, y <> r -> disk w' y = disk w y) /\ copying pl cap1 0 q r l l2 w' f' g' (len l).
Proof.
  intros pl cap1 q r l l2 n. induction fuel as [|fuel IH]; intros w f g a Cp NS N0 M C L F.
  { destruct Cp as [_ _ _ _ _ Ra]. lia. }
  destruct (copy_read _ _ _ _ _ _ _ _ _ _ _ n Cp NS M C) as (f1 & d & E & E1 & E2 & E3 & E4 & E5 & E6 & E7 & (o1 & p1 & K1 & N1) & (o2 & p2 & K2 & N2) & k1 & k2 & D1 & D2 & Dk).
  assert (Cp' := Cp). destruct Cp' as [(o0 & p0 & K0 & N0') _ _ QR Pa Ra]. pose proof (len_nonneg d).
  cbn [copy_until]. rewrite E. cbn [bind]. set (w1 := os (inner (res f1))) in *.
  assert (NS1 : no_short_read_on_unix pl w1) by (destruct NS as [-> |X]; [now left|right; now apply E5]).
  assert (RD : exists r', read (file_ops pl) (res (in_world w f)) (repeat 0%N n) (Z.of_nat n)
      = Ok (r', d ++ drop (len d) (repeat 0%N n), len d) /\ inner r' = inner (res f1)).
  { unfold file_read in E. destruct K0 as [_ Md]. rewrite Md in E.
    destruct (read (file_ops pl) (res (in_world w f)) (repeat 0%N n) (Z.of_nat n)) as [[[r1 b1] t1]| | | |]; cbn [bind] in E; try discriminate.
    injection E as <- -> ->. cbn [res]. eauto. }
  destruct RD as (r1 & RD & RI).
  assert (LW : (left_of w1 <= left_of w)%nat).
  { unfold w1. rewrite <- RI. apply read_left in RD. exact RD. }
  destruct (len d =? 0) eqn:Z0.
  - rewrite (file_at_end_ok _ _ _ _ _ _ _ _ K1 E7 N1). cbn [bind at_ bytes]. replace (a + len d) with a in * by lia.
    assert (Cp1 : copying pl cap1 0 q r l l2 w1 f1 g a).
    { constructor; eauto 10. exists o1, p1. unfold w1. rewrite in_world_id. auto. }
    destruct (a =? len l) eqn:AE.
    + replace (len l) with a by lia. exists w1, f1, g. split; [reflexivity|]. split; [intros; apply E6|exact Cp1].
    + assert (NE : script w <> []).
      { intro X. assert (NF : no_failure w) by (unfold no_failure; rewrite X; constructor). specialize (E4 NF).
        apply (f_equal len) in E4. rewrite len_take, len_drop in E4 by lia. lia. }
      assert (FW : fewer w w1).
      { assert (LZ : len d = 0) by lia. rewrite LZ in RD. unfold w1. rewrite <- RI. destruct K0 as [K0 _].
        refine (read_nothing _ _ _ _ _ _ _ _ _ _ _ _ K0 NS _ M C N0' RD). rewrite len_zeros. lia. }
      assert (1 <= left_of w)%nat by (unfold left_of; destruct (script w); [congruence|cbn [length]; lia]). unfold fewer in FW.
      destruct (IH w1 f1 g a Cp1 NS1 N0 M C L ltac:(lia)) as (w' & f' & g' & R & X1 & X2).
      exists w', f', g'. split; [exact R|]. split; [|exact X2]. intros y Y. rewrite X1 by assumption. apply E6.
  - assert (TK : firstn (Z.to_nat (len d)) (d ++ drop (len d) (repeat 0%N n)) = d) by exact (take_app_exact _ _).
    rewrite TK. clear TK.
    assert (K1' : keeps pl cap1 q ReadOnly o1 p1 (Store l (a + len d)) (in_world w1 f1)) by (unfold w1; now rewrite in_world_id).
    assert (Ax : a = len (take a l)) by (rewrite len_take by lia; lia).
    destruct (write_until_ok pl cap1 q r _ _ _ l2 k1 k2 fuel w1 f1 g (take a l) a d _ _ _ K1' K2 N2 Ax D1 D2 Dk QR NS1 ltac:(lia) ltac:(lia) ltac:(lia))
      as (w2 & g2 & o3 & o4 & p4 & W & X1 & X2 & X3 & X4 & X5 & X6 & X7).
    rewrite W. cbn [bind]. rewrite next_part in X5 by assumption.
    assert (Cp2 : copying pl cap1 0 q r l l2 w2 f1 g2 (a + len d)).
    { constructor; eauto 10; lia. }
    destruct (IH w2 f1 g2 (a + len d) Cp2 X2 N0 M C L ltac:(lia)) as (w' & f' & g' & R & Y1 & Y2).
    exists w', f', g'. split; [exact R|]. split; [|exact Y2]. intros y Y. rewrite Y1, X3 by assumption. apply E6.
Qed.

(** Opening. *)
Lemma refused_nothing : forall pl w q m how cap f, new_file pl w q m how cap = Ok f -> is_open f = false ->
  destroy pl f = Ok (os (inner (res f))).
Proof.
  intros pl w q m how cap f H O. unfold new_file, file_open in H. cbn [is_open res inner descriptor bind os buf path filled_last] in H.
  assert (X : forall w' , destroy pl (File (Resource (Sys w' None 0) (new_buffer cap)) (Some q) m) = Ok w') by (intros; reflexivity).
  assert (Y : forall w' fd, f = File (Resource (Sys w' fd 0) (new_buffer cap)) (Some q) m -> destroy pl f = Ok (os (inner (res f)))).
  { intros w' fd ->. unfold is_open in O. cbn [res inner descriptor] in O. destruct fd; [discriminate|]. apply X. }
  destruct how; [destruct (disk w q)|];
    try (destruct (sys_open w q _ (mode_reads m) (mode_writes m)) as [w' fd]; cbn [bind] in H; injection H as <-; eapply Y; reflexivity).
  cbn [bind] in H. injection H as <-. eapply Y; reflexivity.
Qed.

Lemma open_until_ok : forall pl q l m how cap fuel w, will_open w q how l -> len l < 2 ^ 63 -> Z.of_nat cap <= chunk_max pl ->
  no_short_read_on_unix pl w -> (left_of w < fuel)%nat ->
  exists f k, open_until pl fuel w q m how cap = Ok f /\ path f = Some q /\ descriptor (inner (res f)) = Some k /\
    (left_of (os (inner (res f))) <= left_of w)%nat /\ no_short_read_on_unix pl (os (inner (res f))) /\
    (unused w <= k)%N /\ (k < unused (os (inner (res f))))%N /\
    (forall x, x <> q -> disk (os (inner (res f))) x = disk w x) /\
    (forall x, x <> k -> table (os (inner (res f))) x = table w x) /\
    (exists o, keeps pl (Z.of_nat cap) q m o Resting (Store l 0) f).
Proof.
  intros pl q l m how cap. induction fuel as [|fuel IH]; intros w D L C NS F; [lia|].
  destruct (open_any pl w q l m how cap D L C) as (f & E & Sc & Pa & Ob & K).
  destruct (new_file_frame _ _ _ _ _ _ _ E) as [F1 F2].
  assert (NS1 : no_short_read_on_unix pl (os (inner (res f)))) by (destruct NS as [X|X]; [now left|right; rewrite Sc; now apply Forall_tl]).
  assert (LF := left_tl _ _ Sc). unfold fewer in LF.
  cbn [open_until]. rewrite E. cbn [bind]. destruct (is_open f) eqn:O.
  - specialize (K eq_refl). unfold is_open in O. destruct (descriptor (inner (res f))) as [k|] eqn:DF; [|discriminate].
    destruct F2 as (F2 & F3 & _ & F4 & _). exists f, k. split; [reflexivity|]. split; [exact Pa|]. split; [exact DF|]. split; [lia|].
    split; [exact NS1|]. split; [lia|]. split; [lia|]. split; [exact F1|]. split; [exact F4|eauto].
  - rewrite (refused_nothing _ _ _ _ _ _ _ E O). cbn [bind].
    assert (NB : script w <> []).
    { intro X. assert (B : obliging w) by (unfold obliging; rewrite X; constructor). specialize (Ob B). discriminate. }
    assert (1 <= left_of w)%nat by (unfold left_of; destruct (script w); [congruence|cbn [length]; lia]).
    assert (U : unused (os (inner (res f))) = unused w).
    { unfold new_file, file_open in E. cbn [is_open res inner descriptor bind os buf path filled_last] in E.
      unfold is_open in O. 
      assert (Y : forall c w' fd, sys_open w q c (mode_reads m) (mode_writes m) = (w', fd) -> fd = None -> unused w' = unused w).
      { intros c w' fd HS ->. unfold sys_open in HS. rewrite respond_eq in HS. destruct (response_now w), (disk _ q), c; try discriminate; injection HS as <-; reflexivity. }
      destruct how; [destruct (disk w q)|];
        try (match type of E with context [sys_open w q ?c ?a ?b] => destruct (sys_open w q c a b) as [w' fd] eqn:SO end; cbn [bind] in E; injection E as <-;
             cbn [res inner os descriptor] in *; eapply Y; [exact SO|]; destruct fd; [discriminate|reflexivity]).
      cbn [bind] in E. injection E as <-. reflexivity. }
    unfold is_open in O. destruct (descriptor (inner (res f))) eqn:DF; [discriminate|]. destruct F2 as [F2 F3].
    assert (D1 : will_open (os (inner (res f))) q how l) by (unfold will_open in *; now rewrite F2).
    destruct (IH _ D1 L C NS1 ltac:(lia)) as (f' & k & R & X1 & X2 & X3 & X4 & X5 & X6 & X7 & X8 & X9).
    exists f', k. split; [exact R|]. split; [exact X1|]. split; [exact X2|]. split; [lia|]. split; [exact X4|].
    split; [now rewrite <- U|]. split; [exact X6|]. split; [intros x X; rewrite X7 by assumption; now rewrite F2|].
    split; [intros x X; rewrite X8 by assumption; now rewrite F3|exact X9].
Qed.

Lemma patient_copy_ok : forall pl w q r l l2 n cap1 fuel,
  q <> r -> disk w q = Some l -> will_open w r Create l2 -> len l < 2 ^ 63 -> len l2 < 2 ^ 63 ->
  no_short_read_on_unix pl w -> (0 < n)%nat -> Z.of_nat n <= chunk_max pl ->
  cap1 = O \/ (n <= cap1)%nat -> Z.of_nat cap1 <= chunk_max pl -> Z.of_nat (left_of w) + len l < Z.of_nat fuel ->
  exists w', patient_copy pl fuel w q r n cap1 0 = Ok w' /\ disk w' r = Some (l ++ drop (len l) l2) /\
    (forall x, x <> r -> disk w' x = disk w x).
Proof.
  intros pl w q r l l2 n cap1 fuel QR D1 D2 L1 L2 NS N0 M C C1 Fu. pose proof (len_nonneg l).
  unfold patient_copy.
  destruct (open_until_ok pl q l ReadOnly Fail cap1 fuel w (or_introl D1) L1 C1 NS ltac:(lia))
    as (f & k1 & E1 & P1 & DF & LF & NS1 & _ & UF & F1 & _ & (o1 & K1)).
  rewrite E1. cbn [bind]. set (w1 := os (inner (res f))) in *.
  assert (D2' : will_open w1 r Create l2) by (unfold will_open in *; now rewrite F1 by congruence).
  assert (C2 : Z.of_nat 0 <= chunk_max pl) by (pose proof (chunk_max_pos pl); lia).
  destruct (open_until_ok pl r l2 WriteOnly Create 0 fuel w1 D2' L2 C2 NS1 ltac:(lia))
    as (g & k2 & E2 & P2 & DG & LG & NS2 & UG & _ & G1 & G3 & (o2 & K2)).
  rewrite E2. cbn [bind]. set (w2 := os (inner (res g))) in *.
  assert (Dk : k1 <> k2) by lia.
  assert (KF : keeps pl (Z.of_nat cap1) q ReadOnly (disk w2) Resting (Store l 0) (in_world w2 f)).
  { eapply keeps_in_world; [exact K1|exact DF|now apply G3|now apply G1]. }
  assert (Cp : copying pl (Z.of_nat cap1) 0 q r l l2 w2 f g 0).
  { constructor; try assumption; try lia.
    - exists (disk w2), Resting. split; [exact KF|discriminate].
    - exists o2, Resting. rewrite take_0, put_nil. unfold w2. rewrite in_world_id. split; [exact K2|discriminate].
    - exists k1, k2. auto. }
  destruct (copy_until_ok _ _ _ _ _ _ n fuel _ _ _ _ Cp NS2 N0 M ltac:(lia) L1 ltac:(lia)) as (w3 & f3 & g3 & R & X4 & Cp3).
  destruct Cp3 as [(o5 & p5 & K5 & N5) (o6 & p6 & K6 & N6) (k3 & k4 & D5 & D6 & Dk') _ _ _].
  rewrite R. cbn [bind].
  destruct (close_to _ _ _ _ _ _ _ K6 N6 (or_intror eq_refl)) as (g4 & Y1 & Y2).
  destruct (close_frame _ _ _ _ _ _ _ _ _ _ _ K6 D6 Y1) as [Y3 Y4].
  rewrite Y1. cbn [bind]. set (w4 := os (inner (res g4))) in *.
  assert (KF' : keeps pl (Z.of_nat cap1) q ReadOnly (disk w4) p5 (Store l (len l)) (in_world w4 f3)).
  { rewrite <- (twice _ w3 f3). eapply keeps_in_world; [exact K5|exact D5|now apply Y4|now apply Y3]. }
  destruct (close_reader _ _ _ _ _ _ _ _ KF' N5) as (f5 & Z1 & Z2 & Z3 & _).
  rewrite Z1. cbn [bind]. exists (os (inner (res f5))). split; [reflexivity|]. split.
  { change (disk_of f5 r = Some (l ++ drop (len l) l2)). rewrite Z3 by congruence. rewrite Y2. cbn [bytes].
    now rewrite take_all, put_front by lia. }
  intros x X. change (disk_of f5 x = disk w x). destruct (N.eq_dec x q) as [-> |Xq]; [now rewrite Z2|].
  rewrite Z3 by assumption. rewrite Y3, X4, G1, F1 by assumption. reflexivity.
Qed.
