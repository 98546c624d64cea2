(** Lemmas for C150 and C151. *)
From Coq Require Import NArith ZArith List Bool Lia.
From Coq Require Import ZifyBool ZifyNat ZifyN.
From Verif Require Import Base Integers ResourceSpec ResourceModel ResourceText FileSpec FileModel FileText.
From Verif Require Import ResourceLemmas ResourceLemmas2 FileLemmas FileLemmas2 FileLemmas3 FileLemmas4 FileLemmas5 FileLemmas6.
From Verif Require Import TextFileLemmas2 BackupText.
Import ListNotations.
Open Scope Z_scope.

(** Both files in the middle of copying: [a] bytes have been read and written. *)
Record copying (pl : platform) (cap1 cap2 : Z) (q r : N) (l l2 : list N) (w : world) (f g : file) (a : Z) : Prop := {
  cp_from : exists o p, keeps pl cap1 q ReadOnly o p (Store l a) (in_world w f) /\ p <> InWrites;
  cp_to : exists o p, keeps pl cap2 r WriteOnly o p (Store (put l2 0 (take a l)) a) (in_world w g) /\ p <> InReads;
  cp_apart : exists k1 k2, descriptor (inner (res f)) = Some k1 /\ descriptor (inner (res g)) = Some k2 /\ k1 <> k2;
  cp_names : q <> r;
  cp_path : path f = Some q;
  cp_range : 0 <= a <= len l }.

Lemma twice : forall w w' f, in_world w (in_world w' f) = in_world w f.
Proof. intros w w' [[[? ? ?] ?] ? ?]. reflexivity. Qed.

(** A call on one object does not disturb another one with another file. *)
Lemma beside : forall pl cap1 cap2 q r m1 m2 o1 o2 p1 p2 s1 s2 w f g k1 k2 c f1 a,
  keeps pl cap1 q m1 o1 p1 s1 (in_world w f) -> keeps pl cap2 r m2 o2 p2 s2 (in_world w g) ->
  descriptor (inner (res f)) = Some k1 -> descriptor (inner (res g)) = Some k2 -> k1 <> k2 -> q <> r ->
  call_file pl (in_world w f) c = Ok (f1, a) ->
  keeps pl cap2 r m2 (disk (os (inner (res f1)))) p2 s2 (in_world (os (inner (res f1))) g) /\
  descriptor (inner (res f1)) = Some k1 /\ path f1 = path f /\
  (forall x, x <> q -> disk (os (inner (res f1))) x = disk w x).
Proof.
  intros pl cap1 cap2 q r m1 m2 o1 o2 p1 p2 s1 s2 w f g k1 k2 c f1 a K1 K2 D1 D2 Dk QR E.
  destruct (call_file_tame _ _ _ _ _ E) as ([T1 (_ & _ & T2 & T3 & _)] & _ & T4).
  rewrite (keeps_name _ _ _ _ _ _ _ _ K1) in T2.
  cbn [in_world with_sys res inner os descriptor path] in T1, T2, T3, T4.
  split; [|split; [congruence|split; [exact T4|intros x X; apply T2; congruence]]].
  rewrite <- (twice _ w g). eapply keeps_in_world; [exact K2|exact D2| |]; cbn [in_world with_sys res inner os].
  - apply T3. congruence.
  - apply T2. congruence.
Qed.

Lemma len_zeros : forall n, len (repeat 0%N n) = Z.of_nat n.
Proof. intros. unfold len. now rewrite repeat_length. Qed.

(** What a read gives when nothing can go wrong but errors of the system. *)
Lemma copy_read : forall pl cap1 cap2 q r l l2 w f g a n, copying pl cap1 cap2 q r l l2 w f g a ->
  no_short_read_on_unix pl w -> Z.of_nat n <= chunk_max pl -> cap1 = 0 \/ Z.of_nat n <= cap1 ->
  exists f' d, file_read pl (in_world w f) (repeat 0%N n) (Z.of_nat n) = Ok (f', Returned (d ++ drop (len d) (repeat 0%N n), len d)) /\
    let w' := os (inner (res f')) in
    d = take (len d) (drop a l) /\ len d <= Z.of_nat n /\ len d <= len l - a /\
    (no_failure w -> d = take (Z.of_nat n) (drop a l)) /\
    (forall P : response -> Prop, Forall P (script w) -> Forall P (script w')) /\
    (forall x, disk w' x = disk w x) /\
    path f' = Some q /\
    (exists o p, keeps pl cap1 q ReadOnly o p (Store l (a + len d)) f' /\ p <> InWrites) /\
    (exists o p, keeps pl cap2 r WriteOnly o p (Store (put l2 0 (take a l)) a) (in_world w' g) /\ p <> InReads) /\
    (exists k1 k2, descriptor (inner (res f')) = Some k1 /\ descriptor (inner (res g)) = Some k2 /\ k1 <> k2).
Proof.
  intros pl cap1 cap2 q r l l2 w f g a n [(o1 & p1 & K1 & N1) (o2 & p2 & K2 & N2) (k1 & k2 & D1 & D2 & Dk) QR Pa Ra] NS M C.
  assert (K1' := K1). destruct K1' as [S Md].
  destruct (read_file_step pl cap1 q _ o1 p1 _ _ (repeat 0%N n) (Z.of_nat n) S NS) as (r' & d & E & E1 & E2 & E3 & S'); try assumption.
  { rewrite len_zeros. lia. }
  assert (F : file_read pl (in_world w f) (repeat 0%N n) (Z.of_nat n)
    = Ok (File r' (path f) ReadOnly, Returned (d ++ drop (len d) (repeat 0%N n), len d))).
  { unfold file_read. rewrite Md, E. cbn [bind]. rewrite <- Md. reflexivity. }
  assert (G : call_file pl (in_world w f) (Read (repeat 0%N n) (Z.of_nat n))
    = Ok (File r' (path f) ReadOnly, Returned (Got (d ++ drop (len d) (repeat 0%N n)) (len d)))).
  { cbn [call_file]. rewrite F. reflexivity. }
  destruct (beside _ _ _ _ _ _ _ _ _ _ _ _ _ _ _ _ _ _ _ _ _ K1 K2 D1 D2 Dk QR G) as (B1 & B2 & B3 & B4).
  eexists _, d. split; [exact F|]. cbn [res path bytes at_] in *. unfold next_bytes in E1, E2. cbn [bytes at_] in E1, E2.
  pose proof (len_nonneg d). pose proof (len_drop a l ltac:(lia)) as LD.
  assert (LE : len d <= Z.min (Z.of_nat n) (len l - a)).
  { rewrite E1. rewrite len_take, len_take by lia. lia. }
  assert (E1' : d = take (len d) (drop a l)).
  { unfold some_prefix in E1. rewrite take_take in E1 by lia. now rewrite Z.min_l in E1 by lia. }
  split; [exact E1'|]. split; [lia|]. split; [lia|]. split; [exact E2|].
  split; [exact E3|]. split.
  { intros x. destruct (N.eq_dec x q) as [-> |X]; [|now apply B4].
    destruct S' as [(c & b & [_ Dc] & _ & I) _ _ _ _ _ _].
    assert (c = l) by (destruct (cap1 =? 0); cbn [in_stage bytes] in I; tauto). subst c. rewrite Dc.
    destruct S as [(c & b2 & [_ Dc2] & _ & I2) _ _ _ _ _ _].
    assert (c = l) by (destruct p1; cbn [in_stage bytes] in I2; [tauto|tauto|congruence]). subst c. symmetry. exact Dc2. }
  split; [exact Pa|]. split.
  { exists o1, (if cap1 =? 0 then Resting else InReads). split; [|destruct (cap1 =? 0); discriminate].
    split; [exact S'|reflexivity]. }
  split; [eauto|eauto].
Qed.

(** What was read, as the next part of the source. *)
Lemma next_part : forall a d l, d = take (len d) (drop a l) -> 0 <= a <= len l -> take a l ++ d = take (a + len d) l.
Proof.
  intros a d l E R. pose proof (len_nonneg d). rewrite E at 1. 
  rewrite <- (take_drop a l) at 3 by lia. rewrite take_app by lia.
  assert (L : len (take a l) = a) by (rewrite len_take by lia; lia).
  rewrite L, (take_all (a + len d)) by lia. f_equal. f_equal. lia.
Qed.

Lemma obliging_lean : forall pl w, obliging w -> no_short_read_on_unix pl w.
Proof. intros pl w B. exact (proj1 (obliging_short pl w B)). Qed.

(** A write to an object with no buffer, whatever the system does. *)
Lemma write_plain : forall pl r m others s g d, keeps pl 0 r m others Resting s g -> mode_writes m = true ->
  len d <= chunk_max pl -> at_ s + len d < 2 ^ 63 ->
  exists g' k, file_write pl g d = Ok (g', Returned k) /\ 0 <= k <= len d /\ (obliging (os (inner (res g))) -> k = len d) /\
    (forall P : response -> Prop, Forall P (script (os (inner (res g)))) -> Forall P (script (os (inner (res g'))))) /\
    keeps pl 0 r m others Resting (Store (put (bytes s) (at_ s) (take k d)) (at_ s + k)) g'.
Proof.
  intros pl r m others s g d [[(c & a & O & A0 & I) Kc CM At Fi Ot U] M] Md Z1 SZ. destruct I as (-> & -> & I3 & I4 & I5 & I6).
  rewrite Md in O.
  destruct (raw_write_any pl (inner (res g)) r _ (bytes s) (at_ s) d O A0 Z1) as (s' & k & X & X1 & X2 & X3 & X4 & X5 & X6).
  assert (Lk : len (take k d) = k) by (rewrite len_take by lia; lia).
  exists (File (Resource s' (buf (res g))) (path g) (mode g)), k. split.
  { unfold file_write, write. rewrite M, Kc. cbn [Z.ltb Z.compare]. unfold file_ops. cbn [raw_write].
    destruct m; try discriminate; rewrite X; reflexivity. }
  split; [exact X1|]. split; [exact X2|]. split; [exact X6|]. split; [|exact M]. cbn [res]. rewrite Md.
  constructor; cbn [inner buf bytes at_]; try assumption; try lia; try tauto.
  - eexists _, _. split; [exact X3|]. split; [lia|]. cbn [in_stage bytes at_]. rewrite X4. tauto.
  - rewrite len_put by lia. destruct (len (take k d) =? 0); lia.
  - intros x Hx. rewrite X5; auto.
Qed.

Lemma resting_if_plain : forall pl r m others p s g, keeps pl 0 r m others p s g -> keeps pl 0 r m others Resting s g.
Proof. intros pl r m others p s g [K M]. assert (P := ff_unbuffered _ _ _ _ _ _ _ _ _ K eq_refl). subst p. now split. Qed.

Lemma copy_write : forall pl cap2 q r m s1 o1 p1 cap1 w f g l2 a x d o p k1 k2,
  keeps pl cap1 q m o1 p1 s1 (in_world w f) ->
  keeps pl cap2 r WriteOnly o p (Store (put l2 0 x) a) (in_world w g) -> p <> InReads -> a = len x ->
  descriptor (inner (res f)) = Some k1 -> descriptor (inner (res g)) = Some k2 -> k1 <> k2 -> q <> r ->
  obliging w \/ cap2 = 0 -> len d <= chunk_max pl -> a + len d < 2 ^ 63 ->
  exists g' k, file_write pl (in_world w g) d = Ok (g', Returned k) /\ 0 <= k <= len d /\ (obliging w -> k = len d) /\
    let w' := os (inner (res g')) in
    (obliging w -> obliging w') /\ (no_short_read_on_unix pl w -> obliging w \/ no_short_read_on_unix pl w') /\
    (forall y, y <> r -> disk w' y = disk w y) /\
    (exists o1, keeps pl cap1 q m o1 p1 s1 (in_world w' f)) /\
    (exists o p, keeps pl cap2 r WriteOnly o p (Store (put l2 0 (x ++ take k d)) (a + k)) g' /\ p <> InReads) /\
    descriptor (inner (res g')) = Some k2.
Proof.
  intros pl cap2 q r m s1 o1 p1 cap1 w f g l2 a x d o p k1 k2 K1 K2 NP Ax D1 D2 Dk QR H M L.
  pose proof (len_nonneg x). pose proof (len_nonneg d).
  assert (exists g' k, file_write pl (in_world w g) d = Ok (g', Returned k) /\ 0 <= k <= len d /\ (obliging w -> k = len d) /\
    (obliging w -> obliging (os (inner (res g')))) /\ (no_short_read_on_unix pl w -> obliging w \/ no_short_read_on_unix pl (os (inner (res g')))) /\
    (exists o p, keeps pl cap2 r WriteOnly o p (Store (put l2 0 (x ++ take k d)) (a + k)) g' /\ p <> InReads))
    as (g' & k & E & Rk & Kk & Ob & Ns & Kg).
  { destruct H as [B| ->].
    - assert (AL : file_allowed (chunk_max pl) cap2 (Store (put l2 0 x) a) p (Write d)) by (cbn [file_allowed at_]; auto).
      destruct (call_file_step pl cap2 r WriteOnly o p _ (in_world w g) (Write d) K2 B eq_refl AL) as (g' & E & _ & B' & K').
      { reflexivity. }
      cbn [call_file file_call snd fst bytes at_] in E, K'.
      destruct (file_write pl (in_world w g) d) as [[g1 [k|e]]| | | |] eqn:W; cbn [bind answered] in E; try discriminate.
      injection E as -> ->. exists g', (len d). split; [reflexivity|]. split; [lia|]. split; [auto|]. split; [auto|]. split; [auto|].
      rewrite Ax in K'. replace (len x) with (0 + len x) in K' at 1 by lia. rewrite put_app in K' by lia.
      rewrite take_all by lia. rewrite Ax. eexists _, _. split; [exact K'|]. unfold next_stage. destruct (cap2 =? 0); discriminate.
    - assert (K0 := resting_if_plain _ _ _ _ _ _ _ K2).
      destruct (write_plain pl r WriteOnly _ _ _ d K0 eq_refl M L) as (g' & k & E & Rk & Kk & SC & K').
      exists g', k. split; [exact E|]. split; [exact Rk|]. split; [exact Kk|]. split; [apply SC|].
      split; [intros [->|X]; right; [now left|right; now apply SC]|].
      cbn [bytes at_] in K'. rewrite Ax in K'. replace (len x) with (0 + len x) in K' at 1 by lia. rewrite put_app in K' by lia.
      rewrite Ax. eexists _, _. split; [exact K'|discriminate]. }
  assert (G : call_file pl (in_world w g) (Write d) = Ok (g', Returned (Wrote k))) by (cbn [call_file]; rewrite E; reflexivity).
  destruct (beside _ _ _ _ _ _ _ _ _ _ _ _ _ _ _ _ _ _ _ _ _ K2 K1 D2 D1 (not_eq_sym Dk) (not_eq_sym QR) G) as (B1 & B2 & _ & B4).
  exists g', k. split; [exact E|]. split; [exact Rk|]. split; [exact Kk|]. cbv zeta. split; [exact Ob|]. split; [exact Ns|].
  split; [exact B4|]. split; [eexists; exact B1|]. split; [exact Kg|exact B2].
Qed.

(** The loop. *)
Lemma copy_loop : forall pl cap1 cap2 q r l l2 n fuel w f g a, copying pl cap1 cap2 q r l l2 w f g a ->
  obliging w \/ cap2 = 0 -> no_short_read_on_unix pl w -> (0 < n)%nat -> Z.of_nat n <= chunk_max pl ->
  cap1 = 0 \/ Z.of_nat n <= cap1 -> len l < 2 ^ 63 -> len l - a < Z.of_nat fuel ->
  exists w' f' g' b a1 a2, copy_blocks pl fuel n w f g = Ok (w', f', g', b) /\ 0 <= a2 <= len l /\
    (b = true -> a2 = len l) /\ (obliging w -> b = true /\ obliging w') /\
    (forall y, y <> r -> disk w' y = disk w y) /\
    (exists o p, keeps pl cap1 q ReadOnly o p (Store l a1) (in_world w' f') /\ p <> InWrites) /\
    (exists o p, keeps pl cap2 r WriteOnly o p (Store (put l2 0 (take a2 l)) a2) (in_world w' g') /\ p <> InReads) /\
    (exists k1 k2, descriptor (inner (res f')) = Some k1 /\ descriptor (inner (res g')) = Some k2 /\ k1 <> k2).
Proof.
  intros pl cap1 cap2 q r l l2 n. induction fuel as [|fuel IH]; intros w f g a Cp H NS N0 M C L F.
  { destruct Cp as [_ _ _ _ _ Ra]. lia. }
  destruct (copy_read _ _ _ _ _ _ _ _ _ _ _ n Cp NS M C) as (f1 & d & E & E1 & E2 & E3 & E4 & E5 & E6 & E7 & (o1 & p1 & K1 & N1) & (o2 & p2 & K2 & N2) & k1 & k2 & D1 & D2 & Dk).
  destruct Cp as [_ _ _ QR _ Ra]. pose proof (len_nonneg d).
  cbn [copy_blocks]. rewrite E. cbn [bind]. set (w1 := os (inner (res f1))) in *.
  assert (B1 : obliging w -> obliging w1) by (intros B; apply E5; exact B).
  destruct (len d =? 0) eqn:Z0.
  - rewrite (file_at_end_ok _ _ _ _ _ _ _ _ K1 E7 N1). cbn [bind at_ bytes].
    exists w1, f1, g, (a + len d =? len l), (a + len d), a. split; [reflexivity|]. split; [lia|]. split; [lia|].
    split.
    { intros B. split; [|auto]. specialize (E4 (proj2 (obliging_short pl w B))).
      apply (f_equal len) in E4. rewrite len_take, len_drop in E4 by lia. lia. }
    split; [intros; apply E6|]. split; [exists o1, p1; unfold w1; rewrite in_world_id; auto|]. eauto 10.
  - assert (TK : firstn (Z.to_nat (len d)) (d ++ drop (len d) (repeat 0%N n)) = d) by exact (take_app_exact _ _).
    rewrite TK. clear TK.
    assert (K1' : keeps pl cap1 q ReadOnly o1 p1 (Store l (a + len d)) (in_world w1 f1)) by (unfold w1; now rewrite in_world_id).
    assert (Ax : a = len (take a l)) by (rewrite len_take by lia; lia).
    assert (H1 : obliging w1 \/ cap2 = 0) by tauto.
    destruct (copy_write pl cap2 q r _ _ _ _ _ w1 f1 g l2 a (take a l) d _ _ _ _ K1' K2 N2 Ax D1 D2 Dk QR H1 ltac:(lia) ltac:(lia))
      as (g1 & k & W & Rk & Kk & Ob & Ns & W1 & (o3 & K3) & (o4 & p4 & K4 & N4) & D3).
    rewrite W. cbn [bind]. set (w2 := os (inner (res g1))) in *.
    assert (K4' : keeps pl cap2 r WriteOnly o4 p4 (Store (put l2 0 (take a l ++ take k d)) (a + k)) (in_world w2 g1)) by (unfold w2; now rewrite in_world_id).
    destruct (k =? len d) eqn:Kd.
    + assert (k = len d) by lia. subst k. rewrite (take_all (len d) d), next_part in K4' by (auto; lia).
      assert (NS1 : no_short_read_on_unix pl w1) by (destruct NS as [-> |X]; [now left|right; now apply E5]).
      assert (NS2 : no_short_read_on_unix pl w2).
      { destruct (Ns NS1) as [X|X]; [|exact X]. apply obliging_lean. auto. }
      destruct (IH w2 f1 g1 (a + len d)) as (w' & f' & g' & b & a1 & a2 & R & X1 & X2 & X3 & X4 & X5 & X6 & X7); try assumption; try lia.
      { constructor; eauto 10; lia. }
      { tauto. }
      exists w', f', g', b, a1, a2. split; [exact R|]. split; [exact X1|]. split; [exact X2|].
      split; [intros B; apply X3; auto|]. split; [|auto]. intros y Y. rewrite X4, W1 by assumption. apply E6.
    + assert (P : take a l ++ take k d = take (a + k) l).
      { assert (Lk : len (take k d) = k) by (rewrite len_take by lia; lia).
        assert (Y : take k d = take (len (take k d)) (drop a l)) by (rewrite Lk, E1, take_take by lia; f_equal; lia).
        rewrite (next_part a (take k d) l Y Ra), Lk. reflexivity. }
      rewrite P in K4'. exists w2, f1, g1, false, (a + len d), (a + k). split; [reflexivity|]. split; [lia|].
      split; [discriminate|]. split; [intros B; specialize (Kk (B1 B)); lia|].
      split; [intros y Y; rewrite W1 by assumption; apply E6|]. split; [exists o3, p1; auto|]. split; [exists o4, p4; auto|]. exists k1, k2. auto.
Qed.
