(** Proofs about threads. *)
From Coq Require Import NArith ZArith List Bool PeanoNat Lia ZifyBool ZifyNat ZifyN.
From Verif Require Import Base ResourceModel ResourceSpec TieSpec TieModel TieText TieLemmas ThreadSpec ThreadModel.
Import ListNotations.
Open Scope Z_scope.

Section Own.
Context (owner : place -> nat).

Definition tidy (s : ideal) : Prop := boxes_kept owner s /\ ties_kept owner s.

(** s and s' are the same as far as thread k is concerned. *)
Record agree (k : nat) (s s' : ideal) : Prop := Agree {
  ag_out : forall o, owner (AnOut o) = k -> writes_to s o = writes_to s' o;
  ag_box : forall c, owner (ABox c) = k -> text s c = text s' c;
  ag_in : forall i, owner (AnIn i) = k -> inputs s i = inputs s' i }.

Definition owned (k : nat) (d : deed) : Prop := forall x, In x (named d) -> owner x = k.

Lemma agree_refl : forall k s, agree k s s.
Proof. intros k s. split; reflexivity. Qed.

Lemma agree_trans : forall k a b c, agree k a b -> agree k b c -> agree k a c.
Proof.
  intros k a b c [A1 A2 A3] [B1 B2 B3]. split; intros x H.
  - now rewrite A1, B1.
  - now rewrite A2, B2.
  - now rewrite A3, B3.
Qed.

Lemma agree_sym : forall k a b, agree k a b -> agree k b a.
Proof. intros k a b [A1 A2 A3]. split; intros x H; symmetry; auto. Qed.

Lemma tidy_next : forall k s d, tidy s -> owned k d -> tidy (next s d).
Proof.
  intros k s d [B T] O. unfold owned in O.
  destruct d as [o c cap|o o'|o o'|o|o data|o|i data cap|i o|i i'|i i'|i i'|i|i block n]; cbn [named next] in *.
  - split; [|exact T]. intros x e H. cbn [writes_to] in H. destruct (N.eq_dec x o) as [->|X].
    + rewrite at_same in H. injection H as <-. rewrite (O (AnOut o)), (O (ABox c)) by (cbn; auto). reflexivity.
    + rewrite at_other in H by exact X. now apply B.
  - split; [|exact T]. intros x e H. cbn [writes_to] in H. destruct (N.eq_dec x o) as [->|X].
    + rewrite at_same in H. discriminate.
    + rewrite at_other in H by exact X. destruct (N.eq_dec x o') as [->|X'].
      * rewrite at_same in H. apply B in H. rewrite <- H, (O (AnOut o)), (O (AnOut o')) by (cbn; auto). reflexivity.
      * rewrite at_other in H by exact X'. now apply B.
  - split; [|exact T]. intros x e H. cbn [writes_to] in H. destruct (N.eq_dec x o) as [->|X].
    + rewrite at_same in H. discriminate.
    + rewrite at_other in H by exact X. destruct (N.eq_dec x o') as [->|X'].
      * rewrite at_same in H. apply B in H. rewrite <- H, (O (AnOut o)), (O (AnOut o')) by (cbn; auto). reflexivity.
      * rewrite at_other in H by exact X'. now apply B.
  - split; [|exact T]. intros x e H. cbn [writes_to] in H. destruct (N.eq_dec x o) as [->|X].
    + rewrite at_same in H. discriminate.
    + rewrite at_other in H by exact X. now apply B.
  - destruct (writes_to s o); split; auto.
  - split; auto.
  - split; [exact B|]. intros x rest cp y H. cbn [inputs] in H. destruct (N.eq_dec x i) as [->|X].
    + rewrite at_same in H. discriminate.
    + rewrite at_other in H by exact X. eapply T. exact H.
  - destruct (inputs s i) as [[[rest cp] tie]|] eqn:E; [|split; auto]. split; [exact B|].
    intros x rest' cp' y H. cbn [inputs] in H. destruct (N.eq_dec x i) as [->|X].
    + rewrite at_same in H. injection H as <- <- <-. rewrite (O (AnIn i)), (O (AnOut o)) by (cbn; auto). reflexivity.
    + rewrite at_other in H by exact X. eapply T. exact H.
  - split; [exact B|]. intros x rest' cp' y H. cbn [inputs] in H. destruct (N.eq_dec x i') as [->|X].
    + rewrite at_same in H. apply T in H. rewrite <- H, (O (AnIn i)), (O (AnIn i')) by (cbn; auto). reflexivity.
    + rewrite at_other in H by exact X. eapply T. exact H.
  - split; [exact B|]. intros x rest' cp' y H. cbn [inputs] in H. destruct (N.eq_dec x i) as [->|X0].
    + rewrite at_same in H. discriminate.
    + rewrite at_other in H by exact X0. destruct (N.eq_dec x i') as [->|X].
      * rewrite at_same in H. apply T in H. rewrite <- H, (O (AnIn i)), (O (AnIn i')) by (cbn; auto). reflexivity.
      * rewrite at_other in H by exact X. eapply T. exact H.
  - split; [exact B|]. intros x rest' cp' y H. cbn [inputs] in H. destruct (N.eq_dec x i) as [->|X0].
    + rewrite at_same in H. discriminate.
    + rewrite at_other in H by exact X0. destruct (N.eq_dec x i') as [->|X].
      * rewrite at_same in H. apply T in H. rewrite <- H, (O (AnIn i)), (O (AnIn i')) by (cbn; auto). reflexivity.
      * rewrite at_other in H by exact X. eapply T. exact H.
  - split; [exact B|]. intros x rest' cp' y H. cbn [inputs] in H. destruct (N.eq_dec x i) as [->|X].
    + rewrite at_same in H. discriminate.
    + rewrite at_other in H by exact X. eapply T. exact H.
  - destruct (inputs s i) as [[[rest cp] tie]|] eqn:E; [|split; auto]. split; [exact B|].
    intros x rest' cp' y H. cbn [inputs] in H. destruct (N.eq_dec x i) as [->|X].
    + rewrite at_same in H. injection H as <- <- ->. eapply T. exact E.
    + rewrite at_other in H by exact X. eapply T. exact H.
Qed.

(** A deed of another thread changes nothing for thread j. *)
Lemma next_other : forall k j s d, tidy s -> owned k d -> j <> k -> agree j (next s d) s.
Proof.
  intros k j s d [B T] O J. unfold owned in O.
  assert (Q : forall x y, owner x = j -> In y (named d) -> x <> y).
  { intros x y X Y ->. apply J. rewrite <- X. now apply O. }
  destruct d as [o c cap|o o'|o o'|o|o data|o|i data cap|i o|i i'|i i'|i i'|i|i block n]; cbn [named next] in *;
    try apply agree_refl.
  - split; cbn [writes_to text inputs]; intros x X; try reflexivity; rewrite at_other; try reflexivity; intros ->;
      [exact (Q (AnOut o) (AnOut o) X (or_introl eq_refl) eq_refl)
      |exact (Q (ABox c) (ABox c) X (or_intror (or_introl eq_refl)) eq_refl)].
  - split; cbn [writes_to text inputs]; intros x X; try reflexivity.
    rewrite !at_other; try reflexivity; intros ->;
      [exact (Q (AnOut o') (AnOut o') X (or_intror (or_introl eq_refl)) eq_refl)
      |exact (Q (AnOut o) (AnOut o) X (or_introl eq_refl) eq_refl)].
  - split; cbn [writes_to text inputs]; intros x X; try reflexivity.
    rewrite !at_other; try reflexivity; intros ->;
      [exact (Q (AnOut o') (AnOut o') X (or_intror (or_introl eq_refl)) eq_refl)
      |exact (Q (AnOut o) (AnOut o) X (or_introl eq_refl) eq_refl)].
  - split; cbn [writes_to text inputs]; intros x X; try reflexivity.
    rewrite at_other; [reflexivity|]; intros ->. exact (Q (AnOut o) (AnOut o) X (or_introl eq_refl) eq_refl).
  - destruct (writes_to s o) as [c|] eqn:E; [|apply agree_refl].
    split; cbn [writes_to text inputs]; intros x X; try reflexivity.
    rewrite at_other; [reflexivity|]; intros ->. apply B in E. rewrite <- E in X.
    exact (Q (AnOut o) (AnOut o) X (or_introl eq_refl) eq_refl).
  - split; cbn [writes_to text inputs]; intros x X; try reflexivity.
    rewrite at_other; [reflexivity|]; intros ->. exact (Q (AnIn i) (AnIn i) X (or_introl eq_refl) eq_refl).
  - destruct (inputs s i) as [[[rest cp] tie]|]; [|apply agree_refl].
    split; cbn [writes_to text inputs]; intros x X; try reflexivity.
    rewrite at_other; [reflexivity|]; intros ->. exact (Q (AnIn i) (AnIn i) X (or_introl eq_refl) eq_refl).
  - split; cbn [writes_to text inputs]; intros x X; try reflexivity.
    rewrite at_other; [reflexivity|]; intros ->. exact (Q (AnIn i') (AnIn i') X (or_intror (or_introl eq_refl)) eq_refl).
  - split; cbn [writes_to text inputs]; intros x X; try reflexivity.
    rewrite !at_other; try reflexivity; intros ->;
      [exact (Q (AnIn i') (AnIn i') X (or_intror (or_introl eq_refl)) eq_refl)
      |exact (Q (AnIn i) (AnIn i) X (or_introl eq_refl) eq_refl)].
  - split; cbn [writes_to text inputs]; intros x X; try reflexivity.
    rewrite !at_other; try reflexivity; intros ->;
      [exact (Q (AnIn i') (AnIn i') X (or_intror (or_introl eq_refl)) eq_refl)
      |exact (Q (AnIn i) (AnIn i) X (or_introl eq_refl) eq_refl)].
  - split; cbn [writes_to text inputs]; intros x X; try reflexivity.
    rewrite at_other; [reflexivity|]; intros ->. exact (Q (AnIn i) (AnIn i) X (or_introl eq_refl) eq_refl).
  - destruct (inputs s i) as [[[rest cp] tie]|]; [|apply agree_refl].
    split; cbn [writes_to text inputs]; intros x X; try reflexivity.
    rewrite at_other; [reflexivity|]; intros ->. exact (Q (AnIn i) (AnIn i) X (or_introl eq_refl) eq_refl).
Qed.

(** Updating the same name with the same value. *)
Lemma at_both : forall (A : Type) (P : N -> Prop) (f g : N -> A) a u v,
  (forall x, P x -> f x = g x) -> u = v -> forall x, P x -> at_name f a u x = at_name g a v x.
Proof. intros A P f g a u v H <- x X. unfold at_name. destruct (N.eqb x a); auto. Qed.

(** A deed of thread k does the same to both. *)
Lemma next_same : forall k s s' d, tidy s -> agree k s s' -> owned k d -> agree k (next s d) (next s' d).
Proof.
  intros k s s' d [B T] [A1 A2 A3] O. unfold owned in O.
  destruct d as [o c cap|o o'|o o'|o|o data|o|i data cap|i o|i i'|i i'|i i'|i|i block n]; cbn [named next] in *.
  - split; cbn [writes_to text inputs]; auto 6 with datatypes; apply at_both; auto 6 with datatypes.
  - split; cbn [writes_to text inputs]; auto 6 with datatypes. apply at_both; auto 6 with datatypes. apply at_both; auto 6 with datatypes.
  - split; cbn [writes_to text inputs]; auto 6 with datatypes. apply at_both; auto 6 with datatypes. apply at_both; auto 6 with datatypes.
  - split; cbn [writes_to text inputs]; auto 6 with datatypes. apply at_both; auto 6 with datatypes.
  - assert (Ko : owner (AnOut o) = k) by (auto 6 with datatypes). rewrite <- (A1 o Ko).
    destruct (writes_to s o) as [c|] eqn:E; [|split; auto 6 with datatypes].
    split; cbn [writes_to text inputs]; auto 6 with datatypes. apply at_both; auto 6 with datatypes. rewrite (A2 c); [reflexivity|].
    rewrite <- (B _ _ E). exact Ko.
  - split; auto 6 with datatypes.
  - split; cbn [writes_to text inputs]; auto 6 with datatypes. apply at_both; auto 6 with datatypes.
  - assert (Ki : owner (AnIn i) = k) by (auto 6 with datatypes). rewrite <- (A3 i Ki).
    destruct (inputs s i) as [[[rest cp] tie]|]; [|split; auto 6 with datatypes].
    split; cbn [writes_to text inputs]; auto 6 with datatypes. apply at_both; auto 6 with datatypes.
  - split; cbn [writes_to text inputs]; auto 6 with datatypes. apply at_both; auto 6 with datatypes.
  - split; cbn [writes_to text inputs]; auto 6 with datatypes. apply at_both; auto 6 with datatypes. apply at_both; auto 6 with datatypes.
  - split; cbn [writes_to text inputs]; auto 6 with datatypes. apply at_both; auto 6 with datatypes. apply at_both; auto 6 with datatypes.
  - split; cbn [writes_to text inputs]; auto 6 with datatypes. apply at_both; auto 6 with datatypes.
  - assert (Ki : owner (AnIn i) = k) by (auto 6 with datatypes). rewrite <- (A3 i Ki).
    destruct (inputs s i) as [[[rest cp] tie]|]; [|split; auto 6 with datatypes].
    split; cbn [writes_to text inputs]; auto 6 with datatypes. apply at_both; auto 6 with datatypes.
Qed.

Lemma sensible_same : forall P k s s' d, tidy s -> tidy s' -> agree k s s' -> owned k d -> sensible P s d -> sensible P s' d.
Proof.
  intros P k s s' d [B T] [B' T'] [A1 A2 A3] O Sn. unfold owned in O.
  destruct d as [o c cap|o o'|o o'|o|o data|o|i data cap|i o|i i'|i i'|i i'|i|i block n]; cbn [named sensible] in *; auto 6 with datatypes.
  - intros x X E. apply (Sn x X). rewrite A1; [exact E|]. rewrite (B' _ _ E). apply O. auto 6 with datatypes.
  - rewrite <- A1 by (auto 6 with datatypes). exact Sn.
  - rewrite <- A1 by (auto 6 with datatypes). exact Sn.
  - destruct Sn as (c & E & L). exists c. rewrite <- A1 by (auto 6 with datatypes). split; [exact E|]. rewrite <- A2; [exact L|].
    rewrite <- (B _ _ E). auto 6 with datatypes.
  - rewrite <- A1 by (auto 6 with datatypes). exact Sn.
  - rewrite <- A3 by (auto 6 with datatypes). exact Sn.
  - rewrite <- A3 by (auto 6 with datatypes). exact Sn.
  - rewrite <- A3 by (auto 6 with datatypes). exact Sn.
  - rewrite <- A3 by (auto 6 with datatypes). exact Sn.
  - destruct Sn as (rest & cap & tie & E & Hn & C & S). exists rest, cap, tie. rewrite <- A3 by (auto 6 with datatypes).
    split; [exact E|]. split; [exact Hn|]. split; [exact C|]. destruct tie as [o|]; cbn [sound_tie] in *; [|exact I].
    rewrite <- A1; [exact S|]. rewrite <- (T _ _ _ _ E). auto 6 with datatypes.
Qed.

Lemma expected_same : forall k s s' d, tidy s -> agree k s s' -> owned k d -> expected s d = expected s' d.
Proof.
  intros k s s' d [B T] [A1 A2 A3] O. unfold owned in O.
  destruct d as [o c cap|o o'|o o'|o|o data|o|i data cap|i o|i i'|i i'|i i'|i|i block n]; cbn [named expected] in *; auto 6 with datatypes.
  - rewrite <- A1 by (auto 6 with datatypes). destruct (writes_to s o) as [c|] eqn:E; [|reflexivity].
    rewrite (A2 c); [reflexivity|]. rewrite <- (B _ _ E). auto 6 with datatypes.
  - rewrite <- A3 by (auto 6 with datatypes). destruct (inputs s i) as [[[rest cp] tie]|] eqn:E; [|reflexivity].
    destruct tie as [o|]; cbn [tied_text]; [|reflexivity].
    assert (Ko : owner (AnOut o) = k) by (rewrite <- (T _ _ _ _ E); auto 6 with datatypes).
    rewrite <- (A1 o Ko). destruct (writes_to s o) as [c|] eqn:W; cbn [option_map]; [|reflexivity].
    rewrite (A2 c); [reflexivity|]. rewrite <- (B _ _ W). exact Ko.
Qed.

(** A sensible deed of thread k touches only what belongs to it. *)
Lemma touched_owned : forall P k s w d, tidy s -> as_ideal s w -> owned k d -> sensible P s d ->
  forall x, In x (touched w d) -> owner x = k.
Proof.
  intros P k s w d [B T] A O Sn x X. unfold owned in O.
  destruct d as [o c cap|o o'|o o'|o|o data|o|i data cap|i o|i i'|i i'|i i'|i|i block n];
    cbn [named sensible touched] in *; auto 6 with datatypes.
  - destruct X as [<-|X]; [auto 6 with datatypes|]. destruct Sn as (c & E & _). destruct (ai_out _ _ A _ _ E) as (r & R & _).
    unfold box_of in X. rewrite R in X. destruct X as [<-|[]]. rewrite <- (B _ _ E). auto 6 with datatypes.
  - destruct X as [<-|X]; [auto 6 with datatypes|]. destruct (writes_to s o) as [c|] eqn:E; [|congruence].
    destruct (ai_out _ _ A _ _ E) as (r & R & _).
    unfold box_of in X. rewrite R in X. destruct X as [<-|[]]. rewrite <- (B _ _ E). auto 6 with datatypes.
  - destruct X as [<-|[]]. auto 6 with datatypes.
  - destruct X as [<-|X]; [auto 6 with datatypes|]. destruct Sn as (rest & cap & tie & E & _ & _ & S).
    destruct (ai_in _ _ A _ _ _ _ E) as (r & R & _). rewrite R in X. destruct tie as [o|]; [|destruct X].
    assert (Ko : owner (AnOut o) = k) by (rewrite <- (T _ _ _ _ E); auto 6 with datatypes).
    destruct X as [<-|X]; [exact Ko|]. cbn [sound_tie] in S. destruct (writes_to s o) as [c|] eqn:W; [|congruence].
    destruct (ai_out _ _ A _ _ W) as (r' & R' & _). unfold box_of in X. rewrite R' in X. destruct X as [<-|[]].
    rewrite <- (B _ _ W). exact Ko.
Qed.

End Own.

Lemma overlap_iff : forall l m, overlap l m = true <-> exists x, In x l /\ In x m.
Proof.
  intros l m. unfold overlap. rewrite existsb_exists. split.
  - intros (x & X & E). apply existsb_exists in E. destruct E as (y & Y & E). destruct (place_eq_dec x y) as [->|]; [|discriminate].
    eauto.
  - intros (x & X & Y). exists x. split; [exact X|]. apply existsb_exists. exists x. split; [exact Y|].
    destruct (place_eq_dec x x); congruence.
Qed.

(** The next deeds of others. *)
Lemma firsts_next : forall h but d, In d (firsts but h) ->
  exists k l, ~ In k but /\ of_thread k h = d :: l.
Proof.
  induction h as [|[j e] h IH]; intros but d H; cbn [firsts] in H; [destruct H|].
  destruct (existsb (Nat.eqb j) but) eqn:E.
  - destruct (IH but d H) as (k & l & K & L). exists k, l. split; [exact K|]. unfold of_thread in *. cbn [filter fst].
    destruct (Nat.eqb_spec j k) as [->|_]; [|exact L]. exfalso. apply K. apply existsb_exists in E.
    destruct E as (x & X & E). apply Nat.eqb_eq in E. now subst.
  - destruct H as [<-|H].
    + exists j, (of_thread j h). split.
      * intros K. assert (existsb (Nat.eqb j) but = true); [|congruence]. apply existsb_exists. exists j. split; [exact K|apply Nat.eqb_refl].
      * unfold of_thread. cbn [filter fst]. rewrite Nat.eqb_refl. reflexivity.
    + destruct (IH (j :: but) d H) as (k & l & K & L). exists k, l. split; [intros C; apply K; now right|].
      unfold of_thread in *. cbn [filter fst]. destruct (Nat.eqb_spec j k) as [->|_]; [|exact L]. exfalso. apply K. now left.
Qed.

(** Everything each thread sees is what it expects from the state as it knows it. *)
Lemma together_ok : forall owner twice h w s (local : nat -> ideal),
  tidy owner s -> as_ideal s w ->
  (forall k, tidy owner (local k) /\ agree owner k (local k) s /\
     all_sensible (twice = false) (local k) (of_thread k h)) ->
  (forall k d, In d (of_thread k h) -> owned owner k d) ->
  exists l, together twice w h = Result (Ok l) /\
    forall k, concat (of_thread k l) = expectations (local k) (of_thread k h).
Proof.
  intros owner twice. induction h as [|[k d] h IH]; intros w s local Ty A L O.
  - exists []. split; reflexivity.
  - assert (Hk : of_thread k ((k, d) :: h) = d :: of_thread k h).
    { unfold of_thread. cbn [filter fst]. now rewrite Nat.eqb_refl. }
    assert (Hj : forall j, j <> k -> of_thread j ((k, d) :: h) = of_thread j h).
    { intros j J. unfold of_thread. cbn [filter fst]. destruct (Nat.eqb_spec k j); congruence. }
    assert (Od : owned owner k d) by (apply O; rewrite Hk; now left).
    destruct (L k) as (Tk & Ak & Sk). rewrite Hk in Sk. cbn [all_sensible] in Sk. destruct Sk as (Sd & Sk).
    assert (Ss : sensible (twice = false) s d) by (eapply sensible_same with (s := local k); eauto).
    cbn [together].
    assert (R : existsb (fun d' => overlap (touched w d) (touched w d')) (firsts [k] h) = false).
    { destruct (existsb _ (firsts [k] h)) eqn:E; [|reflexivity]. exfalso. apply existsb_exists in E.
      destruct E as (d' & F & V). apply firsts_next in F. destruct F as (j & l & J & F).
      assert (Jk : j <> k) by (intros ->; apply J; now left).
      destruct (L j) as (Tj & Aj & Sj). rewrite Hj, F in Sj by exact Jk. cbn [all_sensible] in Sj. destruct Sj as (Sj & _).
      assert (Oj : owned owner j d') by (apply O; rewrite Hj, F by exact Jk; now left).
      assert (Sj' : sensible (twice = false) s d') by (eapply sensible_same with (s := local j); eauto).
      apply overlap_iff in V. destruct V as (x & X & Y).
      apply (touched_owned owner _ k s w d Ty A Od Ss) in X. apply (touched_owned owner _ j s w d' Ty A Oj Sj') in Y. congruence. }
    rewrite R. destruct (deed_ok twice s w d A Ss) as (w' & ans & E & A' & V). rewrite E.
    set (local' := fun j => if Nat.eqb j k then next (local k) d else local j).
    destruct (IH w' (next s d) local') as (l & T & X).
    + eapply tidy_next; eassumption.
    + exact A'.
    + intros j. subst local'. cbv beta. destruct (Nat.eqb_spec j k) as [->|J].
      * split; [eapply tidy_next; eassumption|]. split; [|exact Sk]. now apply next_same.
      * destruct (L j) as (Tj & Aj & Sj). rewrite Hj in Sj by exact J. split; [exact Tj|]. split; [|exact Sj].
        eapply agree_trans; [exact Aj|]. apply agree_sym. eapply next_other; eassumption.
    + intros j e In1. apply O. destruct (Nat.eq_dec j k) as [->|J]; [rewrite Hk; now right|rewrite Hj by exact J; exact In1].
    + rewrite T. eexists. split; [reflexivity|]. intros j. destruct (Nat.eq_dec j k) as [->|J].
      * rewrite Hk. cbn [expectations]. specialize (X k). subst local'. cbv beta in X. rewrite Nat.eqb_refl in X. rewrite <- X.
        unfold of_thread. cbn [filter fst]. rewrite Nat.eqb_refl. cbn [map snd concat]. f_equal. rewrite V.
        symmetry. eapply expected_same; eassumption.
      * rewrite Hj by exact J. specialize (X j). subst local'. cbv beta in X. destruct (Nat.eqb_spec j k) as [|_]; [congruence|].
        rewrite <- X. unfold of_thread. cbn [filter fst]. destruct (Nat.eqb_spec k j); [congruence|]. reflexivity.
Qed.

Lemma alone_ok : forall twice ds s w, as_ideal s w -> all_sensible (twice = false) s ds ->
  exists w', alone twice w ds = Ok w' /\ as_ideal (after s ds) w'.
Proof.
  intros twice. induction ds as [|d ds IH]; intros s w A H; cbn [alone after fold_left]; [eauto|].
  destruct H as (H1 & H2). destruct (deed_ok twice s w d A H1) as (w' & ans & E & A' & _). rewrite E. cbn [bind].
  exact (IH _ _ A' H2).
Qed.
