(** Proofs about types, traits and overloads. *)
From Coq Require Import NArith List Bool Lia ZifyBool ZifyN.
From Verif Require Import TypeSpec TypeModel.
Import ListNotations.
Open Scope N_scope.

Lemma same_iff : forall a b, same a b = true <-> a = b.
Proof. intros a b. unfold same. destruct (ty_eq_dec a b); split; congruence. Qed.

Lemma answers_bool : forall b P, (b = true <-> P) -> answers (Some b) P.
Proof.
  intros [] P [H1 H2]; [left; auto|right; split; [reflexivity|]]. intros p. now apply H2 in p.
Qed.

Lemma answers_iff : forall o P, answers o P -> exists b, o = Some b /\ (b = true <-> P).
Proof.
  intros o P [(-> & H)|(-> & H)]; [exists true|exists false]; split; try reflexivity; split; try tauto; congruence.
Qed.

Lemma answers_either : forall a b P Q, answers a P -> answers b Q -> answers (either a b) (P \/ Q).
Proof.
  intros a b P Q A B. apply answers_iff in A, B. destruct A as (x & -> & A), B as (y & -> & B).
  cbn [either]. apply answers_bool. rewrite orb_true_iff. tauto.
Qed.

Lemma answers_but_not : forall a b P Q, answers a P -> (b = true <-> Q) -> answers (but_not a b) (P /\ ~ Q).
Proof.
  intros a b P Q A B. apply answers_iff in A. destruct A as (x & -> & A). unfold but_not. cbn [option_map].
  apply answers_bool. rewrite andb_true_iff, negb_true_iff. rewrite A. rewrite <- B. destruct b; intuition congruence.
Qed.

Lemma answers_same : forall o P Q, answers o P -> (P <-> Q) -> answers o Q.
Proof. intros o P Q [(-> & H)|(-> & H)] E; [left|right]; split; try reflexivity; tauto. Qed.

Lemma unit_size_pos : forall z u, 0 < wide_size z -> 0 < unit_size z u.
Proof. intros z [] H; cbn; lia. Qed.

Lemma size_of_sized : forall z t, sized t -> exists s, size_of z t = Some s.
Proof.
  intros z. induction t; cbn [sized size_of]; intros H; try contradiction; eauto.
  - destruct f; try contradiction; eauto.
  - destruct H as (H & _). destruct (IHt H) as (s & E). rewrite E. cbn. eauto.
Qed.


(** The bound found for an array of units. *)
Lemma bound_found : forall z u q n, 0 < wide_size z -> 1 <= n ->
  exists s, size_of z (Array (Basic q (Unit u)) n) = Some s /\ constant_max_v 1 (s / unit_size z u) = n.
Proof.
  intros z u q n W H. cbn [size_of option_map]. eexists. split; [reflexivity|].
  pose proof (unit_size_pos z u W). rewrite N.div_mul by lia. unfold constant_max_v. destruct (n <? 1) eqn:E; lia.
Qed.

Lemma remove_volatile_text : forall t q u, is_volatile q = false ->
  remove_volatile t = Text q u <-> exists v, t = Text (Cv (is_const q) v) u.
Proof.
  intros t [c v] u V. cbn in V. subst v. cbn [is_const]. split.
  - destruct t as [q f|[a b] u'|q u'|q x|q x|q s x y|q t|q x|t n|t|x|t|t]; cbn; try discriminate.
    intros H. injection H as -> ->. eauto.
  - intros (v & ->). reflexivity.
Qed.

Lemma remove_cv_view : forall t u, remove_cv t = View plain u <-> exists q, t = View q u.
Proof.
  intros t u. split.
  - destruct t; cbn; try discriminate. intros H. injection H as ->. eauto.
  - intros (q & ->). reflexivity.
Qed.

Lemma writable_string : forall z u t, 0 < wide_size z -> sized t ->
  answers (is_writable_string_v z u t) (writable_in u t).
Proof.
  intros z u t W H. destruct (size_of_sized z t H) as (s & E).
  unfold is_writable_string_v. rewrite E. cbn [option_map]. apply answers_bool.
  rewrite !orb_true_iff, !same_iff, remove_volatile_text by reflexivity. cbn [is_const plain].
  unfold pointer_to, array_of, plain, constant, changing. split.
  - intros [[[[[[(v & ->)| ->]| ->]| ->]| ->]| ->]| ->]; constructor.
  - intros X. destruct X as [v|c v|v n].
    + do 6 left. eauto.
    + destruct c, v; tauto.
    + destruct (bound_found z u (Cv false v) n W (proj2 H)) as (s' & E' & B). rewrite E in E'. injection E' as <-.
      rewrite B. destruct v; tauto.
Qed.

Lemma any_string : forall z u t, 0 < wide_size z -> sized t -> answers (is_string_v z u t) (text_in u t).
Proof.
  intros z u t W H. destruct (size_of_sized z t H) as (s & E).
  destruct (answers_iff _ _ (writable_string z u t W H)) as (b & Eb & B).
  unfold is_string_v. rewrite Eb, E. apply answers_bool.
  rewrite !orb_true_iff, !same_iff, remove_cv_view, remove_volatile_text, B by reflexivity. cbn [is_const constant].
  unfold pointer_to, array_of, plain, constant, both. split.
  - intros [[[[[[[[X|(q & ->)]|(v & ->)]| ->]| ->]| ->]| ->]| ->]| ->]; try (destruct X); constructor.
  - intros X. destruct X as [[c v]|q|c [c' v]|[c v] n].
    + destruct c; [do 6 left; right; eauto|do 8 left; constructor].
    + do 7 left. right. eauto.
    + destruct c'; [destruct c, v; tauto|do 8 left; constructor].
    + destruct c; [|do 8 left; constructor].
      destruct (bound_found z u (Cv true v) n W (proj2 H)) as (s' & E' & Bd). rewrite E in E'. injection E' as <-.
      rewrite Bd. destruct v; tauto.
Qed.

Lemma unicode_views : forall t, is_unicode_text_object_view_v t = true <-> exists u q, u <> Char /\ t = View q u.
Proof.
  intros t. unfold is_unicode_text_object_view_v. rewrite !orb_true_iff, !same_iff, !remove_cv_view. split.
  - intros [[[(q & ->)|(q & ->)]|(q & ->)]|(q & ->)]; eexists _, q; (split; [|reflexivity]); discriminate.
  - intros (u & q & U & ->). destruct u; [congruence| | | |]; eauto 6.
Qed.

Lemma views : forall t, is_text_object_view_v t = true <-> exists u q, t = View q u.
Proof.
  intros t. unfold is_text_object_view_v. rewrite orb_true_iff, unicode_views, same_iff, remove_cv_view. split.
  - intros [(u & q & _ & ->)|(q & ->)]; eauto.
  - intros (u & q & ->). destruct u; [right; eauto|left; eexists _, _; split; [|reflexivity]; discriminate..].
Qed.

Definition pointerish (t : ty) : Prop := decays_to_pointer t = true.

Lemma writable_unicode : forall z t, 0 < wide_size z -> sized t ->
  answers (is_writable_unicode_text_object_v z t) (exists u, u <> Char /\ writable_in u t).
Proof.
  intros z t W H. unfold is_writable_unicode_text_object_v.
  eapply answers_same; [repeat apply answers_either; apply writable_string; assumption|]. split.
  - intros [[[X|X]|X]|X]; eexists; (split; [|exact X]); discriminate.
  - intros (u & U & X). destruct u; [congruence| | | |]; tauto.
Qed.

Lemma unicode_text : forall z t, 0 < wide_size z -> sized t ->
  answers (is_unicode_text_object_v z t) (exists u, u <> Char /\ text_in u t).
Proof.
  intros z t W H. unfold is_unicode_text_object_v.
  eapply answers_same; [repeat apply answers_either; apply any_string; assumption|]. split.
  - intros [[[X|X]|X]|X]; eexists; (split; [|exact X]); discriminate.
  - intros (u & U & X). destruct u; [congruence| | | |]; tauto.
Qed.

Lemma writable_text : forall z t, 0 < wide_size z -> sized t ->
  answers (is_writable_text_object_v z t) (exists u, writable_in u t).
Proof.
  intros z t W H. unfold is_writable_text_object_v.
  eapply answers_same; [apply answers_either; [apply writable_unicode|apply writable_string]; assumption|]. split.
  - intros [(u & _ & X)|X]; eauto.
  - intros (u & X). destruct u; [right; exact X|left; eexists; split; [|exact X]; discriminate..].
Qed.

Lemma any_text : forall z t, 0 < wide_size z -> sized t -> answers (is_text_object_v z t) (exists u, text_in u t).
Proof.
  intros z t W H. unfold is_text_object_v.
  eapply answers_same; [apply answers_either; [apply unicode_text|apply any_string]; assumption|]. split.
  - intros [(u & _ & X)|X]; eauto.
  - intros (u & X). destruct u; [right; exact X|left; eexists; split; [|exact X]; discriminate..].
Qed.

Lemma writable_owner : forall u t, writable_in u t /\ ~ pointerish t <-> exists v, t = Text (Cv false v) u.
Proof.
  intros u t. split.
  - intros (X & P). destruct X; eauto; exfalso; apply P; reflexivity.
  - intros (v & ->). split; [constructor|discriminate].
Qed.

Lemma owner : forall u t, (text_in u t /\ ~ (exists u' q, t = View q u')) /\ ~ pointerish t <-> exists q, t = Text q u.
Proof.
  intros u t. split.
  - intros ((X & V) & P). destruct X; eauto; exfalso; [apply V; eauto|apply P; reflexivity..].
  - intros (v & ->). split; [split; [constructor|]|discriminate]. intros (? & ? & ?). discriminate.
Qed.

Lemma all_traits : forall z t, 0 < wide_size z -> sized t ->
  answers (is_writable_raii_unicode_text_object_v z t) (exists u v, u <> Char /\ t = Text (Cv false v) u) /\
  answers (is_raii_unicode_text_object_v z t) (exists u q, u <> Char /\ t = Text q u) /\
  answers (is_writable_raii_text_object_v z t) (exists u v, t = Text (Cv false v) u) /\
  answers (is_raii_text_object_v z t) (exists u q, t = Text q u).
Proof.
  intros z t W H. repeat split.
  - eapply answers_same; [apply answers_but_not; [apply writable_unicode; assumption|apply iff_refl]|]. fold (pointerish t). split.
    + intros ((u & U & X) & P). destruct (proj1 (writable_owner u t) (conj X P)) as (v & ->). eauto.
    + intros (u & v & U & ->). split; [|discriminate]. eexists. split; [exact U|constructor].
  - eapply answers_same; [apply answers_but_not; [apply answers_but_not; [apply unicode_text; assumption|apply unicode_views]|apply iff_refl]|].
    fold (pointerish t). split.
    + intros (((u & U & X) & V) & P).
      assert (V' : ~ exists u' q, t = View q u').
      { intros (u' & q & ->). apply V. inversion X; subst. eauto. }
      destruct (proj1 (owner u t) (conj (conj X V') P)) as (q & ->). eauto.
    + intros (u & q & U & ->). split; [|discriminate]. split; [eexists; split; [exact U|constructor]|].
      intros (? & ? & ? & ?). discriminate.
  - eapply answers_same; [apply answers_but_not; [apply writable_text; assumption|apply iff_refl]|]. fold (pointerish t). split.
    + intros ((u & X) & P). destruct (proj1 (writable_owner u t) (conj X P)) as (v & ->). eauto.
    + intros (u & v & ->). split; [|discriminate]. eexists. constructor.
  - eapply answers_same; [apply answers_but_not; [apply answers_but_not; [apply any_text; assumption|apply views]|apply iff_refl]|].
    fold (pointerish t). split.
    + intros (((u & X) & V) & P). destruct (proj1 (owner u t) (conj (conj X V) P)) as (q & ->). eauto.
    + intros (u & q & ->). split; [|discriminate]. split; [eexists; constructor|].
      intros (? & ? & ?). discriminate.
Qed.
