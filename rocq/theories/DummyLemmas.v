(** Lemmas on dummies. *)
From Coq Require Import NArith ZArith List Bool Lia.
From Coq Require Import ZifyBool ZifyNat ZifyN.
From Verif Require Import Base TestSpec TestModel DummySpec DummyModel.
Import ListNotations.
Open Scope N_scope.

(** The objects are as the past has made them. *)
Definition agrees (past : list action) (w : lab) : Prop :=
  (forall a, match modules w a with
             | Some m => module_there past a = true /\ queue m = waiting past a
             | None => module_there past a = false
             end) /\
  (forall d, match dummies w d with
             | Some x => dummy_there past d = true /\ owning_module x = owner_of past d /\ dummy_value x = value_of past d
             | None => dummy_there past d = false
             end).

Lemma agrees_module : forall past w a, agrees past w ->
  (exists m, modules w a = Some m /\ module_there past a = true /\ queue m = waiting past a) \/
  (modules w a = None /\ module_there past a = false).
Proof. intros past w a [H _]. specialize (H a). destruct (modules w a) as [m|]; [left; exists m; tauto|right; auto]. Qed.

Lemma agrees_dummy : forall past w d, agrees past w ->
  (exists x, dummies w d = Some x /\ dummy_there past d = true /\ owning_module x = owner_of past d /\ dummy_value x = value_of past d) \/
  (dummies w d = None /\ dummy_there past d = false).
Proof. intros past w d [_ H]. specialize (H d). destruct (dummies w d) as [x|]; [left; exists x; tauto|right; auto]. Qed.

Definition follows (past : list action) (w : lab) (c : action) : Prop :=
  if sound past c then exists w', act w c = Ok (w', expected past c) /\ agrees (c :: past) w'
  else act w c = UB DanglingPointer.

Ltac look_at_module H a :=
  let m := fresh "m" in let E := fresh "E" in let T := fresh "T" in let Q := fresh "Q" in
  destruct (agrees_module _ _ a H) as [(m & E & T & Q)|(E & T)].
Ltac look_at_dummy H d :=
  let x := fresh "x" in let E := fresh "E" in let T := fresh "T" in let O := fresh "O" in let V := fresh "V" in
  destruct (agrees_dummy _ _ d H) as [(x & E & T & O & V)|(E & T)].

Ltac unfold_act :=
  unfold act, construct_dummy, copy_dummy, move_dummy, destroy_dummy, set_value, push_to, with_module, with_dummy, module_place, dummy_place,
    set_module, set_dummy, pop_message; cbn [modules dummies].

Ltac unfold_spec :=
  cbn [module_there dummy_there waiting owner_of value_of report].

(** The objects at every address after an action. *)
Ltac at_every_address H :=
  let b := fresh "b" in
  split; intro b; cbn [modules dummies];
  [ pose proof (proj1 H b); unfold_spec | pose proof (proj2 H b); unfold_spec ].

Lemma eqb_flip : forall a b : N, (a =? b) = (b =? a).
Proof. intros. apply N.eqb_sym. Qed.

Ltac by_address :=
  repeat match goal with
  | |- context[?x =? ?y] => destruct (N.eqb_spec x y); try subst
  end.

Lemma step_module : forall past w a, agrees past w -> follows past w (NewModule a).
Proof.
  intros past w a H. unfold follows, sound. cbn [report]. rewrite andb_true_r. look_at_module H a; rewrite T; cbn [negb].
  - unfold_act. now rewrite E.
  - eexists. split; [unfold_act; rewrite E; cbn [bind expected]; reflexivity|].
    at_every_address H; [|assumption]. by_address; try congruence; cbn [orb]; auto.
Qed.

Lemma step_copy_module : forall past w f a, agrees past w -> follows past w (CopyModule f a).
Proof.
  intros past w f a H. unfold follows, sound. cbn [report]. rewrite andb_true_r.
  look_at_module H a; look_at_module H f; rewrite T, T0; cbn [negb andb]; unfold_act; rewrite ?E, ?E0; try reflexivity.
  eexists. split; [cbn [bind expected]; reflexivity|].
  at_every_address H; [|assumption]. rewrite (eqb_flip a b). by_address; try congruence; cbn [orb]; auto.
Qed.

Lemma step_move_module : forall past w f a rest, agrees past w -> follows past w (MoveModule f a rest).
Proof.
  intros past w f a rest H. unfold follows, sound. cbn [report]. rewrite andb_true_r.
  look_at_module H a; look_at_module H f; rewrite T, T0; cbn [negb andb]; unfold_act; rewrite ?E, ?E0; try reflexivity.
  eexists. split; [cbn [bind expected]; reflexivity|].
  assert (a <> f) by congruence.
  at_every_address H; [|assumption]. rewrite (eqb_flip a b), (eqb_flip f b). by_address; try congruence; cbn [orb set_queue queue]; auto.
Qed.

Lemma step_drop_module : forall past w a, agrees past w -> follows past w (DropModule a).
Proof.
  intros past w a H. unfold follows, sound. cbn [report]. rewrite andb_true_r.
  look_at_module H a; rewrite T; unfold_act; rewrite E; [|reflexivity].
  eexists. split; [cbn [bind expected]; reflexivity|].
  at_every_address H; [|assumption]. rewrite (eqb_flip a b). by_address; try congruence; cbn [andb negb]; auto.
Qed.

Lemma step_new_dummy : forall past w d o v, agrees past w -> follows past w (NewDummy d o v).
Proof.
  intros past w d o v H. unfold follows, sound. cbn [report].
  look_at_dummy H d; rewrite T; cbn [negb andb]; unfold_act; rewrite E; [reflexivity|].
  destruct o as [a|]; [|reflexivity].
  look_at_module H a; rewrite T0, ?E0; [|reflexivity].
  eexists. split; [cbn [bind expected]; reflexivity|].
  at_every_address H.
  - rewrite (eqb_flip a b). by_address; [|assumption]. cbn [push_message set_queue queue]. now rewrite Q.
  - rewrite (eqb_flip d b). by_address; cbn [orb owning_module dummy_value]; auto.
Qed.

Lemma step_copy_dummy : forall past w f d, agrees past w -> follows past w (CopyDummy f d).
Proof.
  intros past w f d H. unfold follows, sound. cbn [report].
  look_at_dummy H d; look_at_dummy H f; rewrite T, T0; cbn [negb andb]; unfold_act; rewrite ?E, ?E0; try reflexivity.
  rewrite <- O. destruct (owning_module x) as [a|] eqn:Ow; [|reflexivity].
  look_at_module H a; rewrite T1, ?E1; [|reflexivity].
  eexists. split; [cbn [bind expected]; reflexivity|].
  at_every_address H.
  - rewrite <- ?O, (eqb_flip a b). by_address; [|assumption]. cbn [push_message set_queue queue]. now rewrite Q.
  - rewrite (eqb_flip d b). by_address; cbn [orb owning_module dummy_value]; auto.
Qed.

Lemma step_move_dummy : forall past w f d, agrees past w -> follows past w (MoveDummy f d).
Proof.
  intros past w f d H. unfold follows, sound. cbn [report].
  look_at_dummy H d; look_at_dummy H f; rewrite T, T0; cbn [negb andb]; unfold_act; rewrite ?E, ?E0; try reflexivity.
  rewrite <- O. destruct (owning_module x) as [a|] eqn:Ow; [|reflexivity].
  look_at_module H a; rewrite T1, ?E1; [|reflexivity].
  eexists. split; [cbn [bind expected]; reflexivity|].
  assert (d <> f) by congruence.
  at_every_address H.
  - rewrite <- ?O, (eqb_flip a b). by_address; [|assumption]. cbn [push_message set_queue queue]. now rewrite Q.
  - rewrite (eqb_flip d b), (eqb_flip f b). by_address; try congruence; cbn [orb owning_module dummy_value default_value]; auto.
Qed.

Lemma step_drop_dummy : forall past w d, agrees past w -> follows past w (DropDummy d).
Proof.
  intros past w d H. unfold follows, sound. cbn [report].
  look_at_dummy H d; rewrite T; cbn [negb andb]; unfold_act; rewrite E; [|reflexivity].
  rewrite <- O. destruct (owning_module x) as [a|] eqn:Ow; [|reflexivity].
  look_at_module H a; rewrite T0, ?E0; [|reflexivity].
  eexists. split; [cbn [bind expected]; reflexivity|].
  at_every_address H.
  - rewrite <- ?O, (eqb_flip a b). by_address; [|assumption]. cbn [push_message set_queue queue]. now rewrite Q.
  - rewrite (eqb_flip d b). by_address; cbn [andb negb]; auto.
Qed.

Lemma step_set_value : forall past w d v, agrees past w -> follows past w (SetValue d v).
Proof.
  intros past w d v H. unfold follows, sound. cbn [report]. rewrite andb_true_r.
  look_at_dummy H d; rewrite T; unfold_act; rewrite E; [|reflexivity].
  eexists. split; [cbn [bind expected]; reflexivity|].
  at_every_address H; [assumption|]. rewrite (eqb_flip d b). by_address; cbn [owning_module dummy_value]; auto.
Qed.

Lemma step_get_value : forall past w d, agrees past w -> follows past w (GetValue d).
Proof.
  intros past w d H. unfold follows, sound. cbn [report]. rewrite andb_true_r.
  look_at_dummy H d; rewrite T; unfold_act; rewrite E; [|reflexivity].
  exists w. split; [cbn [bind expected]; now rewrite V|]. at_every_address H; assumption.
Qed.

Lemma step_push : forall past w a x, agrees past w -> follows past w (Push a x).
Proof.
  intros past w a x H. unfold follows, sound. cbn [report]. rewrite andb_true_r.
  look_at_module H a; rewrite T; unfold_act; rewrite E; [|reflexivity].
  eexists. split; [cbn [bind expected]; reflexivity|].
  at_every_address H; [|assumption]. rewrite (eqb_flip a b). by_address; [|assumption]. cbn [push_message set_queue queue]. now rewrite Q.
Qed.

Lemma step_pop : forall past w a, agrees past w -> follows past w (Pop a).
Proof.
  intros past w a H. unfold follows, sound. cbn [report]. rewrite andb_true_r.
  look_at_module H a; rewrite T; unfold_act; rewrite E; [|reflexivity]. cbn [expected]. rewrite <- Q.
  destruct (queue m) as [|x q] eqn:Eq; (eexists; split; [cbn [hd]; reflexivity|]);
    (at_every_address H; [|assumption]); rewrite (eqb_flip a b); (by_address; [|assumption]); cbn [set_queue queue]; rewrite <- Q, ?Eq; auto.
Qed.

Lemma step_count : forall past w a, agrees past w -> follows past w (Count a).
Proof.
  intros past w a H. unfold follows, sound. cbn [report]. rewrite andb_true_r.
  look_at_module H a; rewrite T; unfold_act; rewrite E; [|reflexivity].
  exists w. split; [cbn [expected]; unfold get_message_count; now rewrite Q|]. at_every_address H; assumption.
Qed.

Lemma step_clear : forall past w a, agrees past w -> follows past w (Clear a).
Proof.
  intros past w a H. unfold follows, sound. cbn [report]. rewrite andb_true_r.
  look_at_module H a; rewrite T; unfold_act; rewrite E; [|reflexivity].
  eexists. split; [cbn [bind expected]; reflexivity|].
  at_every_address H; [|assumption]. rewrite (eqb_flip a b). by_address; [|assumption]. now split.
Qed.

Lemma step : forall past w c, agrees past w -> follows past w c.
Proof.
  intros past w [] H; auto using step_module, step_copy_module, step_move_module, step_drop_module, step_new_dummy, step_copy_dummy,
    step_move_dummy, step_drop_dummy, step_set_value, step_get_value, step_push, step_pop, step_count, step_clear.
Qed.

Lemma steps : forall cs past w, agrees past w ->
  if all_sound past cs then exists w', act_all w cs = Ok (w', all_expected past cs) /\ agrees (rev cs ++ past) w'
  else act_all w cs = UB DanglingPointer.
Proof.
  induction cs as [|c cs IH]; intros past w H; cbn [all_sound act_all all_expected rev].
  - exists w. split; [reflexivity|exact H].
  - pose proof (step past w c H) as S1. unfold follows in S1. destruct (sound past c); cbn [andb].
    + destruct S1 as (w1 & E & H1). rewrite E. cbn [bind]. specialize (IH (c :: past) w1 H1).
      destruct (all_sound (c :: past) cs).
      * destruct IH as (w2 & E2 & H2). rewrite E2. cbn [bind]. exists w2. split; [reflexivity|]. now rewrite <- app_assoc.
      * now rewrite IH.
    + now rewrite S1.
Qed.

Lemma start_agrees : agrees [] empty_lab.
Proof. split; intro; reflexivity. Qed.

(* ------------------------------------------------------------------ balance *)

Lemma births_app : forall q x, births (q ++ [x]) = (births q + if is_birth x then 1 else 0)%nat.
Proof. intros. unfold births. rewrite filter_app, app_length. cbn [filter]. now destruct (is_birth x). Qed.
Lemma deaths_app : forall q x, deaths (q ++ [x]) = (deaths q + if is_death x then 1 else 0)%nat.
Proof. intros. unfold deaths. rewrite filter_app, app_length. cbn [filter]. now destruct (is_death x). Qed.

Definition owned (w : lab) (a d : N) : Prop := exists x, dummies w d = Some x /\ owning_module x = Some a.
Definition mail (w : lab) (a : N) : list message := match modules w a with Some m => queue m | None => [] end.
Definition balanced (w : lab) (a : N) : Prop :=
  exists ds, NoDup ds /\ (forall d, In d ds <-> owned w a d) /\ births (mail w a) = (deaths (mail w a) + length ds)%nat.

Lemma balanced_same : forall w w' a, mail w' a = mail w a -> (forall d, owned w' a d <-> owned w a d) -> balanced w a -> balanced w' a.
Proof. intros w w' a Hm Ho (ds & N & I & B). exists ds. rewrite Hm. split; [exact N|]. split; [|exact B]. intro d. now rewrite I, Ho. Qed.

(** A dummy has come, at a free address, to a module that is there. *)
Lemma balanced_birth : forall w w' a b d x m y, dummies w d = None -> modules w b = Some m ->
  is_birth y = true -> owning_module x = Some b -> modules w' = modules (set_module w b (Some (push_message m y))) ->
  dummies w' d = Some x ->
  (forall e, e <> d -> match dummies w' e, dummies w e with
             | Some p, Some q => owning_module p = owning_module q | None, None => True | _, _ => False end) ->
  balanced w a -> balanced w' a.
Proof.
  intros w w' a b d x m y Fd Em Bi Ox Mo Dd Oth (ds & N & I & B).
  assert (Ow : forall e, e <> d -> (owned w' a e <-> owned w a e)).
  { intros e Ne. specialize (Oth e Ne). unfold owned. destruct (dummies w' e) as [p|], (dummies w e) as [q|]; try contradiction.
    - split; intros (z & E & F); injection E as <-; eexists; (split; [reflexivity|congruence]).
    - split; intros (z & E & _); discriminate. }
  assert (Nd : ~ In d ds) by (rewrite I; intros (z & E & _); congruence).
  destruct (N.eq_dec a b) as [->|Nb].
  - exists (d :: ds). split; [now constructor|]. split.
    + intro e. cbn [In]. destruct (N.eq_dec e d) as [->|Ne].
      * split; [intros _; exists x; auto|auto].
      * rewrite (Ow e Ne), <- I. intuition congruence.
    + assert (Ml : mail w' b = mail w b ++ [y]).
      { unfold mail. rewrite Mo. unfold set_module. cbn [modules]. rewrite N.eqb_refl, Em. reflexivity. }
      rewrite Ml, births_app, deaths_app, Bi. destruct y; cbn [is_birth is_death length] in *; try discriminate; lia.
  - exists ds. split; [exact N|].
    assert (Ml : mail w' a = mail w a).
    { unfold mail. rewrite Mo. unfold set_module. cbn [modules]. destruct (N.eqb_spec a b); [contradiction|reflexivity]. }
    rewrite Ml. split; [|exact B]. intro e. destruct (N.eq_dec e d) as [->|Ne].
    + split; [contradiction|]. intros (z & E & F). rewrite Dd in E. injection E as <-. congruence.
    + now rewrite (Ow e Ne).
Qed.

Lemma remove_NoDup : forall (ds : list N) d, NoDup ds -> NoDup (remove N.eq_dec d ds).
Proof.
  intros ds d H. induction H as [|e l Ne Nd IH]; [constructor|]. cbn [remove]. destruct (N.eq_dec d e); [exact IH|].
  constructor; [|exact IH]. intro I. now apply in_remove in I.
Qed.

Lemma balanced_death : forall w a b d x m, dummies w d = Some x -> owning_module x = Some b -> modules w b = Some m ->
  balanced w a -> balanced (set_dummy (set_module w b (Some (push_message m DestructorCalled))) d None) a.
Proof.
  intros w a b d x m Dd Ox Em (ds & N & I & B).
  set (w' := set_dummy _ d None).
  assert (Ow : forall e, owned w' a e <-> owned w a e /\ e <> d).
  { intro e. unfold owned, w', set_dummy, set_module. cbn [dummies]. destruct (N.eqb_spec e d) as [->|Ne].
    - split; [intros (z & E & _); discriminate|tauto].
    - tauto. }
  destruct (N.eq_dec a b) as [->|Nb].
  - exists (remove N.eq_dec d ds). assert (Id : In d ds) by (apply I; exists x; auto).
    split; [now apply remove_NoDup|]. split.
    + intro e. rewrite Ow, <- I. split; [intro H; now apply in_remove in H|]. intros [H1 H2]. now apply in_in_remove.
    + assert (Ml : mail w' b = mail w b ++ [DestructorCalled]).
      { unfold mail, w', set_dummy, set_module. cbn [modules]. rewrite N.eqb_refl, Em. reflexivity. }
      rewrite Ml, births_app, deaths_app. cbn [is_birth is_death].
      assert (length ds = S (length (remove N.eq_dec d ds))).
      { clear - N Id. induction ds as [|e ds IH]; [destruct Id|]. inversion N; subst. cbn [remove]. destruct (N.eq_dec d e) as [->|Ne].
        - cbn [length]. f_equal. now rewrite notin_remove.
        - cbn [length]. f_equal. apply IH; [assumption|]. destruct Id; [congruence|assumption]. }
      lia.
  - exists ds. split; [exact N|].
    assert (Ml : mail w' a = mail w a).
    { unfold mail, w', set_dummy, set_module. cbn [modules]. destruct (N.eqb_spec a b); [contradiction|reflexivity]. }
    rewrite Ml. split; [|exact B]. intro e. rewrite Ow, <- I. split; [|tauto]. intro H. split; [exact H|]. intros ->. apply I in H.
    destruct H as (z & E & F). congruence.
Qed.

Lemma module_after : forall w b x m a, modules w b = Some m ->
  modules (set_module w b (Some (push_message m x))) a = None -> modules w a = None.
Proof. intros w b x m a E. unfold set_module. cbn [modules]. destruct (N.eqb_spec a b); [discriminate|auto]. Qed.

Lemma balanced_step : forall w c w' r a, act w c = Ok (w', r) -> leaves_messages c = true -> c <> DropModule a ->
  balanced w a -> balanced w' a.
Proof.
  intros w c w' r a E L Na B.
  destruct c as [b|f b|f b rest|b|d o v|f d|f d|d|d v|d|b x|b|b|b]; try discriminate; unfold act in E.
  - unfold module_place in E. destruct (modules w b) eqn:Eb; [discriminate|]. injection E as <- <-.
    apply (balanced_same w); [|reflexivity|exact B]. unfold mail, set_module. cbn [modules].
    destruct (N.eqb_spec a b) as [->|]; [now rewrite Eb|reflexivity].
  - unfold with_module in E. destruct (modules w b) eqn:Eb; [|discriminate]. injection E as <- <-.
    apply (balanced_same w); [|reflexivity|exact B]. unfold mail, set_module. cbn [modules].
    destruct (N.eqb_spec a b) as [->|]; [contradiction|reflexivity].
  - unfold construct_dummy, dummy_place in E. destruct (dummies w d) eqn:Ed; [discriminate|].
    unfold push_to, with_module in E. destruct o as [b|]; [|discriminate].
    destruct (modules (set_dummy w d _) b) as [m|] eqn:Eb; [|discriminate]. injection E as <- <-.
    eapply (balanced_birth w _ a b d (Dummy (Some b) (match v with Some v => v | None => default_value end)) m ConstructorCalled); try eassumption; try reflexivity.
    + unfold set_module, set_dummy. cbn [dummies]. now rewrite N.eqb_refl.
    + intros e Ne. unfold set_module, set_dummy. cbn [dummies]. destruct (N.eqb_spec e d); [contradiction|]. now destruct (dummies w e).
  - unfold copy_dummy, dummy_place, with_dummy in E. destruct (dummies w d) eqn:Ed; [discriminate|].
    destruct (dummies w f) as [x|] eqn:Ef; [|discriminate].
    unfold push_to, with_module in E. destruct (owning_module x) as [b|] eqn:Ox; [|discriminate].
    destruct (modules (set_dummy w d _) b) as [m|] eqn:Eb; [|discriminate]. injection E as <- <-.
    eapply (balanced_birth w _ a b d (Dummy (Some b) (dummy_value x)) m CopyConstructorCalled); try eassumption; try reflexivity.
    + unfold set_module, set_dummy. cbn [dummies]. now rewrite N.eqb_refl.
    + intros e Ne. unfold set_module, set_dummy. cbn [dummies]. destruct (N.eqb_spec e d); [contradiction|]. now destruct (dummies w e).
  - unfold move_dummy, dummy_place, with_dummy in E. destruct (dummies w d) eqn:Ed; [discriminate|].
    destruct (dummies w f) as [x|] eqn:Ef; [|discriminate].
    unfold push_to, with_module in E. destruct (owning_module x) as [b|] eqn:Ox; [|discriminate].
    destruct (modules (set_dummy w d _) b) as [m|] eqn:Eb; [|discriminate]. injection E as <- <-.
    assert (f <> d) by congruence.
    eapply (balanced_birth w _ a b d (Dummy (Some b) (dummy_value x)) m MoveConstructorCalled); try eassumption; try reflexivity.
    + unfold set_module, set_dummy. cbn [dummies]. destruct (N.eqb_spec d f); [congruence|]. now rewrite N.eqb_refl.
    + intros e Ne. unfold set_module, set_dummy. cbn [dummies]. destruct (N.eqb_spec e f) as [->|].
      * rewrite Ef. cbn [owning_module]. now rewrite Ox.
      * destruct (N.eqb_spec e d); [contradiction|]. now destruct (dummies w e).
  - unfold destroy_dummy, with_dummy in E. destruct (dummies w d) as [x|] eqn:Ed; [|discriminate].
    unfold push_to, with_module in E. destruct (owning_module x) as [b|] eqn:Ox; [|discriminate].
    destruct (modules w b) as [m|] eqn:Eb; [|discriminate]. injection E as <- <-.
    now apply (balanced_death w a b d x m).
  - unfold set_value, with_dummy in E. destruct (dummies w d) as [x|] eqn:Ed; [|discriminate]. injection E as <- <-.
    apply (balanced_same w); [reflexivity| |exact B]. intro e. unfold owned, set_dummy. cbn [dummies].
    destruct (N.eqb_spec e d) as [->|]; [|reflexivity]. rewrite Ed.
    split; intros (z & Ez & F); injection Ez as <-; eexists; (split; [reflexivity|exact F]).
  - unfold with_dummy in E. destruct (dummies w d) as [x|] eqn:Ed; [|discriminate]. now injection E as <- <-.
  - unfold with_module in E. destruct (modules w b) as [m|] eqn:Eb; [|discriminate]. now injection E as <- <-.
Qed.

Lemma balanced_steps : forall cs w w' r a, act_all w cs = Ok (w', r) -> forallb leaves_messages cs = true ->
  ~ In (DropModule a) cs -> balanced w a -> balanced w' a.
Proof.
  induction cs as [|c cs IH]; intros w w' r a E L Na B; cbn [act_all] in E; [now injection E as <- <-|].
  cbn [forallb] in L. apply andb_true_iff in L as [Lc Lcs].
  destruct (act w c) as [[w1 r1]| | | |] eqn:Ec; try discriminate. cbn [bind] in E.
  destruct (act_all w1 cs) as [[w2 r2]| | | |] eqn:Ecs; try discriminate. cbn [bind] in E. injection E as <- <-.
  apply (IH w1 w2 r2 a Ecs Lcs); [intro; apply Na; now right|].
  apply (balanced_step w c w1 r1 a Ec Lc); [|exact B]. intros ->. apply Na. now left.
Qed.

Lemma start_balanced : forall a, balanced empty_lab a.
Proof.
  intro a. exists []. split; [constructor|]. split; [|reflexivity].
  intro d. split; [intros []|]. intros (x & E & _). discriminate.
Qed.

(* ------------------------------------------------------------------- pops *)

Lemma all_expected_app : forall cs past ds, all_expected past (cs ++ ds) = all_expected past cs ++ all_expected (rev cs ++ past) ds.
Proof.
  induction cs as [|c cs IH]; intros past ds; cbn [app all_expected rev]; [reflexivity|].
  rewrite IH, <- !app_assoc. reflexivity.
Qed.

Lemma all_sound_app : forall cs past ds, all_sound past (cs ++ ds) = all_sound past cs && all_sound (rev cs ++ past) ds.
Proof.
  induction cs as [|c cs IH]; intros past ds; cbn [app all_sound rev]; [reflexivity|].
  rewrite IH, <- !app_assoc, andb_assoc. reflexivity.
Qed.

Lemma pops_sound : forall n past a, module_there past a = true -> all_sound past (repeat (Pop a) n) = true.
Proof.
  induction n as [|n IH]; intros past a H; cbn [repeat all_sound]; [reflexivity|].
  rewrite IH; [|exact H]. unfold sound. cbn [report]. now rewrite H.
Qed.

Lemma pops_expected : forall n past a,
  all_expected past (repeat (Pop a) n) = map AMessage (firstn n (waiting past a ++ repeat EmptyMessage n)).
Proof.
  induction n as [|n IH]; intros past a; cbn [repeat all_expected]; [reflexivity|].
  rewrite IH. cbn [expected waiting]. rewrite N.eqb_refl. destruct (waiting past a) as [|x xs] eqn:W.
  - cbn [tl app firstn map]. f_equal.
  - cbn [tl app firstn map]. f_equal. f_equal.
    change (EmptyMessage :: repeat EmptyMessage n) with (repeat EmptyMessage (S n)).
    replace (repeat EmptyMessage (S n)) with (repeat EmptyMessage n ++ [EmptyMessage]).
    2:{ clear. induction n as [|n IH]; [reflexivity|]. cbn [repeat app]. now rewrite IH. }
    rewrite app_assoc, (firstn_app n (xs ++ repeat EmptyMessage n)), app_length, repeat_length.
    replace (n - (length xs + n))%nat with O by lia. now rewrite app_nil_r.
Qed.

Lemma run_sound : forall cs, run_program cs = if all_sound [] cs then Ok (all_expected [] cs) else UB DanglingPointer.
Proof.
  intro cs. unfold run_program. pose proof (steps cs [] empty_lab start_agrees) as H. destruct (all_sound [] cs).
  - destruct H as (w & -> & _). reflexivity.
  - now rewrite H.
Qed.
