(** Proofs about chains. *)
From Coq Require Import NArith List Bool.
From Verif Require Import TypeSpec TypeModel TypeLemmas TypeLemmas2 ChainSpec ChainModel.
Import ListNotations.
Open Scope N_scope.

Lemma takes_flush_iff : forall t, takes_flush t = true <-> exists q, t = flush_type q.
Proof.
  intros t. split.
  - destruct t as [q f|q u|q u|q x|q x|q sc fx x|q t|q x|t n|t|x|t|t]; try discriminate.
    destruct sc, fx, x; try discriminate. intros _. exists q. reflexivity.
  - intros (q & ->). reflexivity.
Qed.

Lemma prints_flush : forall t, takes_flush t = false -> print_choice t <> Calls Flushes.
Proof.
  intros t T H. apply print_only in H. destruct H as [H|H]; inversion H; subst.
  rewrite (proj2 (takes_flush_iff (flush_type q))) in T by eauto. discriminate.
Qed.

(** One part alone. *)
Definition alone (z : sizes) (s : static_type) (p : part) (e : effect) : Prop := exists s', step z s p = Some (e, s').

Lemma alone_chain : forall z s p e, alone z s p e <-> chain z s [p] = Some [e].
Proof.
  intros z s p e. unfold alone. cbn [chain]. destruct (step z s p) as [[x s']|]; split; intros H; try discriminate.
  - destruct H as (s1 & H). injection H as -> _. reflexivity.
  - injection H as ->. eauto.
  - destruct H as (s1 & H). discriminate.
Qed.

(** What is left after a part. *)
Definition later (s : static_type) (e : effect) : static_type :=
  match e with
  | Shown Flushes => BaseOutput
  | Shown _ => Whole TextOut
  | Stored _ => Whole DataOut
  | Taken _ => Whole TextIn
  | Loaded _ => Whole DataIn
  end.

Lemma step_later : forall z s p e s', step z s p = Some (e, s') -> s' = later s e.
Proof.
  intros z s p e s' H. destruct p as [named t|t]; cbn [step] in H.
  - destruct (takes_flush t) eqn:T.
    + destruct s as [[]|]; cbn in H; try (injection H as <- <-; reflexivity); discriminate.
    + rewrite andb_false_r in H. destruct (text_output s).
      * pose proof (prints_flush t T). destruct (print_choice t) as [x| |]; try discriminate.
        injection H as <- <-. destruct x; try reflexivity. congruence.
      * destruct (data_output s); [|discriminate]. destruct (data_put named t); [|discriminate].
        injection H as <- <-. reflexivity.
  - destruct (text_input s).
    + destruct (read_choice z t) as [[x| |]|]; try discriminate. injection H as <- <-. reflexivity.
    + destruct (data_input s); [|discriminate]. destruct (data_get t); [|discriminate]. injection H as <- <-. reflexivity.
Qed.

(** What the whole stream does, its writing or reading part does too, and the other way
    round. *)
Lemma alone_base : forall z s p e, any_output s = true ->
  alone z BaseOutput p e <-> alone z s p e /\ e = Shown Flushes.
Proof.
  intros z s p e A. unfold alone. destruct p as [named t|t]; cbn [step any_output text_output data_output text_input data_input andb].
  - rewrite A. cbn [andb]. destruct (takes_flush t) eqn:T.
    + split.
      * intros (s' & H). injection H as <- _. eauto.
      * intros ((s' & H) & ->). eauto.
    + split; [intros (s' & H); discriminate|]. intros ((s' & H) & ->). exfalso. destruct (text_output s).
      * pose proof (prints_flush t T). destruct (print_choice t); try discriminate. congruence.
      * destruct (data_output s); [|discriminate]. destruct (data_put named t); discriminate.
  - split; [intros (s' & H); discriminate|]. intros ((s' & H) & ->). exfalso. destruct (text_input s).
    + destruct (read_choice z t) as [[]|]; discriminate.
    + destruct (data_input s); [|discriminate]. destruct (data_get t); discriminate.
Qed.

Lemma alone_out : forall z k p e, (k = TextOut \/ k = TextBoth) ->
  alone z (Whole TextOut) p e <-> alone z (Whole k) p e /\ goes_out e.
Proof.
  intros z k p e K. unfold alone. destruct p as [named t|t]; destruct K as [-> | ->];
    cbn [step any_output text_output data_output text_input data_input andb orb].
  1, 2: destruct (takes_flush t); [|destruct (print_choice t)]; (split; [intros (s' & H); inversion H; subst; (split; [eauto|exact I])|intros (H & _); exact H]).
  1, 2: split; [intros (s' & H); discriminate|]; intros ((s' & H) & G).
  - discriminate.
  - destruct (read_choice z t) as [[]|]; try discriminate. injection H as <- _. destruct G.
Qed.

Lemma alone_data_out : forall z k p e, (k = DataOut \/ k = DataBoth) ->
  alone z (Whole DataOut) p e <-> alone z (Whole k) p e /\ goes_out e.
Proof.
  intros z k p e K. unfold alone. destruct p as [named t|t]; destruct K as [-> | ->];
    cbn [step any_output text_output data_output text_input data_input andb orb].
  1, 2: destruct (takes_flush t); [|destruct (data_put named t)]; (split; [intros (s' & H); inversion H; subst; (split; [eauto|exact I])|intros (H & _); exact H]).
  1, 2: split; [intros (s' & H); discriminate|]; intros ((s' & H) & G).
  - discriminate.
  - destruct (data_get t); try discriminate. injection H as <- _. destruct G.
Qed.

Lemma alone_in : forall z k p e, (k = TextIn \/ k = TextBoth) ->
  alone z (Whole TextIn) p e <-> alone z (Whole k) p e /\ goes_in e.
Proof.
  intros z k p e K. unfold alone. destruct p as [named t|t]; destruct K as [-> | ->];
    cbn [step any_output text_output data_output text_input data_input andb orb].
  1, 2: split; [intros (s' & H); discriminate|]; intros ((s' & H) & G).
  - discriminate.
  - destruct (takes_flush t); [injection H as <- _; destruct G|]. destruct (print_choice t); try discriminate.
    injection H as <- _. destruct G.
  - destruct (read_choice z t) as [[]|]; (split; [intros (s' & H); inversion H; subst; (split; [eauto|exact I])|intros (H & _); exact H]).
  - destruct (read_choice z t) as [[]|]; (split; [intros (s' & H); inversion H; subst; (split; [eauto|exact I])|intros (H & _); exact H]).
Qed.

Lemma alone_data_in : forall z k p e, (k = DataIn \/ k = DataBoth) ->
  alone z (Whole DataIn) p e <-> alone z (Whole k) p e /\ goes_in e.
Proof.
  intros z k p e K. unfold alone. destruct p as [named t|t]; destruct K as [-> | ->];
    cbn [step any_output text_output data_output text_input data_input andb orb].
  1, 2: split; [intros (s' & H); discriminate|]; intros ((s' & H) & G).
  - discriminate.
  - destruct (takes_flush t); [injection H as <- _; destruct G|]. destruct (data_put named t); try discriminate.
    injection H as <- _. destruct G.
  - destruct (data_get t); (split; [intros (s' & H); inversion H; subst; (split; [eauto|exact I])|intros (H & _); exact H]).
  - destruct (data_get t); (split; [intros (s' & H); inversion H; subst; (split; [eauto|exact I])|intros (H & _); exact H]).
Qed.

(** A stream that only flushes, only writes or only reads. *)
Lemma chain_cons : forall z s p ps es,
  chain z s (p :: ps) = Some es <->
  exists e es', es = e :: es' /\ alone z s p e /\ chain z (later s e) ps = Some es'.
Proof.
  intros z s p ps es. cbn [chain]. unfold alone. destruct (step z s p) as [[x s']|] eqn:E.
  - rewrite (step_later _ _ _ _ _ E). destruct (chain z (later s x) ps) as [l|] eqn:C.
    + split.
      * intros H. injection H as <-. exists x, l. eauto.
      * intros (e & es' & -> & (s1 & H) & D). injection H as -> _. congruence.
    + split; [discriminate|]. intros (e & es' & -> & (s1 & H) & D). injection H as -> _. congruence.
  - split; [discriminate|]. intros (e & es' & -> & (s1 & H) & _). discriminate.
Qed.

Lemma chain_base : forall z ps es,
  chain z BaseOutput ps = Some es <-> Forall2 (alone z BaseOutput) ps es /\ Forall (eq (Shown Flushes)) es.
Proof.
  intros z. induction ps as [|p ps IH]; intros es.
  - cbn [chain]. split.
    + intros H. injection H as <-. split; constructor.
    + intros (H & _). inversion H. reflexivity.
  - rewrite chain_cons. split.
    + intros (e & es' & -> & A & C).
      destruct (proj1 (alone_base z BaseOutput p e eq_refl) A) as (_ & ->). cbn [later] in C.
      apply IH in C. destruct C as (C & D). split; constructor; auto.
    + intros (F & G). inversion F; subst. apply Forall_cons_iff in G. destruct G as (<- & G).
      eexists _, _. split; [reflexivity|]. split; [assumption|]. cbn [later]. apply IH. auto.
Qed.

Lemma flushes_last : forall es, Forall (eq (Shown Flushes)) es -> flush_last es.
Proof. induction 1; cbn [flush_last]; auto. Qed.

Lemma flushes_out : forall es, Forall (eq (Shown Flushes)) es -> Forall goes_out es.
Proof. intros es. apply Forall_impl. intros e <-. exact I. Qed.

Lemma Forall2_both : forall A B (P : A -> B -> Prop) (Q R : A -> B -> Prop) l m,
  (forall a b, P a b <-> Q a b /\ R a b) ->
  Forall2 P l m <-> Forall2 Q l m /\ Forall2 R l m.
Proof.
  intros A B P Q R l m H. split.
  - induction 1 as [|a b l m X F (I1 & I2)]; [split; constructor|]. apply H in X. destruct X. split; constructor; auto.
  - intros (F & G). revert G. induction F as [|a b l m X F IH]; intros G; [constructor|]. inversion G; subst. constructor; auto. apply H. auto.
Qed.

Lemma Forall2_snd : forall A B (R : B -> Prop) (l : list A) m,
  length l = length m -> (Forall2 (fun _ b => R b) l m <-> Forall R m).
Proof.
  intros A B R. induction l as [|a l IH]; intros [|b m] E; try discriminate.
  - split; constructor.
  - injection E as E. split; intros H; inversion H; subst; constructor; auto; now apply IH.
Qed.

Lemma Forall2_len : forall A B (P : A -> B -> Prop) l m, Forall2 P l m -> length l = length m.
Proof. induction 1; cbn; congruence. Qed.

Lemma restrict : forall z s s' (R : effect -> Prop) ps es,
  (forall p e, alone z s p e <-> alone z s' p e /\ R e) ->
  Forall2 (alone z s) ps es <-> Forall2 (alone z s') ps es /\ Forall R es.
Proof.
  intros z s s' R ps es H. rewrite (Forall2_both _ _ _ (alone z s') (fun _ e => R e)) by exact H.
  split; intros (F & G); (split; [exact F|]); [apply Forall2_snd in G|apply Forall2_snd]; auto; exact (Forall2_len _ _ _ _ _ F).
Qed.

Lemma base_restrict : forall z s ps es, any_output s = true ->
  Forall2 (alone z BaseOutput) ps es <-> Forall2 (alone z s) ps es /\ Forall (eq (Shown Flushes)) es.
Proof.
  intros z s ps es A. apply restrict. intros p e. rewrite (alone_base z s p e A).
  split; intros (X & Y); split; auto.
Qed.

(** The chains of streams that go one way. *)
Lemma chain_outwards : forall z s, any_output s = true -> 
  (forall e, goes_out e -> e <> Shown Flushes -> (exists p, alone z s p e) -> later s e = s) ->
  (forall p e, alone z s p e -> goes_out e) ->
  forall ps es, chain z s ps = Some es <-> Forall2 (alone z s) ps es /\ Forall goes_out es /\ flush_last es.
Proof.
  intros z s A L O. induction ps as [|p ps IH]; intros es.
  - cbn [chain]. split.
    + intros H. injection H as <-. repeat split; constructor.
    + intros (H & _). inversion H. reflexivity.
  - rewrite chain_cons. split.
    + intros (e & es' & -> & X & C). assert (G := O _ _ X).
      assert (D : e = Shown Flushes \/ e <> Shown Flushes).
      { destruct e as [[]| | |]; try (right; discriminate). left. reflexivity. }
      destruct D as [-> | D].
      * cbn [later] in C. apply chain_base in C. destruct C as (C & F).
        apply (base_restrict z s ps es' A) in C. destruct C as (C & _).
        split; [constructor; assumption|]. split; [constructor; [exact I|now apply flushes_out]|].
        cbn [flush_last]. split; [auto|now apply flushes_last].
      * rewrite L in C by eauto. apply IH in C. destruct C as (C & F & W).
        split; [constructor; assumption|]. split; [constructor; assumption|]. cbn [flush_last]. split; [congruence|exact W].
    + intros (F & G & W). inversion F as [|p' e ps' es' X F']; subst. apply Forall_cons_iff in G. destruct G as (G & G').
      cbn [flush_last] in W. destruct W as (W & W').
      exists e, es'. split; [reflexivity|]. split; [exact X|].
      assert (D : e = Shown Flushes \/ e <> Shown Flushes).
      { destruct e as [[]| | |]; try (right; discriminate). left. reflexivity. }
      destruct D as [-> | D].
      * cbn [later]. apply chain_base. split; [|auto]. apply (base_restrict z s ps es' A). auto.
      * rewrite L by eauto. apply IH. auto.
Qed.

Lemma chain_inwards : forall z s, 
  (forall e, (exists p, alone z s p e) -> later s e = s) ->
  forall ps es, chain z s ps = Some es <-> Forall2 (alone z s) ps es.
Proof.
  intros z s L. induction ps as [|p ps IH]; intros es.
  - cbn [chain]. split; [intros H; injection H as <-; constructor|]. intros H. inversion H. reflexivity.
  - rewrite chain_cons. split.
    + intros (e & es' & -> & X & C). rewrite L in C by eauto. apply IH in C. constructor; assumption.
    + intros F. inversion F as [|p' e ps' es' X F']; subst. exists e, es'. split; [reflexivity|]. split; [exact X|].
      rewrite L by eauto. now apply IH.
Qed.

Lemma in_last : forall es, Forall goes_in es -> flush_last es.
Proof. induction 1 as [|e es H F IH]; cbn [flush_last]; [exact I|]. split; [|exact IH]. intros ->. destruct H. Qed.

Lemma goes : forall z s p e, alone z s p e -> match p with Put _ _ => goes_out e | Get _ => goes_in e end.
Proof.
  intros z s p e (s' & H). destruct p as [named t|t]; cbn [step] in H.
  - destruct (any_output s && takes_flush t); [injection H as <- _; exact I|]. destruct (text_output s).
    + destruct (print_choice t); try discriminate. injection H as <- _. exact I.
    + destruct (data_output s); [|discriminate]. destruct (data_put named t); [|discriminate]. injection H as <- _. exact I.
  - destruct (text_input s).
    + destruct (read_choice z t) as [[]|]; try discriminate. injection H as <- _. exact I.
    + destruct (data_input s); [|discriminate]. destruct (data_get t); [|discriminate]. injection H as <- _. exact I.
Qed.

Lemma later_stays : forall z k e, k <> TextBoth -> k <> DataBoth -> e <> Shown Flushes ->
  (exists p, alone z (Whole k) p e) -> later (Whole k) e = Whole k.
Proof.
  intros z k e K1 K2 D (p & s' & H). destruct e as [x|r|f|f]; cbn [later].
  - destruct p as [named t|t]; cbn [step] in H.
    + destruct (any_output (Whole k) && takes_flush t); [injection H as <- _; congruence|].
      destruct k; try congruence; cbn [text_output data_output] in H; try discriminate.
      * destruct (print_choice t); try discriminate. destruct x; congruence.
      * destruct (data_put named t); discriminate.
    + destruct (text_input (Whole k)); [destruct (read_choice z t) as [[]|]; discriminate|].
      destruct (data_input (Whole k)); [|discriminate]. destruct (data_get t); discriminate.
  - destruct p as [named t|t]; cbn [step] in H.
    + destruct (any_output (Whole k) && takes_flush t); [discriminate|].
      destruct (text_output (Whole k)); [destruct (print_choice t); discriminate|].
      destruct (data_output (Whole k)); [|discriminate]. destruct (data_put named t); discriminate.
    + destruct k; try congruence; cbn [text_input data_input] in H; try discriminate. destruct (data_get t); discriminate.
  - destruct p as [named t|t]; cbn [step] in H.
    + destruct (any_output (Whole k) && takes_flush t); [discriminate|].
      destruct k; try congruence; cbn [text_output data_output] in H; try discriminate.
      destruct (print_choice t); discriminate.
    + destruct (text_input (Whole k)); [destruct (read_choice z t) as [[]|]; discriminate|].
      destruct (data_input (Whole k)); [|discriminate]. destruct (data_get t); discriminate.
  - destruct p as [named t|t]; cbn [step] in H.
    + destruct (any_output (Whole k) && takes_flush t); [discriminate|].
      destruct (text_output (Whole k)); [destruct (print_choice t); discriminate|].
      destruct (data_output (Whole k)); [|discriminate]. destruct (data_put named t); discriminate.
    + destruct k; try congruence; cbn [text_input data_input] in H; try discriminate.
      destruct (read_choice z t) as [[]|]; discriminate.
Qed.

Lemma out_only : forall z k p e, k = TextOut \/ k = DataOut -> alone z (Whole k) p e -> goes_out e.
Proof.
  intros z k p e K X. pose proof (goes _ _ _ _ X). destruct p; [assumption|].
  destruct X as (s' & X). destruct K as [-> | ->]; discriminate.
Qed.

Lemma in_only : forall z k p e, k = TextIn \/ k = DataIn -> alone z (Whole k) p e -> goes_in e.
Proof.
  intros z k p e K X. pose proof (goes _ _ _ _ X). destruct p; [|assumption].
  destruct X as (s' & X). destruct K as [-> | ->]; discriminate.
Qed.

Lemma out_chain : forall z k, k = TextOut \/ k = DataOut -> forall ps es,
  chain z (Whole k) ps = Some es <-> Forall2 (alone z (Whole k)) ps es /\ Forall goes_out es /\ flush_last es.
Proof.
  intros z k K. apply chain_outwards.
  - destruct K as [-> | ->]; reflexivity.
  - intros e _ D X. apply (later_stays z); auto; destruct K as [-> | ->]; discriminate.
  - intros p e. now apply out_only.
Qed.

Lemma in_chain : forall z k, k = TextIn \/ k = DataIn -> forall ps es,
  chain z (Whole k) ps = Some es <-> Forall2 (alone z (Whole k)) ps es.
Proof.
  intros z k K. apply chain_inwards. intros e (p & X). apply (later_stays z); eauto; try (destruct K as [-> | ->]; discriminate).
  intros ->. exact (in_only z k p (Shown Flushes) K X).
Qed.

Lemma Forall2_out : forall A (P : A -> effect -> Prop) l es, (forall a e, P a e -> goes_in e) -> Forall2 P l es -> Forall goes_in es.
Proof. intros A P l es H. induction 1; constructor; eauto. Qed.

(** The first part decides the direction. *)
Lemma way_out : forall e es, goes_out e -> one_way (e :: es) <-> Forall goes_out es.
Proof.
  intros e es G. unfold one_way. split.
  - intros [H|H]; apply Forall_cons_iff in H; destruct H as (H & H'); [exact H'|]. destruct e; cbn in *; tauto.
  - intros H. left. constructor; assumption.
Qed.

Lemma way_in : forall e es, goes_in e -> one_way (e :: es) <-> Forall goes_in es.
Proof.
  intros e es G. unfold one_way. split.
  - intros [H|H]; apply Forall_cons_iff in H; destruct H as (H & H'); [|exact H']. destruct e; cbn in *; tauto.
  - intros H. right. constructor; assumption.
Qed.

(** After a first part e of a stream k, the rest is as before but goes the same way. *)
Lemma rest : forall z k p e, alone z (Whole k) p e -> forall ps es,
  chain z (later (Whole k) e) ps = Some es <->
  Forall2 (alone z (Whole k)) ps es /\ one_way (e :: es) /\ flush_last (e :: es).
Proof.
  intros z k p e X ps es.
  assert (D : e = Shown Flushes \/ e <> Shown Flushes).
  { destruct e as [[]| | |]; try (right; discriminate). left. reflexivity. }
  assert (G := goes _ _ _ _ X).
  destruct D as [-> | D].
  { cbn [later]. rewrite chain_base. destruct p; [|destruct G]. rewrite way_out by exact I.
    assert (A : any_output (Whole k) = true).
    { destruct X as (s' & X). destruct k; try reflexivity; discriminate X. }
    rewrite (base_restrict z (Whole k) ps es A). cbn [flush_last]. split.
    - intros ((F & W) & _). split; [exact F|]. split; [now apply flushes_out|]. split; [auto|now apply flushes_last].
    - intros (F & W & V & _). auto. }
  cbn [flush_last]. destruct e as [x|r|f|f]; cbn [later].
  - assert (K : k = TextOut \/ k = TextBoth).
    { destruct X as (s' & X). destruct p as [named t|t]; cbn [step] in X.
      - destruct (any_output (Whole k) && takes_flush t); [injection X as <- _; congruence|].
        destruct k; auto; cbn in X; try discriminate; destruct (data_put named t); discriminate.
      - destruct (text_input (Whole k)); [destruct (read_choice z t) as [[]|]; discriminate|].
        destruct (data_input (Whole k)); [|discriminate]. destruct (data_get t); discriminate. }
    assert (E : match x with Flushes => BaseOutput | _ => Whole TextOut end = Whole TextOut) by (destruct x; congruence).
    rewrite E, (out_chain z TextOut) by auto. rewrite way_out by exact I.
    rewrite (restrict z _ (Whole k) goes_out) by (intros; now apply alone_out).
    split; [intros ((F & W) & _ & L); repeat split; auto; congruence|]. intros (F & W & _ & L). auto.
  - assert (K : k = TextIn \/ k = TextBoth).
    { destruct X as (s' & X). destruct p as [named t|t]; cbn [step] in X; [destruct G|].
      destruct k; auto; cbn in X; try discriminate; destruct (data_get t); discriminate. }
    rewrite (in_chain z TextIn) by auto. rewrite way_in by exact I.
    rewrite (restrict z _ (Whole k) goes_in) by (intros; now apply alone_in).
    split; [intros (F & W); repeat split; auto; [congruence|now apply in_last]|]. intros (F & W & _). auto.
  - assert (K : k = DataOut \/ k = DataBoth).
    { destruct X as (s' & X). destruct p as [named t|t]; cbn [step] in X; [|destruct G].
      destruct (any_output (Whole k) && takes_flush t); [discriminate|].
      destruct k; auto; cbn in X; try discriminate; destruct (print_choice t); discriminate. }
    rewrite (out_chain z DataOut) by auto. rewrite way_out by exact I.
    rewrite (restrict z _ (Whole k) goes_out) by (intros; now apply alone_data_out).
    split; [intros ((F & W) & _ & L); repeat split; auto; congruence|]. intros (F & W & _ & L). auto.
  - assert (K : k = DataIn \/ k = DataBoth).
    { destruct X as (s' & X). destruct p as [named t|t]; cbn [step] in X; [destruct G|].
      destruct k; auto; cbn in X; try discriminate; destruct (read_choice z t) as [[]|]; discriminate. }
    rewrite (in_chain z DataIn) by auto. rewrite way_in by exact I.
    rewrite (restrict z _ (Whole k) goes_in) by (intros; now apply alone_data_in).
    split; [intros (F & W); repeat split; auto; [congruence|now apply in_last]|]. intros (F & W & _). auto.
Qed.

Lemma chain_all : forall z k ps es,
  chain z (Whole k) ps = Some es <-> Forall2 (alone z (Whole k)) ps es /\ one_way es /\ flush_last es.
Proof.
  intros z k [|p ps] es.
  - cbn [chain]. split.
    + intros H. injection H as <-. repeat split; constructor. constructor.
    + intros (H & _). inversion H. reflexivity.
  - rewrite chain_cons. split.
    + intros (e & es' & -> & X & C). apply (rest z k p e X) in C. destruct C as (C & W & L).
      split; [constructor; assumption|auto].
    + intros (F & W & L). inversion F as [|p' e ps' es' X F']; subst. exists e, es'. split; [reflexivity|].
      split; [exact X|]. apply (rest z k p e X). auto.
Qed.
