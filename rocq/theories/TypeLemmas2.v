(** Proofs about overloads. *)
From Coq Require Import NArith List Bool Lia ZifyBool ZifyN.
From Verif Require Import TypeSpec TypeModel TypeLemmas.
Import ListNotations.
Open Scope N_scope.

Definition target_of (t : ty) : option ty :=
  match t with
  | Pointer _ t' | Array t' _ | OpenArray t' => Some t'
  | Function n => Some (Function n)
  | _ => None
  end.

Lemma pointer_like_target : forall t t', pointer_like t t' <-> target_of t = Some t'.
Proof.
  intros t t'. split.
  - intros []; reflexivity.
  - destruct t; cbn; try discriminate; intros H; injection H as <-; constructor.
Qed.

(** Whether t' is a unit that can be read, and which. *)
Lemma readable_dec : forall t', (exists u, readable_unit u t') \/ (forall u, ~ readable_unit u t').
Proof.
  intros t'. destruct t' as [[c v] f| | | | | | | | | | | |]; try (right; intros ? X; inversion X; fail).
  destruct v; [right; intros u X; inversion X|].
  destruct f; try (right; intros u0 X; inversion X; fail). left. exists u. constructor.
Qed.

Lemma print_units : forall t t' u, pointer_like t t' -> readable_unit u t' -> print_choice t = Calls (AsText u).
Proof.
  intros t t' u P R. apply pointer_like_target in P. inversion R; subst. clear R.
  destruct t; cbn in P; try discriminate; injection P as ->; destruct u, c; reflexivity.
Qed.

Lemma print_pointers : forall t t', pointer_like t t' -> (forall u, ~ readable_unit u t') -> print_choice t = Calls AsBool.
Proof.
  intros t t' P R. apply pointer_like_target in P.
  destruct t; cbn in P; try discriminate; injection P as <-; try reflexivity.
  - destruct t as [[c v] f| | | | | | | | | | | |]; try reflexivity.
    destruct v; [destruct f; reflexivity|]. destruct f; try reflexivity. destruct (R u). constructor.
  - destruct t as [[c v] f| | | | | | | | | | | |]; try reflexivity.
    destruct v; [destruct f; reflexivity|]. destruct f; try reflexivity. destruct (R u). constructor.
  - destruct t as [[c v] f| | | | | | | | | | | |]; try reflexivity.
    destruct v; [destruct f; reflexivity|]. destruct f; try reflexivity. destruct (R u). constructor.
Qed.

Lemma print_hoped : forall t s, as_hoped t s -> print_choice t = Calls s.
Proof.
  intros t s X. destruct X as [q u U|q|q n|q n|q|c u|c u|t t' u P R]; try reflexivity.
  - destruct U as [-> | ->]; reflexivity.
  - destruct u; reflexivity.
  - destruct u; reflexivity.
  - eapply print_units; eassumption.
Qed.

Lemma print_surprise : forall t s, surprise t s -> print_choice t = Calls s.
Proof.
  intros t s X. destruct X as [q u U|t t' P R|q n|q u n U|q n]; try reflexivity.
  - destruct U as [-> | [-> | ->]]; reflexivity.
  - eapply print_pointers; eassumption.
  - destruct U as [-> | ->]; reflexivity.
Qed.

Lemma print_pointer_like : forall t t' s, target_of t = Some t' -> print_choice t = Calls s -> as_hoped t s \/ surprise t s.
Proof.
  intros t t' s P H. apply pointer_like_target in P. destruct (readable_dec t') as [(u & R)|R].
  - rewrite (print_units t t' u P R) in H. injection H as <-. left. eapply H_units; eassumption.
  - rewrite (print_pointers t t' P R) in H. injection H as <-. right. eapply X_pointer; eassumption.
Qed.

Lemma print_only : forall t s, print_choice t = Calls s -> as_hoped t s \/ surprise t s.
Proof.
  intros t s H.
  destruct t as [q f|[c v] u|[c v] u|q x|q x|q sc fx x|q t|q x|t n|t|x|t|t];
    try (eapply print_pointer_like; [reflexivity|exact H]).
  - destruct f as [| | |u|n|n]; try discriminate H.
    + injection H as <-. left. constructor.
    + destruct u; injection H as <-.
      * left. constructor. auto.
      * right. constructor. auto.
      * right. constructor. auto.
      * left. constructor. auto.
      * right. constructor. auto.
    + injection H as <-. left. constructor.
    + injection H as <-. left. constructor.
  - destruct v; [destruct u; discriminate H|]. assert (E : print_choice (Text (Cv c false) u) = Calls (AsText u)) by (destruct u; reflexivity).
    rewrite E in H. injection H as <-. left. constructor.
  - destruct v; [destruct u; discriminate H|]. assert (E : print_choice (View (Cv c false) u) = Calls (AsText u)) by (destruct u; reflexivity).
    rewrite E in H. injection H as <-. left. constructor.
  - discriminate H.
  - discriminate H.
  - destruct sc; [destruct fx; [discriminate H|]; destruct x; [|discriminate H]; injection H as <-; left; constructor|]. destruct fx as [f|]; [|discriminate H].
    destruct f as [| | |u|n|n]; try discriminate H.
    + injection H as <-. right. constructor.
    + destruct u; try discriminate H; injection H as <-; right; constructor; auto.
  - injection H as <-. right. constructor.
  - discriminate H.
  - discriminate H.
Qed.

(** The choices that do not depend on what is volatile. *)
Lemma steady_text : forall u t, text_in u t -> steady t -> as_hoped t (AsText u).
Proof.
  intros u t X S. destruct X as [q|q|c q|q n].
  - inversion S; subst. constructor.
  - inversion S; subst. constructor.
  - inversion S; subst. eapply H_units; [constructor|constructor].
  - inversion S; subst. eapply H_units; [constructor|constructor].
Qed.

Lemma steady_sized : forall t, steady t -> (forall e n, t = Array e n -> 1 <= n) -> sized t.
Proof. intros t S A. destruct S; cbn [sized]; auto. split; [exact I|]. eapply A. reflexivity. Qed.

Lemma steady_drop : forall u t, text_in u t -> steady t ->
  string_size_choice (add_const (drop_const t)) = Calls u /\ by_code_point_choice (add_const (drop_const t)) = Calls u.
Proof.
  intros u t X S. destruct X as [q|q|c q|q n]; inversion S; subst; destruct u; split; reflexivity.
Qed.

Lemma drop_text : forall u t, text_in u t -> text_in u (drop_const t).
Proof. intros u t X. destruct X as [q|q|c q|q n]; cbn; constructor. Qed.

Lemma drop_sized : forall u t, text_in u t -> sized t -> sized (drop_const t).
Proof. intros u t X S. destruct X as [q|q|c q|q n]; cbn in *; tauto. Qed.

Lemma takes_steady : forall z u t, 0 < wide_size z -> sized t -> text_in u t -> steady t -> takes_text z t = Some u.
Proof.
  intros z u t W Sz X S. unfold takes_text. destruct (steady_drop u t X S) as (A & B). rewrite A, B.
  destruct (any_text z (drop_const t) W (drop_sized u t X Sz)) as [(-> & _)|(_ & Hn)].
  - destruct (unit_eq_dec u u); congruence.
  - exfalso. apply Hn. exists u. now apply drop_text.
Qed.

Lemma takes_only : forall z u t, 0 < wide_size z -> sized t -> text_in u t -> ~ steady t -> takes_text z t = None.
Proof.
  intros z u t W Sz X S. unfold takes_text. destruct (is_text_object_v z (drop_const t)) as [[]|]; try reflexivity.
  assert (E : string_size_choice (add_const (drop_const t)) = NoMatch).
  { destruct X as [[c v]|[c v]|c [c' v]|[c v] n]; destruct v; try (exfalso; apply S; constructor); destruct u; reflexivity. }
  now rewrite E.
Qed.

Lemma validated : forall z u t, 0 < wide_size z -> sized t -> text_in u t -> steady t ->
  takes_validated_text z t = Some u <-> (exists c, t = Text (Cv c false) u) \/ (exists c n, t = Array (Basic (Cv c false) (Unit u)) n).
Proof.
  intros z u t W Sz X S. assert (T := takes_steady z u t W Sz X S).
  unfold takes_validated_text. rewrite T. clear T.
  destruct X as [q|q|c q|q n]; inversion S; subst; cbn [drop_const requalify value_type is_volatile].
  - destruct (cv_eq_dec plain plain) as [_|Hn]; [|congruence]. destruct (unit_eq_dec u u); [|congruence]. split; eauto.
  - destruct (cv_eq_dec constant plain) as [Hn|_]; [discriminate|]. split; [discriminate|].
    intros [(c' & H)|(c' & n & H)]; discriminate.
  - split; [discriminate|]. intros [(c1 & H)|(c1 & n & H)]; discriminate.
  - destruct (cv_eq_dec (Cv false false) plain) as [_|Hn]; [|now destruct Hn]. destruct (unit_eq_dec u u); [|congruence]. split; eauto.
Qed.

(** Reading. *)
Lemma read_hoped : forall z t s r, 0 < wide_size z -> sized t -> print_choice t = Calls s ->
  read_choice z t = Some (Calls r) -> (forall q, t <> Basic q (Unit Char)) ->
  (forall c f, t <> Basic (Cv c true) f) -> 
  reads_back s r \/ (exists q u, (u = Char8 \/ u = Char16 \/ u = Wide) /\ t = Basic q (Unit u) /\ s = AsInteger /\ r = OneInteger).
Proof.
  intros z t s r W Sz P R N V. destruct (all_traits z t W Sz) as (_ & _ & T & _). unfold read_choice in R.
  destruct T as [(E & u & v & ->)|(E & Hn)]; rewrite E in R.
  - cbn [is_volatile] in R. destruct v; [discriminate|]. injection R as <-.
    rewrite (print_hoped _ _ (H_string false u)) in P. injection P as <-. left. constructor.
  - destruct t as [q f| | | | | | | | | | | |]; try discriminate R.
    destruct q as [c v]. destruct v; [exfalso; eapply V; reflexivity|].
    destruct f as [| | |u|n|n]; try discriminate P.
    + destruct c; [discriminate R|]. cbv in P, R. injection P as <-. injection R as <-. left. constructor.
    + destruct u, c; try discriminate R.
      * exfalso. eapply N. reflexivity.
      * cbv in P, R. injection P as <-. injection R as <-. right. eexists _, _. split; [|split; [reflexivity|auto]]. auto.
      * cbv in P, R. injection P as <-. injection R as <-. right. eexists _, _. split; [|split; [reflexivity|auto]]. auto.
      * cbv in P, R. injection P as <-. injection R as <-. left. constructor.
      * cbv in P, R. injection P as <-. injection R as <-. right. eexists _, _. split; [|split; [reflexivity|auto]]. auto.
    + destruct c; [discriminate R|]. cbv in P, R. injection P as <-. injection R as <-. left. constructor.
    + destruct c; [discriminate R|]. cbv in P, R. injection P as <-. injection R as <-. left. constructor.
Qed.
