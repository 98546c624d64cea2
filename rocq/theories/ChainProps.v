(** C125 and C126: chains of << and >>, and what data streams take. *)
From Coq Require Import NArith List Bool.
From Verif Require Import TypeSpec TypeModel TypeLemmas TypeLemmas2 ChainSpec ChainModel ChainLemmas.
Import ListNotations.
Open Scope N_scope.

(* ------------------------------------------------------------------ C125 *)

(** The property: "a chain of << and >> on a stream does what its parts do one by one, in
    this order; it compiles if each of them compiles alone."

    Proved for every kind of stream and chains of every length, for chains that only
    write or only read and where nothing but flushes follows a flush; and these are
    exactly the chains that compile.  Missing: the others; see below. *)
Theorem C125_chains_partial : forall z k ps es,
  chain z (Whole k) ps = Some es <->
  Forall2 (fun p e => chain z (Whole k) [p] = Some [e]) ps es /\ one_way es /\ flush_last es.
Proof.
  intros z k ps es. rewrite chain_all. split; intros (F & W); (split; [|exact W]); revert F;
    clear W; induction 1; constructor; auto; now apply alone_chain.
Qed.
Print Assumptions C125_chains_partial.

Definition usual_sizes : sizes := Sizes 4 (fun _ => 32).

(** uout << "Entered value: " << input << '\n' << cmp::flush, as in test_uio.cpp *)
Example C125_chains_example :
  chain usual_sizes (Whole TextOut)
    [Put true (Array (Basic constant (Unit Char)) 16); Put true (Basic plain (Integer 3));
     Put false (Basic plain (Unit Char)); Put true (flush_type plain)]
  = Some [Shown (AsText Char); Shown AsInteger; Shown AsCharacter; Shown Flushes].
Proof. vm_compute. reflexivity. Qed.

(** What single parts do: on text streams, what << and >> do with a value of that type
    (C122, C123); on streams that write and read, what they do on a stream that only
    writes or only reads. *)
Theorem C125_parts : forall z,
  (forall named t s, chain z (Whole TextOut) [Put named t] = Some [Shown s] <-> as_hoped t s \/ surprise t s) /\
  (forall t r, chain z (Whole TextIn) [Get t] = Some [Taken r] <-> read_choice z t = Some (Calls r)) /\
  (forall p e, chain z (Whole TextBoth) [p] = Some [e] <->
     chain z (Whole TextOut) [p] = Some [e] \/ chain z (Whole TextIn) [p] = Some [e]) /\
  (forall p e, chain z (Whole DataBoth) [p] = Some [e] <->
     chain z (Whole DataOut) [p] = Some [e] \/ chain z (Whole DataIn) [p] = Some [e]).
Proof.
  intros z. split; [|split; [|split]].
  - intros named t s. transitivity (print_choice t = Calls s).
    2:{ split; [apply print_only|]. intros [X|X]; [now apply print_hoped|now apply print_surprise]. }
    rewrite <- alone_chain. unfold alone. cbn [step any_output text_output orb andb].
    destruct (takes_flush t) eqn:T.
    + apply takes_flush_iff in T. destruct T as (q & ->). split.
      * intros (s' & H). injection H as <- _. reflexivity.
      * intros H. injection H as <-. eauto.
    + destruct (print_choice t) as [x| |]; split; intros H; try discriminate; try (destruct H as (s' & H); discriminate).
      * destruct H as (s' & H). injection H as -> _. reflexivity.
      * injection H as ->. eauto.
  - intros t r. rewrite <- alone_chain. unfold alone. cbn [step text_input].
    destruct (read_choice z t) as [[x| |]|]; split; intros H; try discriminate; try (destruct H as (s' & H); discriminate).
    + destruct H as (s' & H). injection H as -> _. reflexivity.
    + injection H as ->. eauto.
  - intros p e. rewrite <- !alone_chain. split.
    + intros X. assert (G := goes _ _ _ _ X). destruct p.
      * left. apply (alone_out z TextBoth); auto.
      * right. apply (alone_in z TextBoth); auto.
    + intros [X|X]; [apply (alone_out z TextBoth) in X|apply (alone_in z TextBoth) in X]; tauto.
  - intros p e. rewrite <- !alone_chain. split.
    + intros X. assert (G := goes _ _ _ _ X). destruct p.
      * left. apply (alone_data_out z DataBoth); auto.
      * right. apply (alone_data_in z DataBoth); auto.
    + intros [X|X]; [apply (alone_data_out z DataBoth) in X|apply (alone_data_in z DataBoth) in X]; tauto.
Qed.
Print Assumptions C125_parts.

Example C125_parts_example :
  as_hoped (View constant Char16) (AsText Char16) /\
  read_choice usual_sizes (Basic plain (Integer 3)) = Some (Calls OneInteger).
Proof. split; [constructor|vm_compute; reflexivity]. Qed.

(** Nothing but another flush can follow a flush, on no stream. *)
Theorem C125_flush_refuted : forall z k q named t ps, (forall q', t <> flush_type q') ->
  chain z (Whole k) (Put true (flush_type q) :: Put named t :: ps) = None.
Proof.
  intros z k q named t ps H.
  destruct (chain z (Whole k) (Put true (flush_type q) :: Put named t :: ps)) as [es|] eqn:E; [|reflexivity].
  apply chain_cons in E. destruct E as (e & es' & -> & X & E).
  assert (e = Shown Flushes) as ->.
  { destruct X as (s' & X). destruct k; vm_compute in X; congruence. }
  cbn [later] in E. apply chain_cons in E. destruct E as (e & es2 & -> & (s' & Y) & _). cbn [step any_output] in Y.
  destruct (takes_flush t) eqn:T; [|discriminate Y]. apply takes_flush_iff in T. destruct T as (q' & ->).
  destruct (H q'). reflexivity.
Qed.
Print Assumptions C125_flush_refuted.

(** Both parts of stream << flush << "hello" compile alone. *)
Example C125_flush_example :
  chain usual_sizes (Whole TextOut) [Put true (flush_type plain)] = Some [Shown Flushes] /\
  chain usual_sizes (Whole TextOut) [Put true (Array (Basic constant (Unit Char)) 6)] = Some [Shown (AsText Char)] /\
  chain usual_sizes (Whole TextOut) [Put true (flush_type plain); Put true (Array (Basic constant (Unit Char)) 6)] = None.
Proof. repeat split; vm_compute; reflexivity. Qed.

(** A stream that can both write and read cannot do both in one chain. *)
Theorem C125_turn_refuted : forall z k named t t' ps,
  chain z (Whole k) (Put named t :: Get t' :: ps) = None /\ chain z (Whole k) (Get t' :: Put named t :: ps) = None.
Proof.
  intros z k named t t' ps. split.
  - destruct (chain z (Whole k) (Put named t :: Get t' :: ps)) as [es|] eqn:E; [|reflexivity].
    apply chain_all in E. destruct E as (F & W & _). inversion F as [|p e l l' X F1]; subst.
    inversion F1 as [|p e' l l'' Y F2]; subst. apply goes in X, Y. apply (way_out e) in W; [|exact X].
    apply Forall_inv in W. destruct e'; cbn in *; tauto.
  - destruct (chain z (Whole k) (Get t' :: Put named t :: ps)) as [es|] eqn:E; [|reflexivity].
    apply chain_all in E. destruct E as (F & W & _). inversion F as [|p e l l' X F1]; subst.
    inversion F1 as [|p e' l l'' Y F2]; subst. apply goes in X, Y. apply (way_in e) in W; [|exact X].
    apply Forall_inv in W. destruct e'; cbn in *; tauto.
Qed.
Print Assumptions C125_turn_refuted.

Example C125_turn_example :
  chain usual_sizes (Whole DataBoth) [Put true (Basic plain (Integer 3))] = Some [Stored (Integer 3)] /\
  chain usual_sizes (Whole DataBoth) [Get (Basic plain (Integer 3))] = Some [Loaded (Integer 3)].
Proof. split; vm_compute; reflexivity. Qed.

(* ------------------------------------------------------------------ C126 *)

(** The property: "data streams write and read objects of fundamental type, and of no
    other; what can be read can also be written."

    Proved for every type: variables of fundamental type that are not volatile can be
    written as what they are, those that are not const either can be read, nothing else
    can.  Missing: volatile variables, and values that are not variables; see below. *)
Theorem C126_objects_partial : forall z k t f,
  (writes_data k ->
   chain z (Whole k) [Put true t] = Some [Stored f] <-> f <> Void /\ exists c, t = Basic (Cv c false) f) /\
  (reads_data k ->
   chain z (Whole k) [Get t] = Some [Loaded f] <-> f <> Void /\ t = Basic plain f) /\
  (writes_data k -> reads_data k ->
   chain z (Whole k) [Get t] = Some [Loaded f] -> chain z (Whole k) [Put true t] = Some [Stored f]).
Proof.
  assert (A : forall z k t f, writes_data k ->
    chain z (Whole k) [Put true t] = Some [Stored f] <-> f <> Void /\ exists c, t = Basic (Cv c false) f).
  { intros z k t f K. rewrite <- alone_chain. split.
    - intros (s' & H). cbn [step] in H. destruct (any_output (Whole k) && takes_flush t); [discriminate|].
      assert (D : exists g, data_put true t = Some g /\ g = f).
      { destruct K as [-> | ->]; cbn [text_output data_output] in H; (destruct (data_put true t); [|discriminate]); injection H as -> _; eauto. }
      destruct D as (g & D & ->). destruct t as [[c v] g| | | | | | | | | | | |]; try discriminate D.
      destruct g; try discriminate D; (destruct v; [discriminate D|]); injection D as <-; (split; [discriminate|eauto]).
    - intros (V & c & ->). exists (Whole DataOut). cbn [step].
      replace (takes_flush (Basic (Cv c false) f)) with false by reflexivity. rewrite andb_false_r.
      destruct K as [-> | ->]; cbn [text_output data_output data_put]; destruct f; try congruence; reflexivity. }
  assert (B : forall z k t f, reads_data k ->
    chain z (Whole k) [Get t] = Some [Loaded f] <-> f <> Void /\ t = Basic plain f).
  { intros z k t f K. rewrite <- alone_chain. split.
    - intros (s' & H). cbn [step] in H.
      assert (D : exists g, data_get t = Some g /\ g = f).
      { destruct K as [-> | ->]; cbn [text_input data_input] in H; (destruct (data_get t); [|discriminate]); injection H as -> _; eauto. }
      destruct D as (g & D & ->). destruct t as [[c v] g| | | | | | | | | | | |]; try discriminate D.
      destruct g; try discriminate D; destruct v, c; try discriminate D; injection D as <-; (split; [discriminate|reflexivity]).
    - intros (V & ->). exists (Whole DataIn). cbn [step].
      destruct K as [-> | ->]; cbn [text_input data_input data_get]; destruct f; try congruence; reflexivity. }
  intros z k t f. split; [apply A|]. split; [apply B|]. intros W R H. apply B in H; [|exact R]. destruct H as (V & ->).
  apply A; [exact W|]. split; [exact V|]. exists false. reflexivity.
Qed.
Print Assumptions C126_objects_partial.

(** const double *)
Example C126_objects_example :
  writes_data DataBoth /\ reads_data DataBoth /\
  chain usual_sizes (Whole DataBoth) [Put true (Basic constant (Floating 2))] = Some [Stored (Floating 2)] /\
  chain usual_sizes (Whole DataBoth) [Get (Basic constant (Floating 2))] = None /\
  chain usual_sizes (Whole DataBoth) [Get (Basic plain (Floating 2))] = Some [Loaded (Floating 2)].
Proof. repeat split; try (vm_compute; reflexivity); right; reflexivity. Qed.

(** No literal, sum or function result can be written, whatever its type: stream << 5
    does not compile. *)
Theorem C126_temporaries_refuted : forall z k t f, chain z (Whole k) [Put false t] <> Some [Stored f].
Proof.
  intros z k t f H. apply alone_chain in H. destruct H as (s' & H). cbn [step] in H.
  destruct (any_output (Whole k) && takes_flush t); [discriminate|].
  destruct (text_output (Whole k)); [destruct (print_choice t); discriminate|].
  destruct (data_output (Whole k)); discriminate.
Qed.
Print Assumptions C126_temporaries_refuted.

Example C126_temporaries_example : chain usual_sizes (Whole DataOut) [Put false (Basic plain (Integer 3))] = None.
Proof. reflexivity. Qed.

(** Volatile variables of fundamental type neither. *)
Theorem C126_volatile_refuted : forall z c f,
  chain z (Whole DataBoth) [Put true (Basic (Cv c true) f)] = None /\
  chain z (Whole DataBoth) [Get (Basic (Cv c true) f)] = None.
Proof. intros z c f. destruct f, c; split; reflexivity. Qed.
Print Assumptions C126_volatile_refuted.
