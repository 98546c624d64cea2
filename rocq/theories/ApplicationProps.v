(** The application object: the properties. *)
From Coq Require Import NArith ZArith List Bool Lia ZifyBool ZifyN.
From Verif Require Import Base ApplicationModel.
Import ListNotations.
Open Scope N_scope.

(** The live objects after a history, the one constructed last first.  The
    history is given newest call first. *)
Fixpoint alive (newest_first : list call) : list N :=
  match newest_first with
  | [] => []
  | Construct a _ _ :: h | MoveConstruct _ a :: h => a :: alive h
  | Destroy a :: h => filter (fun b => negb (a =? b)) (alive h)
  | _ :: h => alive h
  end.

(** What app() should return. *)
Definition expected (h : list call) : option N := hd_error (alive (rev h)).

(** The object constructed (not by moving) last, dead or alive. *)
Fixpoint last_constructed (newest_first : list call) : option N :=
  match newest_first with
  | [] => None
  | Construct a _ _ :: _ => Some a
  | _ :: h => last_constructed h
  end.

(** A call that neither constructs an object nor ends the life of [a] nor replaces
    its value. *)
Definition leaves (a : N) (c : call) : Prop :=
  match c with
  | Construct _ _ _ | MoveConstruct _ _ => False
  | MoveAssign _ to => to <> a
  | SetNotice _ _ => True
  | Destroy b => b <> a
  end.

Lemma perform_all_app : forall a w b, perform_all w (a ++ b) = bind (perform_all w a) (fun w' => perform_all w' b).
Proof.
  induction a as [|c a IH]; intros w b; [reflexivity|]. cbn [List.app perform_all].
  destruct (perform w c); cbn [bind]; auto.
Qed.

Ltac perform_cases H :=
  unfold perform in H;
  repeat match type of H with
  | context [match find ?a ?l with _ => _ end] => destruct (find a l) eqn:?
  end; try discriminate; injection H as <-.

Lemma store_fst : forall a x l, map fst (store a x l) = map fst l.
Proof.
  intros a x l. unfold store. rewrite map_map. apply map_ext. intros [b y]. cbn.
  destruct (a =? b) eqn:E; [apply N.eqb_eq in E; now subst|reflexivity].
Qed.

Lemma remove_fst : forall a l, map fst (remove a l) = filter (fun b => negb (a =? b)) (map fst l).
Proof.
  intros a l. unfold remove. induction l as [|[b x] l IH]; [reflexivity|]. cbn [filter map fst].
  destruct (negb (a =? b)); cbn [map fst]; now rewrite IH.
Qed.

(** The model's live objects are those of the history. *)
Lemma live_alive : forall h w, perform_all start h = Ok w -> map fst (live w) = alive (rev h).
Proof.
  induction h as [|c h IH] using rev_ind; intros w H.
  - injection H as <-. reflexivity.
  - rewrite perform_all_app in H. destruct (perform_all start h) as [w0| | | |] eqn:E; try discriminate.
    cbn [bind perform_all] in H. destruct (perform w0 c) as [w1| | | |] eqn:P; try discriminate.
    injection H as <-. specialize (IH w0 eq_refl). rewrite rev_app_distr. cbn [rev List.app].
    destruct c; perform_cases P; cbn [live map fst alive];
      rewrite ?remove_fst, ?store_fst, ?IH; reflexivity.
Qed.

Lemma instance_last : forall h w, perform_all start h = Ok w -> instance w = last_constructed (rev h).
Proof.
  induction h as [|c h IH] using rev_ind; intros w H.
  - injection H as <-. reflexivity.
  - rewrite perform_all_app in H. destruct (perform_all start h) as [w0| | | |] eqn:E; try discriminate.
    cbn [bind perform_all] in H. destruct (perform w0 c) as [w1| | | |] eqn:P; try discriminate.
    injection H as <-. specialize (IH w0 eq_refl). rewrite rev_app_distr. cbn [rev List.app].
    destruct c; perform_cases P; cbn [instance last_constructed]; auto.
Qed.

Lemma find_store : forall a b x l, find a (store b x l) =
  if a =? b then match find a l with Some _ => Some x | None => None end else find a l.
Proof.
  intros a b x l. unfold store. induction l as [|[c y] l IH]; [now destruct (a =? b)|].
  cbn [map fst]. destruct (b =? c) eqn:E; cbn [find].
  - apply N.eqb_eq in E. subst c. destruct (a =? b) eqn:E2; [reflexivity|]. exact IH.
  - rewrite IH. destruct (a =? c) eqn:E3; [|reflexivity]. destruct (a =? b) eqn:E2; [|reflexivity]. lia.
Qed.

Lemma find_remove : forall a b l, a <> b -> find a (remove b l) = find a l.
Proof.
  intros a b l H. unfold remove. induction l as [|[c y] l IH]; [reflexivity|]. cbn [filter fst].
  destruct (b =? c) eqn:E; cbn [negb find].
  - replace (a =? c) with false by lia. exact IH.
  - rewrite IH. reflexivity.
Qed.

(** In every history app() is the object constructed last by the constructor that
    takes the arguments, whether or not it still lives. *)
Theorem C55_last_constructed : forall h w, perform_all start h = Ok w ->
  app w = last_constructed (rev h).
Proof. exact instance_last. Qed.
Print Assumptions C55_last_constructed.

Example C55_last_example : exists w,
  perform_all start [Construct 1 2 0; Construct 2 5 0; MoveAssign 2 1; SetNotice 1 [65]; Destroy 2] = Ok w /\
  app w = Some 2 /\ get_argc w (app w) = UB DanglingPointer /\ get_argc w (Some 1) = Ok 5%Z.
Proof. eexists. split; [reflexivity|]. repeat split. Qed.

(** So it need not be alive: after a destruction, after a move, after an inner
    object's life has ended. *)
Theorem C55_live_refuted :
  (exists h w, perform_all start h = Ok w /\ expected h = None /\ app w = Some 1 /\
     get_argc w (app w) = UB DanglingPointer) /\
  (exists h w, perform_all start h = Ok w /\ expected h = Some 2 /\ app w = Some 1 /\
     get_argc w (app w) = UB DanglingPointer /\ get_argc w (expected h) = Ok 3%Z) /\
  (exists h w, perform_all start h = Ok w /\ expected h = Some 1 /\ app w = Some 2 /\
     get_argc w (app w) = UB DanglingPointer /\ get_argc w (expected h) = Ok 3%Z).
Proof.
  split; [|split].
  - exists [Construct 1 3 0; Destroy 1]. eexists. split; [reflexivity|]. repeat split.
  - exists [Construct 1 3 0; MoveConstruct 1 2; Destroy 1]. eexists. split; [reflexivity|]. repeat split.
  - exists [Construct 1 3 0; Construct 2 4 0; Destroy 2]. eexists. split; [reflexivity|]. repeat split.
Qed.
Print Assumptions C55_live_refuted.

(** It is the expected one, and carries the arguments it was constructed with, as
    long as nothing is constructed after it and it is neither destroyed nor
    assigned to. *)
Theorem C55_live_partial : forall h a n v h' w,
  perform_all start (h ++ Construct a n v :: h') = Ok w -> Forall (leaves a) h' ->
  app w = Some a /\ expected (h ++ Construct a n v :: h') = Some a /\ get_argc w (app w) = Ok n.
Proof.
  intros h a n v h' w H F.
  assert (G : app w = Some a /\ hd_error (alive (rev (h ++ Construct a n v :: h'))) = Some a /\
              exists s, find a (live w) = Some (Application n v s)).
  { revert w H. induction h' as [|c h' IH] using rev_ind; intros w H.
    - rewrite perform_all_app in H. destruct (perform_all start h) as [w0| | | |]; try discriminate.
      cbn [bind perform_all] in H. destruct (perform w0 (Construct a n v)) as [w1| | | |] eqn:P; try discriminate.
      injection H as <-. perform_cases P. split; [reflexivity|]. rewrite rev_app_distr. cbn. split; [reflexivity|].
      rewrite N.eqb_refl. eauto.
    - apply Forall_app in F. destruct F as [F1 F2]. inversion_clear F2 as [|? ? L _].
      replace (h ++ Construct a n v :: h' ++ [c]) with ((h ++ Construct a n v :: h') ++ [c]) in * by (now rewrite <- app_assoc).
      rewrite perform_all_app in H.
      destruct (perform_all start (h ++ Construct a n v :: h')) as [w0| | | |] eqn:E; try discriminate.
      cbn [bind perform_all] in H. destruct (perform w0 c) as [w1| | | |] eqn:P; try discriminate.
      injection H as <-. destruct (IH F1 w0 eq_refl) as (I1 & I2 & s & I3). unfold app in *.
      rewrite rev_app_distr. cbn [rev List.app].
      destruct c as [b m u|b b'|b b'|b t|b]; cbn [leaves] in L; try contradiction.
      + perform_cases P. cbn [instance live alive]. split; [assumption|]. split; [assumption|].
        rewrite find_store. replace (a =? b') with false by lia. rewrite find_store.
        destruct (a =? b) eqn:Eb; [|eauto]. apply N.eqb_eq in Eb. subst b. rewrite I3 in *.
        injection Heqo as <-. eauto.
      + perform_cases P. cbn [instance live alive]. split; [assumption|]. split; [assumption|].
        rewrite find_store. destruct (a =? b) eqn:Eb; [|eauto]. apply N.eqb_eq in Eb. subst b. rewrite I3 in *.
        injection Heqo as <-. eauto.
      + perform_cases P. cbn [instance live alive]. split; [assumption|].
        split.
        * destruct (alive (rev (h ++ Construct a n v :: h'))) as [|y l]; [discriminate|]. cbn in I2. injection I2 as ->.
          cbn [filter]. replace (b =? a) with false by lia. reflexivity.
        * rewrite find_remove by congruence. eauto. }
  destruct G as (G1 & G2 & s & G3). split; [assumption|]. split; [assumption|].
  rewrite G1. cbn [get_argc]. now rewrite G3.
Qed.
Print Assumptions C55_live_partial.

Example C55_live_example : exists w,
  perform_all start ([Construct 7 1 0] ++ Construct 8 4 0 :: [SetNotice 8 [67]; Destroy 7]) = Ok w /\
  Forall (leaves 8) [SetNotice 8 [67]; Destroy 7].
Proof. eexists. split; [reflexivity|]. repeat constructor; cbn; discriminate. Qed.

(** Before the first construction there is none. *)
Theorem C55_none : forall h w, perform_all start h = Ok w -> app w = None -> h = [].
Proof.
  intros [|c h] w H N; [reflexivity|exfalso]. cbn [perform_all] in H.
  destruct c as [b m u|b b'|b b'|b t|b]; cbn in H; try discriminate.
  assert (G : forall cs w0 w1, perform_all w0 cs = Ok w1 -> instance w0 <> None -> instance w1 <> None).
  { induction cs as [|c cs IH]; intros w0 w1 Q I0.
    - injection Q as <-. assumption.
    - cbn [perform_all] in Q. destruct (perform w0 c) as [w2| | | |] eqn:P; try discriminate. cbn [bind] in Q.
      apply (IH w2 w1 Q). destruct c; perform_cases P; cbn [instance]; congruence. }
  apply (G h _ w H); [discriminate|exact N].
Qed.
Print Assumptions C55_none.

Example C55_none_example : perform_all start [] = Ok start /\ app start = None.
Proof. split; reflexivity. Qed.
