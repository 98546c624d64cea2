(** Dummies and the test modules they report to: the properties. *)
From Coq Require Import NArith ZArith List Bool Lia.
From Coq Require Import ZifyBool ZifyNat ZifyN.
From Verif Require Import Base TestSpec TestModel DummySpec DummyModel DummyLemmas.
Import ListNotations.
Open Scope N_scope.

(* ------------------------------------------------------------------ C101 *)

(** Any program of any length: every answer - values of dummies, messages, numbers of
    messages - is the one expected from the history, and a program is undefined exactly
    if it uses an object that is not there or lets a dummy report to a module that is not. *)
Theorem C101_lives : forall cs,
  (all_sound [] cs = true -> run_program cs = Ok (all_expected [] cs)) /\
  (all_sound [] cs = false -> run_program cs = UB DanglingPointer).
Proof. intro cs. rewrite run_sound. split; intros ->; reflexivity. Qed.
Print Assumptions C101_lives.

Definition two_dummies : list action :=
  [NewModule 1; NewDummy 10 (Some 1) (Some 7%Z); CopyDummy 10 11; SetValue 10 8%Z; MoveDummy 10 12;
   GetValue 10; GetValue 11; GetValue 12; DropDummy 11; Count 1; Pop 1; Pop 1; Pop 1; Pop 1; Pop 1].

Example C101_lives_example :
  all_sound [] two_dummies = true /\
  run_program two_dummies =
    Ok [AValue 0; AValue 7; AValue 8; ACounted 4;
        AMessage ConstructorCalled; AMessage CopyConstructorCalled; AMessage MoveConstructorCalled;
        AMessage DestructorCalled; AMessage EmptyMessage] /\
  all_sound [] [NewModule 1; NewDummy 10 (Some 1) None; DropModule 1; DropDummy 10] = false /\
  all_sound [] [NewDummy 10 None None] = false.
Proof. repeat split. Qed.

(** As long as the messages are left alone, a module that has not been dropped has got as
    many messages of birth as of death and, besides, one of birth for each of its dummies
    that is there.  They are what can be popped. *)
Theorem C101_balance : forall cs a k, all_sound [] cs = true ->
  forallb leaves_messages cs = true -> In (NewModule a) cs -> ~ In (DropModule a) cs ->
  exists xs ds, alive (rev cs) a ds /\ births xs = (deaths xs + length ds)%nat /\
  run_program (cs ++ repeat (Pop a) (length xs + k)) =
    Ok (all_expected [] cs ++ map AMessage (xs ++ repeat EmptyMessage k)).
Proof.
  intros cs a k Hs L I Nd.
  pose proof (steps cs [] empty_lab start_agrees) as H. rewrite Hs in H. destruct H as (w & E & A).
  destruct (balanced_steps cs empty_lab w _ a E L Nd (start_balanced a)) as (ds & N1 & Id & B).
  rewrite app_nil_r in A.
  assert (T : module_there (rev cs) a = true).
  { clear - I Nd. rewrite <- (rev_involutive cs) in I, Nd. rewrite <- in_rev in I, Nd. induction (rev cs) as [|c l IH]; [destruct I|].
    destruct I as [->|I]; [cbn [module_there]; now rewrite N.eqb_refl|].
    assert (M : module_there l a = true) by (apply IH; [exact I|]; intro; apply Nd; now right).
    destruct c; cbn [module_there]; rewrite ?M, ?orb_true_r; try reflexivity.
    destruct (N.eqb_spec a0 a) as [->|]; [|reflexivity]. exfalso. apply Nd. now left. }
  assert (Q : mail w a = waiting (rev cs) a).
  { unfold mail. pose proof (proj1 A a) as Aa. destruct (modules w a); [apply Aa|congruence]. }
  exists (waiting (rev cs) a), ds. split; [|split].
  - split; [exact N1|]. intro d. rewrite Id. unfold owned. pose proof (proj2 A d) as Ad.
    destruct (dummies w d) as [x|].
    + destruct Ad as (D1 & D2 & _). rewrite D1, <- D2. split.
      * intros (y & Ey & F). injection Ey as <-. auto.
      * intros [_ F]. exists x. auto.
    + rewrite Ad. split; [intros (y & Ey & _); discriminate|]. intros [Q1 _]. discriminate.
  - rewrite <- Q. exact B.
  - rewrite run_sound, all_sound_app, Hs, app_nil_r, (pops_sound _ _ a T). cbn [andb].
    rewrite all_expected_app, app_nil_r, pops_expected. do 3 f_equal.
    rewrite firstn_app, firstn_all2 by lia. f_equal.
    replace (length (waiting (rev cs) a) + k - length (waiting (rev cs) a))%nat with k by lia.
    rewrite Nat.add_comm, repeat_app, firstn_app, repeat_length, Nat.sub_diag, firstn_all2 by now rewrite repeat_length.
    apply app_nil_r.
Qed.
Print Assumptions C101_balance.

Definition three_born : list action :=
  [NewModule 1; NewDummy 10 (Some 1) (Some 7%Z); CopyDummy 10 11; MoveDummy 11 12; DropDummy 11; DropDummy 10].

Example C101_balance_example :
  all_sound [] three_born = true /\ forallb leaves_messages three_born = true /\ In (NewModule 1) three_born /\
  ~ In (DropModule 1) three_born /\ alive (rev three_born) 1 [12] /\
  run_program (three_born ++ repeat (Pop 1) 5) =
    Ok (map AMessage [ConstructorCalled; CopyConstructorCalled; MoveConstructorCalled; DestructorCalled; DestructorCalled]).
Proof.
  split; [reflexivity|]. split; [reflexivity|]. split; [now left|]. split.
  { intro H. repeat (destruct H as [H|H]; [discriminate|]). destruct H. }
  split; [|reflexivity]. split; [repeat constructor; intros []|]. intro d.
  cbn [rev app three_born dummy_there owner_of]. cbn [In].
  destruct (N.eqb_spec 10 d) as [<-|N1]; [cbn; intuition discriminate|].
  destruct (N.eqb_spec 11 d) as [<-|N2]; [cbn; intuition discriminate|].
  destruct (N.eqb_spec 12 d) as [<-|N3]; cbn; intuition congruence.
Qed.

(* ------------------------------------------------------------------ C102 *)

(** False: the dummies of a module that is moved go on reporting to the module it was moved
    from; the new module does not hear of the copy made after the move, and once the old
    module is gone even destroying a dummy is undefined. *)
Theorem C102_moved_refuted : forall rest,
  run_program [NewModule 1; NewDummy 10 (Some 1) None; MoveModule 1 2 rest; Clear 1; CopyDummy 10 11; Pop 2; Pop 2; Pop 1] =
    Ok [AMessage ConstructorCalled; AMessage EmptyMessage; AMessage CopyConstructorCalled] /\
  run_program [NewModule 1; NewDummy 10 (Some 1) None; MoveModule 1 2 rest; DropModule 1; DropDummy 10] = UB DanglingPointer.
Proof. intro rest. split; reflexivity. Qed.
Print Assumptions C102_moved_refuted.

(** What holds: the messages that wait in a module when it is copied or moved are those
    popped from the new module. *)
Theorem C102_messages_partial : forall cs f a rest n, all_sound [] (cs ++ [MoveModule f a rest]) = true ->
  run_program (cs ++ [MoveModule f a rest] ++ repeat (Pop a) n) = run_program (cs ++ repeat (Pop f) n) /\
  run_program (cs ++ [CopyModule f a] ++ repeat (Pop a) n) = run_program (cs ++ repeat (Pop f) n).
Proof.
  intros cs f a rest n H. rewrite all_sound_app in H. apply andb_true_iff in H as [Hs H]. rewrite app_nil_r in H.
  cbn [all_sound] in H. rewrite andb_true_r in H. unfold sound in H. cbn [report] in H. rewrite andb_true_r in H.
  pose proof H as H0. apply andb_true_iff in H as [Hf Ha].
  rewrite !run_sound, !all_sound_app, Hs, !app_nil_r, (pops_sound n (rev cs) f Hf). cbn [andb].
  rewrite !all_expected_app, !app_nil_r. cbn [rev app all_expected all_sound]. unfold sound. cbn [report]. rewrite H0. cbn [andb].
  rewrite !pops_sound by (cbn [module_there]; now rewrite N.eqb_refl). cbn [expected app].
  rewrite !pops_expected. cbn [waiting]. rewrite N.eqb_refl. split; reflexivity.
Qed.
Print Assumptions C102_messages_partial.

Example C102_messages_example :
  all_sound [] (three_born ++ [MoveModule 1 2 []]) = true /\
  run_program (three_born ++ [MoveModule 1 2 []] ++ repeat (Pop 2) 2) =
    Ok (map AMessage [ConstructorCalled; CopyConstructorCalled]).
Proof. split; reflexivity. Qed.
