(** Lemmas on tests that log: names and messages on one line. *)
From Coq Require Import NArith ZArith List Bool Ascii String Lia.
From Coq Require Import ZifyBool ZifyNat ZifyN.
From Verif Require Import Base Integers NumeralSpec NumberLemmas CompareLemmas TestSpec TestModel TestText TestLemmas TestLemmas2
  ReportSpec ReportModel ReportLemmas LogSpec LogModel LogLemmas LogLemmas2.
Import ListNotations.
Open Scope N_scope.
Ltac Zify.zify_post_hook ::= idtac.

(* ----------------------------------------------------------------- indexes *)

Lemma write_at_line : forall s i c s', write_at s i c = Ok s' -> one_line s -> c <> 10 -> one_line s'.
Proof.
  induction s as [|x s IH]; intros i c s' H O C; cbn [write_at] in H; [discriminate|]. destruct i as [|i].
  - injection H as <-. intros [E|E]; [congruence|apply O; now right].
  - destruct (write_at s i c) as [s1| | | |] eqn:E; cbn [bind] in H; try discriminate. injection H as <-.
    apply IH in E; [|intro I; apply O; now right|assumption]. intros [X|X]; [apply O; now left|now apply E].
Qed.

Lemma write_char_line : forall s i c s', write_char s i c = Ok s' -> one_line s -> c <> 10 -> one_line s'.
Proof.
  intros s i c s' H. unfold write_char in H. destruct (i <? N.of_nat (List.length s)); [|discriminate]. eapply write_at_line; exact H.
Qed.

Lemma zero_loop_line : forall fuel s d i s', zero_loop fuel s d i = Ok s' -> one_line s -> one_line s'.
Proof.
  induction fuel as [|fuel IH]; intros s d i s' H O; cbn [zero_loop] in H; [discriminate|].
  destruct (d =? 0); [now injection H as <-|].
  destruct (write_char s i 48) as [s1| | | |] eqn:E; cbn [bind] in H; try discriminate.
  apply write_char_line in E; [|assumption|lia]. now apply IH in H.
Qed.

Lemma digit_loop_line : forall fuel s k i n s', digit_loop fuel s k i n = Ok s' -> one_line s -> one_line s'.
Proof.
  induction fuel as [|fuel IH]; intros s k i n s' H O; cbn [digit_loop] in H; [discriminate|]. cbv zeta in H.
  match type of H with bind ?x _ = _ => destruct x as [s1| | | |] eqn:E end; cbn [bind] in H; try discriminate.
  apply write_char_line in E; [|assumption|lia]. destruct (n / 10 =? 0); [now injection H as <-|]. now apply IH in H.
Qed.

Lemma zero_pad_line : forall m n s, zero_pad m n = Ok s -> one_line s.
Proof.
  intros m n s H. unfold zero_pad in H.
  destruct (test_count_digits n) as [a| | | |]; cbn [bind] in H; try discriminate.
  destruct (test_count_digits (N.of_nat (List.length (tests m)))) as [b| | | |]; cbn [bind] in H; try discriminate. cbv zeta in H.
  match type of H with bind ?x _ = _ => destruct x as [s1| | | |] eqn:E end; cbn [bind] in H; try discriminate.
  apply zero_loop_line in E; [|apply one_line_repeat; lia]. now apply digit_loop_line in H.
Qed.

(* ------------------------------------------------------------------- names *)

Definition names_ok (m : module) : Prop :=
  one_line (current_name m) /\ Forall (fun '(_, n, _) => one_line n) (failed m).

Lemma run_ltest_lines : forall t m hs ob, names_ok m -> heard t (queue m) = (hs, ob) -> Forall orderly hs ->
  Forall emission_ok (fst (run_ltest t m)) /\ forall m' b, snd (run_ltest t m) = Ok (m', b) -> names_ok m'.
Proof.
  induction t as [b0| |name t IH|t IH|x t IH|k IH|t IH|k IH|x e t IH|x e t IH]; intros m hs ob M H O; cbn [heard run_ltest] in *.
  - split; [constructor|]. intros m' b E. now injection E as <- <-.
  - split; [constructor|discriminate].
  - destruct (heard t (queue m)) as [hs' b'] eqn:E. injection H as <- <-. apply Forall_cons_iff in O as [O1 O2]. cbn [orderly] in O1.
    unfold start_test. destruct (zero_pad m ((current_index m + 1) mod 2 ^ 16)) as [text| | | |] eqn:Z; cbn [bind];
      try (split; [constructor|discriminate]).
    match goal with |- context [run_ltest t ?x] => set (m1 := x) end.
    destruct (IH m1 hs' b') as [R1 R2]; [|assumption|assumption|].
    { destruct M as [_ M]. now split. }
    replace (new_lines m m1) with [StartLine text name] by (symmetry; apply new_lines_app; reflexivity).
    destruct (run_ltest t m1) as [es o]. cbn [fst snd] in *. split; [|exact R2]. constructor; [|assumption].
    constructor; [|constructor]. split; [now apply zero_pad_line in Z|assumption].
  - destruct (heard t (queue m)) as [hs' b'] eqn:E. injection H as <- <-. apply Forall_cons_iff in O as [O1 O2].
    destruct (IH (end_stage m) hs' b') as [R1 R2]; [exact M|assumption|assumption|].
    replace (new_lines m (end_stage m)) with [StageLine ((current_stage m + 1) mod 2 ^ 16)] by (symmetry; apply new_lines_app; reflexivity).
    destruct (run_ltest t (end_stage m)) as [es o]. cbn [fst snd] in *. split; [|exact R2]. constructor; [|assumption].
    constructor; [exact I|constructor].
  - now apply (IH (push_message m x) hs ob).
  - unfold pop_message. destruct (queue m) as [|x q] eqn:Q.
    + apply (IH EmptyMessage m hs ob); auto. now rewrite Q.
    + now apply (IH x (set_queue m q) hs ob).
  - now apply (IH (clear_message_queue m) hs ob).
  - now apply (IH (get_message_count m) m hs ob).
  - destruct (heard t (queue m)) as [hs' b'] eqn:E. injection H as <- <-. apply Forall_cons_iff in O as [O1 O2].
    destruct (IH m hs' b') as [R1 R2]; try assumption. destruct (run_ltest t m) as [es o]. cbn [fst snd] in *.
    split; [|exact R2]. now constructor.
  - destruct (heard t (queue m)) as [hs' b'] eqn:E. injection H as <- <-. apply Forall_cons_iff in O as [O1 O2].
    destruct (IH m hs' b') as [R1 R2]; try assumption. destruct (run_ltest t m) as [es o]. cbn [fst snd] in *.
    split; [|exact R2]. constructor; [exact I|assumption].
Qed.

Lemma end_test_lines : forall m b m', end_test m b = Ok m' -> names_ok m ->
  Forall line_ok (new_lines m m') /\ names_ok m' /\ queue m' = [].
Proof.
  intros m b m' H [M1 M2]. unfold end_test in H. destruct (zero_pad m (current_index m)) as [text| | | |] eqn:Z; cbn [bind] in H; try discriminate.
  apply zero_pad_line in Z. injection H as <-.
  destruct b; (erewrite new_lines_app; [|reflexivity]);
    (split; [repeat (apply Forall_cons || apply Forall_nil); cbn [line_ok]; auto|]); (split; [|reflexivity]); (split; [exact M1|]);
    cbn [clear_message_queue set_queue failed print]; try assumption.
  apply Forall_app. split; [assumption|]. repeat constructor. exact M1.
Qed.

Lemma run_lall_lines : forall ts hss bs m, names_ok m -> queue m = [] -> all_heard ts hss bs -> Forall (Forall orderly) hss ->
  Forall emission_ok (fst (run_lall ts m)) /\ forall m', snd (run_lall ts m) = Ok m' -> names_ok m'.
Proof.
  induction ts as [|t ts IH]; intros hss bs m M Q (O & L1 & L2) F; cbn [run_lall].
  - split; [constructor|]. intros m' E. now injection E as <-.
  - destruct hss as [|hs hss]; [discriminate|]. destruct bs as [|b bs]; [discriminate|].
    cbn [map combine] in O. injection O as O1 O2. cbn [List.length] in L1, L2. apply Forall_cons_iff in F as [F1 F2].
    destruct (run_ltest_lines t m hs (Some b) M) as [R1 R2]; [now rewrite Q|assumption|].
    destruct (run_ltest t m) as [es o]. cbn [fst snd] in *.
    destruct o as [[m1 b1]| | | |]; try (split; [assumption|discriminate]). specialize (R2 m1 b1 eq_refl).
    destruct (end_test m1 b1) as [m2| | | |] eqn:E; try (split; [assumption|discriminate]).
    destruct (end_test_lines _ _ _ E R2) as (E1 & E2 & E3).
    destruct (IH hss bs m2 E2 E3) as [I1 I2]; [split; [assumption|split; lia]|assumption|].
    destruct (run_lall ts m2) as [es' o']. cbn [fst snd] in *. split; [|exact I2].
    apply Forall_app. split; [assumption|]. now constructor.
Qed.

Lemma run_ltests_lines : forall ts hss bs, all_heard ts hss bs -> Forall (Forall orderly) hss ->
  Forall emission_ok (fst (run_ltests ts)).
Proof.
  intros ts hss bs H F. unfold run_ltests.
  destruct (run_lall_lines ts hss bs (new_module (map silent ts))) as [A B]; try assumption.
  - split; [|constructor]. cbn [new_module current_name]. intro X. cbn in X. repeat destruct X as [X|X]; try discriminate X. exact X.
  - reflexivity.
  - destruct (run_lall ts (new_module (map silent ts))) as [es o]. cbn [fst snd] in *.
    destruct o as [m| | | |]; try assumption. cbn [fst]. apply Forall_app. split; [assumption|].
    constructor; [|constructor]. constructor; [exact I|]. destruct (B m eq_refl) as [_ N]. clear - N.
    apply Forall_map. revert N. apply Forall_impl. intros [[i n] k] N. exact N.
Qed.

(* ------------------------------------------------------------------- throws *)

Lemma run_all_agrees : forall ts ess bs m w before, wide m w -> TestLemmas2.agrees m before -> queue m = [] ->
  observed ts ess bs -> starts (before ++ List.concat ess) < 10 ^ N.of_nat w -> starts (before ++ List.concat ess) < 2 ^ 16 ->
  exists m', run_all ts m = Ok m' /\ TestLemmas2.agrees m' (before ++ List.concat ess) /\ wide m' w /\ queue m' = [].
Proof.
  induction ts as [|t ts IH]; intros ess bs m w before W A Q (O & L1 & L2) S1 S2.
  - destruct ess; [|discriminate]. exists m. cbn [List.concat]. rewrite app_nil_r. now repeat split; try apply A; try apply W.
  - destruct ess as [|es ess]; [discriminate|]. destruct bs as [|b bs]; [discriminate|].
    cbn [map combine] in O. injection O as O1 O2. cbn [List.length] in L1, L2.
    cbn [List.concat] in *. rewrite app_assoc in *.
    pose proof (starts_app (before ++ es) (List.concat ess)) as SA.
    destruct (run_test_ok t m w before es b W A) as (m1 & R1 & R2 & R3 & _); [now rewrite Q|lia|lia|].
    pose proof (same_wide _ _ _ R3 W) as W1.
    destruct (end_test_ok m1 w (before ++ es) b W1 R2) as (m2 & E1 & E2 & E3 & E4 & _); [lia|lia|].
    assert (W2 : wide m2 w) by (unfold wide; rewrite E3; exact W1).
    destruct (IH ess bs m2 w (before ++ es) W2 E2 E4) as (m3 & F1 & F2 & F3 & F4); try assumption; [split; [assumption|split; lia]|].
    exists m3. cbn [run_all]. rewrite R1. cbn [bind]. rewrite E1. cbn [bind]. rewrite <- app_assoc in F2 |- *. auto.
Qed.

Lemma run_lall_app : forall a b m es m', run_lall a m = (es, Ok m') ->
  run_lall (a ++ b) m = (es ++ fst (run_lall b m'), snd (run_lall b m')).
Proof.
  induction a as [|t a IH]; intros b m es m' H; cbn [app run_lall] in *.
  - injection H as <- <-. cbn [app]. now destruct (run_lall b m).
  - destruct (run_ltest t m) as [es1 [[m1 b1]| | | |]]; try discriminate.
    destruct (end_test m1 b1) as [m2| | | |]; try discriminate.
    destruct (run_lall a m2) as [es2 o2] eqn:E. injection H as <- ->. rewrite (IH b m2 es2 m' E).
    now rewrite <- app_assoc.
Qed.

Lemma last_map : forall (A B : Type) (f : A -> B) l d, last (map f l) (f d) = f (last l d).
Proof. induction l as [|x l IH]; intro d; [reflexivity|]. destruct l; [reflexivity|]. apply IH. Qed.

Lemma last_app_ne : forall (A : Type) (a b : list A) d, b <> [] -> last (a ++ b) d = last b d.
Proof.
  induction a as [|x a IH]; intros b d H; [reflexivity|]. cbn [app last]. rewrite IH by assumption.
  destruct (a ++ b) eqn:E; [|reflexivity]. apply app_eq_nil in E as [_ E]. now subst.
Qed.

(** The emissions of whole tests end with an end of test. *)
Lemma run_lall_ended : forall ts m es m', run_lall ts m = (es, Ok m') -> last (map ended_emission es) true = true.
Proof.
  induction ts as [|t ts IH]; intros m es m' H; cbn [run_lall] in H.
  - injection H as <- _. reflexivity.
  - destruct (run_ltest t m) as [es1 [[m1 b1]| | | |]]; try discriminate.
    destruct (end_test m1 b1) as [m2| | | |]; try discriminate.
    destruct (run_lall ts m2) as [es2 o2] eqn:E. injection H as <- ->. apply IH in E.
    rewrite map_app, last_app_ne by discriminate. cbn [map ended_emission]. now destruct es2.
Qed.
