(** Lemmas on tests that log. *)
From Coq Require Import NArith ZArith List Bool Ascii String Lia.
From Coq Require Import ZifyBool ZifyNat ZifyN.
From Verif Require Import Base Integers NumeralSpec NumberLemmas TestSpec TestModel TestText TestLemmas TestLemmas2
  ReportSpec ReportModel ReportLemmas LogSpec LogModel.
Import ListNotations.
Open Scope N_scope.
Ltac Zify.zify_post_hook ::= idtac.

(* ---------------------------------------------------------------- terminals *)

Definition emission_text (e : emission) : list (channel * N) :=
  match e with
  | Said ls => on Normal (printed ls)
  | Info text ended => on Normal (lit "info: " ++ message_text text ended)
  | Err text ended => on Error (lit "error: " ++ message_text text ended)
  end.

Definition ended_emission (e : emission) : bool := match e with Info _ ended => ended | _ => true end.
Definition ended_happening (h : happening) : bool := match h with Informed _ ended => ended | _ => true end.

Lemma on_app : forall c a b, on c (a ++ b) = on c a ++ on c b.
Proof. intros. apply map_app. Qed.

Lemma message_newline : forall text (ended : bool), text ++ (if ended then newline else []) = message_text text ended.
Proof. intros text []; cbn [message_text]; [reflexivity|apply app_nil_r]. Qed.

Lemma emit_one : forall s b e s' b', emit (s, b) e = (s', b') ->
  s' ++ on Normal b' = s ++ on Normal b ++ emission_text e /\ (ended_emission e = true -> b' = []).
Proof.
  intros s b e s' b' H. destruct e as [ls|text [|]|text ended]; cbn [emit] in H; injection H as <- <-; cbn [emission_text ended_emission];
    (split; [|first [reflexivity|discriminate]]).
  - rewrite on_app. change (on Normal []) with (@nil (channel * N)). rewrite app_nil_r. reflexivity.
  - rewrite (on_app Normal b). change (on Normal []) with (@nil (channel * N)). rewrite app_nil_r. reflexivity.
  - cbn [message_text]. rewrite on_app. reflexivity.
  - rewrite message_newline. change (on Normal []) with (@nil (channel * N)). rewrite app_nil_r. reflexivity.
Qed.

Lemma emit_all : forall es s b s' b', fold_left emit es (s, b) = (s', b') ->
  s' ++ on Normal b' = s ++ on Normal b ++ flat_map emission_text es /\
  (es <> [] -> last (map ended_emission es) true = true -> b' = []).
Proof.
  induction es as [|e es IH]; intros s b s' b' H; cbn [fold_left flat_map map] in *.
  - injection H as <- <-. split; [now rewrite app_nil_r|congruence].
  - destruct (emit (s, b) e) as [s1 b1] eqn:E. apply emit_one in E as [E1 E2]. destruct (IH _ _ _ _ H) as [H1 H2].
    split; [rewrite H1; now rewrite !app_assoc, E1, <- !app_assoc|]. intros _ L.
    destruct es as [|e' es]; [|apply H2; [discriminate|exact L]]. cbn [fold_left] in H. injection H as <- <-. now apply E2.
Qed.

(* --------------------------------------------------------- the tests without messages *)

Lemma heard_observe : forall t q, observe (silent t) q =
  match heard t q with (hs, Some b) => Some (events_of hs, b) | (_, None) => None end.
Proof.
  induction t as [b| |n t IH|t IH|x t IH|k IH|t IH|k IH|x e t IH|x e t IH]; intro q; cbn [silent observe heard]; try reflexivity.
  - rewrite IH. destruct (heard t q) as [hs [b|]]; reflexivity.
  - rewrite IH. destruct (heard t q) as [hs [b|]]; reflexivity.
  - apply IH.
  - destruct q; apply IH.
  - apply IH.
  - apply IH.
  - rewrite IH. destruct (heard t q) as [hs [b|]]; reflexivity.
  - rewrite IH. destruct (heard t q) as [hs [b|]]; reflexivity.
Qed.

Definition said (es : list emission) : list line := flat_map (fun e => match e with Said ls => ls | _ => [] end) es.

Lemma new_lines_app : forall m m' ls, out m' = out m ++ ls -> new_lines m m' = ls.
Proof. intros m m' ls H. unfold new_lines. rewrite H, skipn_app, skipn_all, Nat.sub_diag. reflexivity. Qed.

Lemma start_out : forall m n m', start_test m n = Ok m' -> out m' = out m ++ new_lines m m'.
Proof.
  intros m n m' H. unfold start_test in H. destruct (zero_pad m _); cbn [bind] in H; try discriminate. injection H as <-.
  erewrite new_lines_app by reflexivity. reflexivity.
Qed.

Lemma end_stage_out : forall m, out (end_stage m) = out m ++ new_lines m (end_stage m).
Proof. intro m. erewrite new_lines_app by reflexivity. reflexivity. Qed.

Lemma end_test_out : forall m b m', end_test m b = Ok m' -> out m' = out m ++ new_lines m m'.
Proof.
  intros m b m' H. unfold end_test in H. destruct (zero_pad m _); cbn [bind] in H; try discriminate. injection H as <-.
  destruct b; (erewrite new_lines_app; [|reflexivity]); reflexivity.
Qed.

Lemma run_ltest_silent : forall t m, snd (run_ltest t m) = run_test (silent t) m /\
  forall m' b, snd (run_ltest t m) = Ok (m', b) -> out m' = out m ++ said (fst (run_ltest t m)).
Proof.
  induction t as [b| |n t IH|t IH|x t IH|k IH|t IH|k IH|x e t IH|x e t IH]; intro m; cbn [silent run_test run_ltest].
  - split; [reflexivity|]. intros m' b' H. injection H as <- <-. cbn. now rewrite app_nil_r.
  - split; [reflexivity|discriminate].
  - destruct (start_test m n) as [m1| | | |] eqn:E; cbn [bind fst snd]; try (split; [reflexivity|discriminate]).
    destruct (IH m1) as [A B]. destruct (run_ltest t m1) as [es o]. cbn [fst snd] in *. split; [exact A|].
    intros m' b' H. apply B in H. rewrite H, (start_out _ _ _ E). cbn [said flat_map]. now rewrite <- app_assoc.
  - destruct (IH (end_stage m)) as [A B]. destruct (run_ltest t (end_stage m)) as [es o]. cbn [fst snd] in *. split; [exact A|].
    intros m' b' H. apply B in H. rewrite H, end_stage_out. cbn [said flat_map]. now rewrite <- app_assoc.
  - apply (IH (push_message m x)).
  - destruct (pop_message m) as [m1 x] eqn:E. replace (out m) with (out m1); [apply IH|].
    unfold pop_message in E. destruct (queue m); injection E as <- _; reflexivity.
  - apply (IH (clear_message_queue m)).
  - apply IH.
  - destruct (IH m) as [A B]. destruct (run_ltest t m) as [es o]. cbn [fst snd said flat_map app] in *. now split.
  - destruct (IH m) as [A B]. destruct (run_ltest t m) as [es o]. cbn [fst snd said flat_map app] in *. now split.
Qed.

Lemma said_app : forall a b, said (a ++ b) = said a ++ said b.
Proof. intros. apply flat_map_app. Qed.

Lemma run_lall_silent : forall ts m, snd (run_lall ts m) = run_all (map silent ts) m /\
  forall m', snd (run_lall ts m) = Ok m' -> out m' = out m ++ said (fst (run_lall ts m)).
Proof.
  induction ts as [|t ts IH]; intro m; cbn [map run_lall run_all].
  - split; [reflexivity|]. intros m' H. injection H as <-. cbn. now rewrite app_nil_r.
  - destruct (run_ltest_silent t m) as [A B]. destruct (run_ltest t m) as [es o]. cbn [fst snd] in *. rewrite <- A.
    destruct o as [[m1 b]| | | |]; cbn [bind fst snd]; try (split; [reflexivity|discriminate]).
    specialize (B m1 b eq_refl).
    destruct (end_test m1 b) as [m2| | | |] eqn:E; cbn [bind fst snd]; try (split; [reflexivity|discriminate]).
    destruct (IH m2) as [C D]. destruct (run_lall ts m2) as [es' o']. cbn [fst snd] in *. split; [exact C|].
    intros m' H. apply D in H. rewrite H, (end_test_out _ _ _ E), B, said_app. cbn [said flat_map]. now rewrite <- !app_assoc.
Qed.

Lemma run_ltests_silent : forall ts, snd (run_ltests ts) = run_tests (new_module (map silent ts)) /\
  forall m' n, snd (run_ltests ts) = Ok (m', n) -> out m' = said (fst (run_ltests ts)).
Proof.
  intro ts. unfold run_ltests, run_tests. cbn [tests new_module].
  change (Module uninitialized 0 0 0 [] (map silent ts) [] []) with (new_module (map silent ts)).
  destruct (run_lall_silent ts (new_module (map silent ts))) as [A B].
  destruct (run_lall ts (new_module (map silent ts))) as [es o]. cbn [fst snd] in *. rewrite <- A.
  destruct o as [m| | | |]; cbn [bind fst snd]; try (split; [reflexivity|discriminate]).
  split; [reflexivity|]. intros m' n H. injection H as <- _. cbn [print out]. rewrite (B m eq_refl), said_app.
  cbn [new_module out app said flat_map]. now rewrite app_nil_r.
Qed.
