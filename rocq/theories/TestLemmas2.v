(** Lemmas about runs of the test module. *)
From Coq Require Import NArith ZArith List Bool Lia ZifyBool ZifyNat ZifyN.
From Verif Require Import Base Integers NumeralSpec NumberLemmas CompareModel CompareLemmas
  TestSpec TestModel TestText TestLemmas.
Import ListNotations.
Open Scope N_scope.
Ltac Zify.zify_post_hook ::= idtac.

Lemma decimal_exists : forall n, exists ds, canonical 10 ds /\ value 10 ds = n.
Proof.
  intro n. destruct (N.eq_dec n 0) as [->|H].
  - exists [0]. split; [apply canonical_one; lia|reflexivity].
  - destruct (canonical_digits 10 n) as (ds & A & B & C & D); [lia|lia|].
    exists ds. split; [|assumption]. split; [assumption|]. split; [assumption|]. intro Q. congruence.
Qed.

Lemma digits_fit : forall ds n w, canonical 10 ds -> value 10 ds = n -> n < 10 ^ N.of_nat w -> (1 <= w)%nat ->
  (length ds <= w)%nat.
Proof.
  intros ds n w (NE & F & H) V L W. destruct (le_lt_dec (length ds) 1) as [?|G]; [lia|].
  assert (Z : hd_error ds <> Some 0) by (intro Q; specialize (H Q); subst ds; cbn in G; lia).
  pose proof (canonical_length 10 ds ltac:(lia) F NE Z) as C. rewrite V in C.
  destruct (le_lt_dec (length ds) w) as [?|G2]; [lia|exfalso].
  assert (10 ^ N.of_nat w <= 10 ^ N.of_nat (length ds - 1)) by (apply N.pow_le_mono_r; lia). lia.
Qed.

(** The module has a number of tests of width w. *)
Definition wide (m : module) (w : nat) : Prop :=
  N.of_nat (length (tests m)) < 2 ^ 31 /\
  exists dt, decimal (N.of_nat (length (tests m))) dt /\ length dt = w.

Lemma wide_pos : forall m w, wide m w -> (1 <= w)%nat.
Proof.
  intros m w (_ & dt & (ds & (NE & _) & _ & E) & L). subst. rewrite map_length.
  destruct ds; [congruence|cbn; lia].
Qed.

Lemma pad_padded : forall m w n, wide m w -> n < 2 ^ 31 -> n < 10 ^ N.of_nat w ->
  exists text, zero_pad m n = Ok text /\ padded w n text.
Proof.
  intros m w n W B L. pose proof (wide_pos m w W) as W1. destruct W as (T & dt & (ds & C & V & E) & Lw).
  destruct (decimal_exists n) as (dn & Cn & Vn).
  pose proof (zero_pad_ok m n dn ds B T Cn Vn C V) as Z.
  pose proof (digits_fit dn n w Cn Vn L W1) as F.
  rewrite E, map_length in Lw. rewrite Lw in Z. apply Nat.leb_le in F. rewrite F in Z.
  eexists. split; [exact Z|]. exists (map digit_char dn). split; [exists dn; auto|]. now rewrite map_length.
Qed.

(* ------------------------------------------------------------------ events *)

Lemma starts_app : forall a b, starts (a ++ b) = starts a + starts b.
Proof. induction a as [|[n|] a IH]; intro b; cbn [app starts]; rewrite ?IH; lia. Qed.

Lemma last_started_app : forall a d b, last_started d (a ++ b) = last_started (last_started d a) b.
Proof. induction a as [|[n|] a IH]; intros d b; cbn [app last_started]; auto. Qed.

Lemma stages_since_app : forall a k b, stages_since k (a ++ b) = stages_since (stages_since k a) b.
Proof. induction a as [|[n|] a IH]; intros k b; cbn [app stages_since]; auto. Qed.

Lemma names_app : forall a b, names (a ++ b) = names a ++ names b.
Proof. induction a as [|[n|] a IH]; intro b; cbn [app names]; rewrite ?IH; reflexivity. Qed.

Lemma announced_app : forall w a k la b lb, announced w k a la -> announced w (k + N.of_nat (length a)) b lb ->
  announced w k (a ++ b) (la ++ lb).
Proof.
  intros w a. induction a as [|n a IH]; intros k [|[text n'] la] b lb H K; cbn [announced app] in *;
    try contradiction.
  - cbn in K. now rewrite N.add_0_r in K.
  - destruct H as (E & P & H). split; [assumption|]. split; [assumption|]. apply IH; [assumption|].
    cbn [length] in K. now replace (k + 1 + N.of_nat (length a)) with (k + N.of_nat (S (length a))) by lia.
Qed.

Lemma names_length : forall es, N.of_nat (length (names es)) = starts es.
Proof. induction es as [|[n|] es IH]; cbn [names starts length]; lia. Qed.

Lemma start_lines_app : forall a b, start_lines (a ++ b) = start_lines a ++ start_lines b.
Proof. intros. apply flat_map_app. Qed.

(* --------------------------------------------------------------- one test *)

(** The module agrees with what has been announced. *)
Definition agrees (m : module) (es : list event) : Prop :=
  current_index m = starts es mod 2 ^ 16 /\ current_name m = last_started uninitialized es /\
  current_stage m = stages_since 0 es mod 2 ^ 16.

Definition same_results (m m' : module) : Prop :=
  successes m' = successes m /\ failed m' = failed m /\ tests m' = tests m.

Lemma same_wide : forall m m' w, same_results m m' -> wide m w -> wide m' w.
Proof. intros m m' w (_ & _ & E) H. unfold wide. rewrite E. exact H. Qed.

Lemma run_test_ok : forall t m w before es b, wide m w -> agrees m before ->
  observe t (queue m) = Some (es, b) ->
  starts (before ++ es) < 10 ^ N.of_nat w -> starts (before ++ es) < 2 ^ 16 ->
  exists m', run_test t m = Ok (m', b) /\ agrees m' (before ++ es) /\ same_results m m' /\
  exists ls, out m' = out m ++ ls /\ announced w (starts before) (names es) (start_lines ls).
Proof.
  induction t as [b0| |name t IH|t IH|x t IH|k IH|t IH|k IH]; intros m w before es b W A O S1 S2;
    cbn [observe run_test] in *.
  - injection O as <- <-. exists m. split; [reflexivity|]. rewrite app_nil_r. split; [assumption|].
    split; [unfold same_results; auto|]. exists []. rewrite app_nil_r. split; [reflexivity|]. exact I.
  - discriminate.
  - destruct (observe t (queue m)) as [[es' b']|] eqn:E; [|discriminate]. injection O as <- <-.
    unfold start_test. destruct A as (A1 & A2 & A3).
    assert (S : starts before + 1 <= starts (before ++ Started name :: es')).
    { rewrite starts_app. cbn [starts]. lia. }
    rewrite A1, N.add_mod_idemp_l by lia.
    rewrite (N.mod_small (starts before + 1)) by lia.
    destruct (pad_padded m w (starts before + 1) W) as (text & T & P).
    { change (2 ^ 16) with 65536 in *. change (2 ^ 31) with 2147483648. lia. }
    { lia. }
    rewrite T. cbn [bind].
    match goal with |- context [run_test t ?x] => set (m1 := x) end.
    assert (R : same_results m m1) by (unfold same_results, m1; cbn; auto).
    assert (Eb : before ++ Started name :: es' = (before ++ [Started name]) ++ es') by (rewrite <- app_assoc; reflexivity).
    destruct (IH m1 w (before ++ [Started name]) es' b') as (m' & R1 & R2 & R3 & ls & R4 & R5); try assumption.
    + unfold agrees, m1. cbn [current_index current_name current_stage].
      rewrite starts_app, last_started_app, stages_since_app. cbn [starts last_started stages_since].
      split; [|split; reflexivity]. rewrite N.mod_small by lia. lia.
    + now rewrite Eb in S1.
    + now rewrite Eb in S2.
    + exists m'. split; [assumption|]. rewrite Eb. split; [assumption|].
      destruct R3 as (Q1 & Q2 & Q3). split; [unfold same_results; rewrite Q1, Q2, Q3; auto|].
      exists (StartLine text name :: ls). split; [rewrite R4; unfold m1; cbn; now rewrite <- app_assoc|].
      cbn. split; [reflexivity|]. split; [assumption|].
      rewrite starts_app in R5. exact R5.
  - destruct (observe t (queue m)) as [[es' b']|] eqn:E; [|discriminate]. injection O as <- <-.
    destruct A as (A1 & A2 & A3).
    set (m1 := end_stage m) in *.
    assert (R : same_results m m1) by (unfold same_results, m1, end_stage; cbn; auto).
    assert (Eb : before ++ StageEnded :: es' = (before ++ [StageEnded]) ++ es') by (rewrite <- app_assoc; reflexivity).
    destruct (IH m1 w (before ++ [StageEnded]) es' b') as (m' & R1 & R2 & R3 & ls & R4 & R5); try assumption.
    + unfold agrees, m1, end_stage. cbn [current_index current_name current_stage].
      rewrite starts_app, last_started_app, stages_since_app. cbn [starts last_started stages_since].
      split; [now rewrite N.add_0_r|]. split; [assumption|]. rewrite A3. now rewrite N.add_mod_idemp_l by lia.
    + now rewrite Eb in S1.
    + now rewrite Eb in S2.
    + exists m'. split; [assumption|]. rewrite Eb. split; [assumption|].
      destruct R3 as (Q1 & Q2 & Q3). split; [unfold same_results; rewrite Q1, Q2, Q3; auto|].
      eexists (StageLine _ :: ls). split; [rewrite R4; unfold m1, end_stage; cbn; now rewrite <- app_assoc|].
      cbn. rewrite starts_app in R5. cbn [starts] in R5. now rewrite N.add_0_r in R5.
  - destruct (IH (push_message m x) w before es b) as (m' & R); auto. exists m'. exact R.
  - unfold pop_message. destruct (queue m) as [|x q] eqn:Q.
    + apply (IH EmptyMessage m w before es b); auto. now rewrite Q.
    + apply (IH x (set_queue m q) w before es b); auto.
  - apply (IH (clear_message_queue m) w before es b); auto.
  - apply (IH (get_message_count m) m w before es b); auto.
Qed.

(* -------------------------------------------------------------- all tests *)

Lemma end_test_ok : forall m w es b, wide m w -> agrees m es -> starts es < 10 ^ N.of_nat w ->
  starts es < 2 ^ 16 ->
  exists m', end_test m b = Ok m' /\ agrees m' es /\ tests m' = tests m /\ queue m' = [] /\
  successes m' = (if b then (successes m + 1) mod 2 ^ 16 else successes m) /\
  failed m' = failed m ++
    (if b then [] else [(starts es mod 2 ^ 16, last_started uninitialized es, (stages_since 0 es + 1) mod 2 ^ 16)]) /\
  exists ls, out m' = out m ++ ls /\ start_lines ls = [].
Proof.
  intros m w es b W A S1 S2. destruct A as (A1 & A2 & A3). unfold end_test.
  destruct (pad_padded m w (starts es) W) as (text & T & _).
  { change (2 ^ 16) with 65536 in *. change (2 ^ 31) with 2147483648. lia. }
  { assumption. }
  rewrite A1. rewrite (N.mod_small (starts es)) by assumption. rewrite T. cbn [bind].
  eexists. split; [reflexivity|].
  assert (M : (stages_since 0 es + 1) mod 2 ^ 16 = (current_stage m + 1) mod 2 ^ 16).
  { rewrite A3. now rewrite N.add_mod_idemp_l by lia. }
  rewrite M, <- A2. unfold clear_message_queue, set_queue, print, agrees.
  destruct b; cbn [current_name current_index current_stage successes failed tests queue out];
    (split; [auto|]); (split; [reflexivity|]); (split; [reflexivity|]); (split; [reflexivity|]);
    (split; [rewrite ?app_nil_r; try reflexivity; now rewrite A1, (N.mod_small (starts es)) by assumption|]);
    eexists; (split; [reflexivity|]); reflexivity.
Qed.

Lemma count_true_cons : forall b bs, count_true (b :: bs) = (if b then 1 else 0) + count_true bs.
Proof. intros [|] bs; unfold count_true; cbn [filter length]; lia. Qed.

Lemma run_all_ok : forall ts ess bs m w before, wide m w -> agrees m before -> queue m = [] ->
  observed ts ess bs -> starts (before ++ concat ess) < 10 ^ N.of_nat w ->
  starts (before ++ concat ess) < 2 ^ 16 ->
  exists m', run_all ts m = Ok m' /\ tests m' = tests m /\ queue m' = [] /\
  successes m' mod 2 ^ 16 = (successes m + count_true bs) mod 2 ^ 16 /\
  (successes m < 2 ^ 16 -> successes m' < 2 ^ 16) /\
  failed m' = failed m ++ failures before ess bs /\
  exists ls, out m' = out m ++ ls /\ announced w (starts before) (names (concat ess)) (start_lines ls).
Proof.
  induction ts as [|t ts IH]; intros ess bs m w before W A Q (O & L1 & L2) S1 S2.
  - destruct ess; [|discriminate]. destruct bs; [|discriminate]. exists m. cbn [run_all failures concat names].
    split; [reflexivity|]. split; [reflexivity|]. split; [assumption|].
    split; [cbn; now rewrite N.add_0_r|]. split; [auto|].
    split; [now rewrite app_nil_r|]. exists []. rewrite app_nil_r. split; [reflexivity|exact I].
  - destruct ess as [|es ess]; [discriminate|]. destruct bs as [|b bs]; [discriminate|].
    cbn [map combine] in O. injection O as O1 O2. cbn [length] in L1, L2.
    cbn [concat] in S1, S2. rewrite app_assoc in S1, S2.
    pose proof (starts_app (before ++ es) (concat ess)) as SA.
    destruct (run_test_ok t m w before es b W A) as (m1 & R1 & R2 & R3 & ls & R4 & R5).
    { now rewrite Q. } { lia. } { lia. }
    pose proof (same_wide _ _ _ R3 W) as W1.
    destruct (end_test_ok m1 w (before ++ es) b W1 R2) as (m2 & E1 & E2 & E3 & E4 & E5 & E6 & ls2 & E7 & E8); [lia|lia|].
    destruct R3 as (Q1 & Q2 & Q3).
    assert (W2 : wide m2 w) by (unfold wide; rewrite E3; exact W1).
    destruct (IH ess bs m2 w (before ++ es) W2 E2 E4) as (m3 & F1 & F2 & F3 & F4 & F4' & F5 & ls3 & F6 & F7); try assumption.
    { split; [assumption|]. split; lia. }
    exists m3. cbn [run_all]. rewrite R1. cbn [bind]. rewrite E1. cbn [bind].
    split; [assumption|]. split; [congruence|]. split; [assumption|].
    split.
    { rewrite F4, E5, Q1. rewrite count_true_cons. destruct b.
      - rewrite N.add_mod_idemp_l by lia. f_equal. lia.
      - f_equal. }
    split.
    { intro B. apply F4'. rewrite E5, Q1. destruct b; [apply N.mod_lt; lia|assumption]. }
    split.
    { rewrite F5, E6, Q2. cbn [failures]. rewrite <- app_assoc. reflexivity. }
    exists (ls ++ ls2 ++ ls3). split; [rewrite F6, E7, R4; now rewrite <- !app_assoc|].
    rewrite !start_lines_app, E8. cbn [app concat]. rewrite names_app.
    apply announced_app; [assumption|]. rewrite names_length.
    now rewrite starts_app in F7.
Qed.

Lemma failures_count : forall ess bs before, length ess = length bs ->
  N.of_nat (length (failures before ess bs)) = count_false bs.
Proof.
  induction ess as [|es ess IH]; intros [|b bs] before L; try discriminate; [reflexivity|].
  cbn [failures]. rewrite app_length. specialize (IH bs (before ++ es) ltac:(cbn in L; lia)).
  unfold count_false in *. destruct b; cbn [filter negb length]; lia.
Qed.

(* ------------------------------------------------------------ plain tests *)

Lemma starts_repeat : forall k, starts (repeat StageEnded k) = 0.
Proof. induction k; cbn [repeat starts]; auto. Qed.
Lemma last_repeat : forall k d, last_started d (repeat StageEnded k) = d.
Proof. induction k; intro d; cbn [repeat last_started]; auto. Qed.
Lemma stages_repeat : forall k n, stages_since n (repeat StageEnded k) = n + N.of_nat k.
Proof. induction k as [|k IH]; intro n; cbn [repeat stages_since]; [lia|]. rewrite IH. lia. Qed.

Definition plain_events (p : plain) : list event :=
  Started (plain_name p) :: repeat StageEnded (plain_stages p).

Lemma plain_observed : forall ts ps, Forall2 is_plain ts ps ->
  observed ts (map plain_events ps) (map plain_success ps).
Proof.
  intros ts ps F. unfold observed. rewrite !map_length. assert (L : length ps = length ts) by (clear -F; induction F; cbn; congruence).
  rewrite L.
  split; [|auto]. clear L. induction F as [|t p ts ps H F IH]; [reflexivity|].
  cbn [map combine]. rewrite IH. f_equal. exact H.
Qed.

Lemma plain_starts : forall ps, starts (concat (map plain_events ps)) = N.of_nat (length ps).
Proof.
  induction ps as [|p ps IH]; [reflexivity|]. cbn [map concat]. rewrite starts_app, IH.
  unfold plain_events. cbn [starts length]. rewrite starts_repeat. lia.
Qed.

Lemma plain_failures_ok : forall ps before, Forall (fun p => N.of_nat (plain_stages p) + 1 < 2 ^ 16) ps ->
  starts before + N.of_nat (length ps) < 2 ^ 16 ->
  failures before (map plain_events ps) (map plain_success ps) = plain_failures (starts before + 1) ps.
Proof.
  induction ps as [|p ps IH]; intros before F B; [reflexivity|]. inversion_clear F as [|? ? F1 F2].
  cbn [map failures plain_failures length] in *. rewrite IH; [|assumption|].
  2:{ rewrite starts_app. unfold plain_events. cbn [starts]. rewrite starts_repeat. lia. }
  rewrite starts_app, last_started_app, stages_since_app. unfold plain_events.
  cbn [starts last_started stages_since]. rewrite starts_repeat, last_repeat, stages_repeat.
  rewrite N.add_0_l, N.add_0_r. rewrite !N.mod_small by lia. reflexivity.
Qed.

Lemma width_bound : forall n dt, decimal n dt -> n < 10 ^ N.of_nat (length dt).
Proof.
  intros n dt (ds & (NE & F & _) & V & ->). rewrite map_length. rewrite <- V. apply value_bound; [lia|assumption].
Qed.

(* ------------------------------------------------------------------ queue *)

Lemma queue_run_ok : forall cs m put taken, queue m = skipn taken put -> (taken <= length put)%nat ->
  queue_run m cs = queue_answers put taken cs.
Proof.
  induction cs as [|c cs IH]; intros m put taken Q L; [reflexivity|].
  destruct c as [x| | |]; cbn [queue_run queue_answers].
  - apply IH; [|rewrite app_length; lia]. unfold push_message, set_queue. cbn [queue]. rewrite Q.
    rewrite skipn_app. replace (taken - length put)%nat with 0%nat by lia. reflexivity.
  - unfold pop_message. rewrite Q.
    destruct (nth_error put taken) as [x|] eqn:E.
    + assert (S : skipn taken put = x :: skipn (S taken) put).
      { clear -E. revert put E. induction taken as [|n IH]; intros [|y put] E; try discriminate.
        - cbn in *. congruence.
        - cbn [nth_error] in E. cbn [skipn]. now apply IH. }
      rewrite S. f_equal. apply IH; [reflexivity|].
      assert (taken < length put)%nat by (apply nth_error_Some; congruence). lia.
    + apply nth_error_None in E. rewrite skipn_all2 by assumption. f_equal. apply IH; [|assumption]. rewrite Q. reflexivity.
  - apply IH; [|lia]. unfold clear_message_queue, set_queue. cbn [queue]. now rewrite skipn_all.
  - unfold get_message_count. rewrite Q, skipn_length. f_equal. apply IH; [assumption|assumption].
Qed.
