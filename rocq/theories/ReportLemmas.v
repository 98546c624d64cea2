(** Lemmas on the text a run of tests prints. *)
From Coq Require Import NArith ZArith List Bool Ascii String Lia.
From Coq Require Import ZifyBool ZifyNat ZifyN.
From Verif Require Import Base Integers NumeralSpec NumberLemmas CompareLemmas TestSpec TestModel TestText TestLemmas TestLemmas2
  ReportSpec ReportModel.
Import ListNotations.
Open Scope N_scope.
Ltac Zify.zify_post_hook ::= idtac.

(* ---------------------------------------------------------------- numbers *)

Lemma put_digits_ok : forall fuel n text, n < 2 ^ N.of_nat fuel -> (1 <= fuel)%nat ->
  exists ds, canonical 10 ds /\ value 10 ds = n /\ put_digits fuel n text = map digit_char ds ++ text.
Proof.
  induction fuel as [|fuel IH]; intros n text B F; [lia|]. cbn [put_digits].
  assert (C : n mod 10 + 48 = digit_char (n mod 10)).
  { unfold digit_char. pose proof (N.mod_lt n 10 ltac:(lia)). destruct (N.ltb_spec (n mod 10) 10); lia. }
  destruct (N.eqb_spec (n / 10) 0) as [Z|Z].
  - assert (n < 10) by (apply N.div_small_iff in Z; lia). exists [n]. split; [apply canonical_one; lia|]. split; [reflexivity|].
    rewrite C, N.mod_small by assumption. reflexivity.
  - destruct fuel as [|fuel].
    { exfalso. apply Z. apply N.div_small. change (2 ^ N.of_nat 1) with 2 in B. lia. }
    destruct (IH (n / 10) ((n mod 10 + 48) :: text)) as (ds & K & V & E); [|lia|].
    { apply N.div_lt_upper_bound; [lia|]. rewrite (Nat2N.inj_succ (S fuel)), N.pow_succ_r' in B. lia. }
    exists (ds ++ [n mod 10]). split; [|split].
    + destruct K as (K1 & K2 & K3). split; [now destruct ds|]. split.
      * apply Forall_app. split; [exact K2|]. repeat constructor. apply N.mod_lt. lia.
      * intro Hh. destruct ds as [|d ds]; [congruence|]. cbn [app hd_error] in Hh. injection Hh as ->.
        specialize (K3 eq_refl). injection K3 as ->. cbn in V. congruence.
    + rewrite value_snoc, V. pose proof (N.div_mod n 10 ltac:(lia)). lia.
    + rewrite E, map_app, C, <- app_assoc. reflexivity.
Qed.

Lemma put_number_ok : forall n, decimal n (put_number n).
Proof.
  intro n. destruct (put_digits_ok (S (N.to_nat (N.log2 n))) n []) as (ds & C & V & E).
  - rewrite Nat2N.inj_succ, N2Nat.id. destruct (N.eq_dec n 0) as [->|Nz]; [reflexivity|]. apply N.log2_spec. lia.
  - lia.
  - exists ds. split; [exact C|]. split; [exact V|]. unfold put_number. now rewrite E, app_nil_r.
Qed.

Lemma put_lit : forall s, put s = lit s.
Proof. reflexivity. Qed.

(* ------------------------------------------------------------------- runs *)

Lemma printed_app : forall a b, printed (a ++ b) = printed a ++ printed b.
Proof. intros. apply flat_map_app. Qed.

Lemma run_test_text : forall t m w before es b, wide m w -> TestLemmas2.agrees m before ->
  observe t (queue m) = Some (es, b) ->
  starts (before ++ es) < 10 ^ N.of_nat w -> starts (before ++ es) < 2 ^ 16 ->
  exists m' ls, run_test t m = Ok (m', b) /\ out m' = out m ++ ls /\ events_text w before es (printed ls).
Proof.
  induction t as [b0| |name t IH|t IH|x t IH|k IH|t IH|k IH]; intros m w before es b W A O S1 S2;
    cbn [observe run_test] in *.
  - injection O as <- <-. exists m, []. rewrite app_nil_r. repeat split.
  - discriminate.
  - destruct (observe t (queue m)) as [[es' b']|] eqn:E; [|discriminate]. injection O as <- <-.
    unfold start_test. destruct A as (A1 & A2 & A3).
    assert (S : starts before + 1 <= starts (before ++ Started name :: es')).
    { rewrite starts_app. cbn [starts]. lia. }
    rewrite A1, N.add_mod_idemp_l by lia.
    rewrite (N.mod_small (starts before + 1)) by lia.
    destruct (pad_padded m w (starts before + 1) W) as (text & T & P).
    { change (2 ^ 16) with 65536 in *. change (2 ^ 31) with 2147483648. lia. }
    { lia. }
    rewrite T. cbn [bind].
    match goal with |- context [run_test t ?x] => set (m1 := x) end.
    assert (Eb : before ++ Started name :: es' = (before ++ [Started name]) ++ es') by (rewrite <- app_assoc; reflexivity).
    destruct (IH m1 w (before ++ [Started name]) es' b') as (m' & ls & R1 & R4 & R5); try assumption.
    + unfold TestLemmas2.agrees, m1. cbn [current_index current_name current_stage].
      rewrite starts_app, last_started_app, stages_since_app. cbn [starts last_started stages_since].
      split; [|split; reflexivity]. rewrite N.mod_small by lia. lia.
    + now rewrite Eb in S1.
    + now rewrite Eb in S2.
    + exists m', (StartLine text name :: ls). split; [assumption|].
      split; [rewrite R4; unfold m1; cbn [out]; now rewrite <- app_assoc|].
      cbn [events_text]. exists text, (printed ls). split; [exact P|]. split; [|exact R5].
      unfold printed. cbn [flat_map line_text]. unfold ln, newline. rewrite <- !app_assoc. reflexivity.
  - destruct (observe t (queue m)) as [[es' b']|] eqn:E; [|discriminate]. injection O as <- <-.
    destruct A as (A1 & A2 & A3).
    set (m1 := end_stage m) in *.
    assert (Eb : before ++ StageEnded :: es' = (before ++ [StageEnded]) ++ es') by (rewrite <- app_assoc; reflexivity).
    destruct (IH m1 w (before ++ [StageEnded]) es' b') as (m' & ls & R1 & R4 & R5); try assumption.
    + unfold TestLemmas2.agrees, m1, end_stage. cbn [current_index current_name current_stage].
      rewrite starts_app, last_started_app, stages_since_app. cbn [starts last_started stages_since].
      split; [now rewrite N.add_0_r|]. split; [assumption|]. rewrite A3. now rewrite N.add_mod_idemp_l by lia.
    + now rewrite Eb in S1.
    + now rewrite Eb in S2.
    + exists m', (StageLine ((current_stage m + 1) mod 2 ^ 16) :: ls). split; [assumption|].
      split; [rewrite R4; unfold m1, end_stage; cbn [out]; now rewrite <- app_assoc|].
      cbn [events_text]. exists (put_number ((current_stage m + 1) mod 2 ^ 16)), (printed ls).
      split; [rewrite A3, N.add_mod_idemp_l by lia; apply put_number_ok|]. split; [|exact R5].
      unfold printed. cbn [flat_map line_text]. unfold ln, newline. rewrite <- !app_assoc. reflexivity.
  - apply (IH (push_message m x) w before es b); auto.
  - unfold pop_message. destruct (queue m) as [|x q] eqn:Q.
    + apply (IH EmptyMessage m w before es b); auto. now rewrite Q.
    + apply (IH x (set_queue m q) w before es b); auto.
  - apply (IH (clear_message_queue m) w before es b); auto.
  - apply (IH (get_message_count m) m w before es b); auto.
Qed.

Lemma end_test_text : forall m w es b, wide m w -> TestLemmas2.agrees m es -> starts es < 10 ^ N.of_nat w ->
  starts es < 2 ^ 16 ->
  exists m' ls, end_test m b = Ok m' /\ out m' = out m ++ ls /\ end_text w es b (printed ls).
Proof.
  intros m w es b W A S1 S2. destruct A as (A1 & A2 & A3). unfold end_test.
  destruct (pad_padded m w (starts es) W) as (text & T & P).
  { change (2 ^ 16) with 65536 in *. change (2 ^ 31) with 2147483648. lia. }
  { assumption. }
  rewrite A1. rewrite (N.mod_small (starts es)) by assumption. rewrite T. cbn [bind].
  eexists. exists [EndLine text (current_name m) b (current_stage m); RulerLine (6 + N.of_nat (List.length text))].
  split; [reflexivity|]. split.
  { unfold clear_message_queue, set_queue, print. destruct b; reflexivity. }
  exists text, (put_number (current_stage m)). split; [exact P|]. rewrite A3. split; [apply put_number_ok|].
  unfold printed. cbn [flat_map line_text]. rewrite app_nil_r, A2.
  replace (N.to_nat (6 + N.of_nat (List.length text))) with (6 + List.length text)%nat by lia.
  unfold ln, newline. rewrite <- !app_assoc.
  replace (lit (if b then "succeeded"%string else "failed"%string)) with (if b then put "succeeded" else put "failed") by now destruct b.
  replace (lit (if stages_since 0 es mod 2 ^ 16 =? 1 then " successful stage."%string else " successful stages."%string))
    with (if stages_since 0 es mod 2 ^ 16 =? 1 then put " successful stage." else put " successful stages.")
    by now destruct (stages_since 0 es mod 2 ^ 16 =? 1).
  reflexivity.
Qed.

Lemma run_all_text : forall ts ess bs m w before, wide m w -> TestLemmas2.agrees m before -> queue m = [] ->
  observed ts ess bs -> starts (before ++ List.concat ess) < 10 ^ N.of_nat w ->
  starts (before ++ List.concat ess) < 2 ^ 16 ->
  exists m' ls, run_all ts m = Ok m' /\ out m' = out m ++ ls /\ tests_text w before ess bs (printed ls).
Proof.
  induction ts as [|t ts IH]; intros ess bs m w before W A Q (O & L1 & L2) S1 S2.
  - destruct ess; [|discriminate]. destruct bs; [|discriminate]. exists m, []. rewrite app_nil_r. repeat split.
  - destruct ess as [|es ess]; [discriminate|]. destruct bs as [|b bs]; [discriminate|].
    cbn [map combine] in O. injection O as O1 O2. cbn [List.length] in L1, L2.
    cbn [List.concat] in S1, S2. rewrite app_assoc in S1, S2.
    pose proof (starts_app (before ++ es) (List.concat ess)) as SA.
    destruct (run_test_ok t m w before es b W A) as (m1 & R1 & R2 & R3 & _).
    { now rewrite Q. } { lia. } { lia. }
    destruct (run_test_text t m w before es b W A) as (m1' & ls & R1' & R4 & R5).
    { now rewrite Q. } { lia. } { lia. }
    assert (m1' = m1) by congruence. subst m1'.
    pose proof (same_wide _ _ _ R3 W) as W1.
    destruct (end_test_ok m1 w (before ++ es) b W1 R2) as (m2 & E1 & E2 & E3 & E4 & _); [lia|lia|].
    destruct (end_test_text m1 w (before ++ es) b W1 R2) as (m2' & ls2 & E1' & E7 & E8); [lia|lia|].
    assert (m2' = m2) by congruence. subst m2'.
    assert (W2 : wide m2 w) by (unfold wide; rewrite E3; exact W1).
    destruct (IH ess bs m2 w (before ++ es) W2 E2 E4) as (m3 & ls3 & F1 & F6 & F7); try assumption.
    { split; [assumption|]. split; lia. }
    exists m3, (ls ++ ls2 ++ ls3). cbn [run_all]. rewrite R1. cbn [bind]. rewrite E1. cbn [bind].
    split; [assumption|]. split; [rewrite F6, E7, R4; now rewrite <- !app_assoc|].
    cbn [tests_text]. exists (printed ls), (printed ls2), (printed ls3). rewrite !printed_app. auto.
Qed.

Lemma failures_printed : forall fs, failures_text fs (printed (map failed_line fs)).
Proof.
  induction fs as [|[[i n] k] fs IH]; [reflexivity|]. cbn [failures_text map failed_line].
  exists (put_number i), (put_number k), (printed (map failed_line fs)). split; [apply put_number_ok|]. split; [apply put_number_ok|].
  split; [|exact IH]. unfold printed at 1. cbn [flat_map line_text]. unfold ln, newline. rewrite <- !app_assoc. reflexivity.
Qed.

Lemma totals_printed : forall s f, totals_text s f (printed [TotalsLine s f]).
Proof.
  intros s f. exists (put_number s), (put_number f). split; [apply put_number_ok|]. split; [apply put_number_ok|].
  unfold printed. cbn [flat_map line_text]. unfold ln, newline. rewrite app_nil_r, <- !app_assoc. reflexivity.
Qed.

(* ---------------------------------------------------------- reading it back *)

(** Up to the first c. *)
Lemma split_at : forall (c : N) a b x y, ~ In c a -> ~ In c b -> a ++ c :: x = b ++ c :: y -> a = b /\ x = y.
Proof.
  intros c. induction a as [|p a IH]; intros [|q b] x y Na Nb E; cbn [app] in E.
  - injection E as E. auto.
  - injection E as E _. exfalso. apply Nb. now left.
  - injection E as E _. exfalso. apply Na. now left.
  - injection E as <- E. destruct (IH b x y) as [-> ->]; auto; intro; [apply Na|apply Nb]; now right.
Qed.

Lemma decimal_chars : forall n d c, decimal n d -> In c d -> 48 <= c <= 57.
Proof.
  intros n d c (ds & (_ & F & _) & _ & ->) I. apply in_map_iff in I as (x & <- & I). rewrite Forall_forall in F. specialize (F x I).
  cbn beta in F. unfold digit_char. destruct (N.ltb_spec x 10); lia.
Qed.

Lemma padded_chars : forall w n d c, padded w n d -> In c d -> 48 <= c <= 57.
Proof.
  intros w n d c (ds & D & ->) I. apply in_app_iff in I as [I|I]; [apply repeat_spec in I; lia|]. now apply (decimal_chars n ds).
Qed.

Lemma lit_line : forall s, (forallb (fun c => negb (c =? 10)) (lit s)) = true -> ~ In 10 (lit s).
Proof. intros s H I. rewrite forallb_forall in H. specialize (H 10 I). discriminate. Qed.

Lemma not_in_app : forall (c : N) a b, ~ In c a -> ~ In c b -> ~ In c (a ++ b).
Proof. intros c a b A B I. apply in_app_iff in I. tauto. Qed.

Lemma decimal_line : forall n d, decimal n d -> ~ In 10 d.
Proof. intros n d D I. pose proof (decimal_chars n d 10 D I). lia. Qed.
Lemma padded_line : forall w n d, padded w n d -> ~ In 10 d.
Proof. intros w n d D I. pose proof (padded_chars w n d 10 D I). lia. Qed.
Lemma padded_space : forall w n d, padded w n d -> ~ In 32 d.
Proof. intros w n d D I. pose proof (padded_chars w n d 32 D I). lia. Qed.

Lemma line_back : forall a b x y, ~ In 10 a -> ~ In 10 b -> ln a ++ x = ln b ++ y -> a = b /\ x = y.
Proof. intros a b x y A B E. unfold ln in E. rewrite <- !app_assoc in E. cbn [app] in E. now apply split_at in E. Qed.

Ltac single :=
  repeat apply not_in_app;
  first [apply lit_line; reflexivity | eapply decimal_line; eassumption | eapply padded_line; eassumption | assumption].

(** The lines for the ends of stages, up to a line that starts with "T". *)
Lemma stages_back : forall j k w w' before before' t t' x x',
  events_text w before (repeat StageEnded j) t -> events_text w' before' (repeat StageEnded k) t' ->
  t ++ 84 :: x = t' ++ 84 :: x' -> j = k /\ x = x'.
Proof.
  induction j as [|j IH]; intros [|k] w w' before before' t t' x x' T T' E; cbn [repeat events_text] in T, T'.
  - subst t t'. injection E as E. auto.
  - destruct T' as (d & r & _ & -> & _). subst t. discriminate.
  - destruct T as (d & r & _ & -> & _). subst t'. discriminate.
  - destruct T as (d & r & D & -> & T), T' as (d' & r' & D' & -> & T').
    rewrite <- !app_assoc in E. apply line_back in E; [|single..].
    destruct E as [_ E]. destruct (IH k w w' _ _ r r' x x' T T' E) as [-> ->]. auto.
Qed.

Lemma repeat_past : forall p before, last_started uninitialized (before ++ plain_events p) = plain_name p.
Proof. intros. rewrite last_started_app. unfold plain_events. cbn [last_started]. apply last_repeat. Qed.

(** The text of plain tests, up to a line that starts with "S". *)
Lemma plain_back : forall ps qs w w' before before' t t' x x',
  Forall (fun p => one_line (plain_name p)) ps -> Forall (fun p => one_line (plain_name p)) qs ->
  tests_text w before (map plain_events ps) (map plain_success ps) t ->
  tests_text w' before' (map plain_events qs) (map plain_success qs) t' ->
  t ++ 83 :: x = t' ++ 83 :: x' -> ps = qs.
Proof.
  induction ps as [|p ps IH]; intros [|q qs] w w' before before' t t' x x' F F' T T' E; cbn [map tests_text] in T, T'.
  - reflexivity.
  - destruct T' as (t1 & t2 & r & T1 & _ & -> & _). cbn [plain_events events_text] in T1. destruct T1 as (d & r0 & _ & -> & _).
    subst t. discriminate.
  - destruct T as (t1 & t2 & r & T1 & _ & -> & _). cbn [plain_events events_text] in T1. destruct T1 as (d & r0 & _ & -> & _).
    subst t'. discriminate.
  - apply Forall_cons_iff in F as [Fp F], F' as [Fq F'].
    destruct T as (t1 & t2 & r & T1 & T2 & -> & T), T' as (t1' & t2' & r' & T1' & T2' & -> & T').
    cbn [plain_events events_text] in T1, T1'.
    destruct T1 as (d & s & D & -> & T1), T1' as (d' & s' & D' & -> & T1').
    unfold one_line in Fp, Fq.
    rewrite <- !app_assoc in E. apply line_back in E; [|single..]. destruct E as [E1 E].
    apply app_inv_head in E1.
    change (lit " - '" ++ plain_name p ++ lit "' starting.") with (32 :: lit "- '" ++ plain_name p ++ lit "' starting.") in E1.
    change (lit " - '" ++ plain_name q ++ lit "' starting.") with (32 :: lit "- '" ++ plain_name q ++ lit "' starting.") in E1.
    apply split_at in E1; [|eapply padded_space; eassumption..]. destruct E1 as [Ed E1].
    apply app_inv_head, app_inv_tail in E1.
    unfold end_text in T2, T2'. rewrite repeat_past in T2, T2'.
    destruct T2 as (e & k & De & Dk & ->), T2' as (e' & k' & De' & Dk' & ->).
    set (b1 := stages_since 0 (before ++ plain_events p) mod 2 ^ 16 =? 1) in E.
    set (b2 := stages_since 0 (before' ++ plain_events q) mod 2 ^ 16 =? 1) in E. clearbody b1 b2.
    unfold ln in E at 1. unfold ln in E at 2.
    change (lit "Test #") with (84 :: lit "est #") in E.
    cbn [app] in E. rewrite <- !app_assoc in E.
    pose proof (stages_back _ _ _ _ _ _ _ _ _ _ T1 T1' E) as [Ek E2].
    apply app_inv_head in E2.
    change (lit " - '") with (32 :: lit "- '") in E2. cbn [app] in E2.
    apply split_at in E2; [|eapply padded_space; eassumption..]. destruct E2 as [Ee E2].
    apply app_inv_head in E2. rewrite E1 in E2. apply app_inv_head in E2. apply app_inv_head in E2.
    assert (Eb : plain_success p = plain_success q) by (destruct (plain_success p), (plain_success q); try reflexivity; discriminate).
    rewrite Eb in E2. apply app_inv_head in E2. apply app_inv_head in E2.
    rewrite !(app_assoc k), !(app_assoc k') in E2. cbn [app] in E2.
    apply split_at in E2; [|destruct b1; single|destruct b2; single]. destruct E2 as [_ E2].
    apply line_back in E2; [|intro I; apply repeat_spec in I; discriminate..]. destruct E2 as [_ E2].
    rewrite (IH qs w w' _ _ r r' x x' F F' T T' E2). f_equal.
    clear - E1 Ek Eb. destruct p as [n k b], q as [n' k' b']. cbn in E1, Ek, Eb. congruence.
Qed.
