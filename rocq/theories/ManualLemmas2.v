(** Proofs about the interactive test of the standard streams: the whole session. *)
From Coq Require Import NArith ZArith List Bool Lia ZifyBool ZifyNat ZifyN Ascii String.
From Verif Require Import Base Integers UnicodeSpec UnicodeModel UnicodeText
  NumeralSpec NumberModel FloatModel ResourceSpec ResourceModel ResourceLemmas StreamSpec StreamModel StreamText StreamLemmas4
  FloatStreamModel TestSpec TestModel ReportModel LogModel
  StdioSpec StdioModel StdioText StdioLemmas StdioLemmas2 StdioLemmas3 StdioLemmas4 DemoSpec DemoModel TalkLemmas RetryLemmas
  ManualSpec ManualModel ManualLemmas.
Import ListNotations.
Open Scope list_scope.
Open Scope Z_scope.

(* ------------------------------------------------------------------ modules *)

Definition got (x : outcome module) : module := match x with Ok m => m | _ => new_module [] end.

Definition md0 : module := new_module [Return true; Return true; Return true].
Definition md1 : module := Eval vm_compute in got (start_test md0 (literal "test_output")).
Definition md2 : module := Eval vm_compute in end_stage (end_stage md1).
Definition md3 : module := Eval vm_compute in got (end_test md2 true).
Definition md4 : module := Eval vm_compute in got (start_test md3 (literal "test_input")).
Definition md5 (right : bool) : module := if right then end_stage md4 else md4.
Definition md6 (right : bool) : module := got (end_test (md5 right) right).
Definition md7 (right : bool) : module := got (start_test (md6 right) (literal "test_parsing_and_formatting")).

(** The first test fails in no stage, or in the first, or in the second. *)
Definition md8 (right : bool) (stages : nat) : module :=
  match stages with O => md7 right | 1%nat => end_stage (md7 right) | _ => end_stage (end_stage (md7 right)) end.
Definition md9 (right : bool) (stages : nat) (success : bool) : module := got (end_test (md8 right stages) success).

Definition failing (stages : nat) (success : bool) : option string :=
  if success then None else match stages with O => Some "1"%string | _ => Some "2"%string end.

(* --------------------------------------------------------------------- text *)

Lemma text_until_line : forall native,
  printed (new_lines md0 md1) ++ shrugs native ++ printed (new_lines md1 (end_stage md1)) ++
  printed (new_lines (end_stage md1) md2) ++ printed (new_lines md2 md3) ++
  printed (new_lines md3 md4) ++ text_bytes UTF8 native (literal "Enter " ++ [0x30C4%N] ++ literal ": ") = until_line.
Proof. intros []; vm_compute; reflexivity. Qed.

Lemma text_errors : forall native, shrugs native = shown_as_errors.
Proof. intros []; vm_compute; reflexivity. Qed.

Lemma text_after_line : forall native (right : bool) line,
  text_bytes UTF8 native (literal "Entered line: ") ++ line ++ [10%N] ++
  (if right then printed (new_lines md4 (end_stage md4)) else literal "The input does not match the expected content." ++ newline) ++
  printed (new_lines (md5 right) (md6 right)) ++ printed (new_lines (md6 right) (md7 right)) ++ text_bytes UTF8 native (literal "Enter 5.5: ")
  = after_line right line.
Proof.
  intros native right line. unfold after_line.
  replace (text_bytes UTF8 native (literal "Entered line: ")) with (bytes_of "Entered line: ") by (destruct native; vm_compute; reflexivity).
  apply f_equal. apply f_equal. destruct native, right; vm_compute; reflexivity.
Qed.

Lemma text_first_right : forall native right t,
  text_bytes UTF8 native (literal "Entered value: ") ++ t ++ [10%N] ++
  printed (new_lines (md7 right) (end_stage (md7 right))) ++ text_bytes UTF8 native (literal "Enter -75: ") = after_first true t.
Proof.
  intros native right t. unfold after_first.
  replace (text_bytes UTF8 native (literal "Entered value: ")) with (bytes_of "Entered value: ") by (destruct native; vm_compute; reflexivity).
  apply f_equal. apply f_equal. destruct native, right; vm_compute; reflexivity.
Qed.

Lemma text_first_wrong : forall native right t,
  text_bytes UTF8 native (literal "Entered value: ") ++ t ++ [10%N] ++
  (literal "The parsed input does not match the expected value." ++ newline) ++
  printed (new_lines (md8 right 0) (md9 right 0 false)) = after_first false t.
Proof.
  intros native right t. unfold after_first.
  replace (text_bytes UTF8 native (literal "Entered value: ")) with (bytes_of "Entered value: ") by (destruct native; vm_compute; reflexivity).
  apply f_equal. apply f_equal. destruct right; vm_compute; reflexivity.
Qed.

Lemma text_second : forall native (right success : bool) t,
  text_bytes UTF8 native (literal "Entered value: ") ++ t ++ [10%N] ++
  (if success then printed (new_lines (md8 right 1) (end_stage (md8 right 1)))
   else literal "The parsed input does not match the expected value." ++ newline) ++
  printed (new_lines (md8 right (if success then 2 else 1)) (md9 right (if success then 2 else 1) success)) = after_second success t.
Proof.
  intros native right success t. unfold after_second.
  replace (text_bytes UTF8 native (literal "Entered value: ")) with (bytes_of "Entered value: ") by (destruct native; vm_compute; reflexivity).
  apply f_equal. apply f_equal. destruct right, success; vm_compute; reflexivity.
Qed.

Lemma text_results : forall (right : bool) stages (success : bool), (stages <= 2)%nat -> (success = true -> stages = 2%nat) -> (success = false -> (stages <= 1)%nat) ->
  let m := md9 right stages success in
  printed (TotalsLine (successes m) (N.of_nat (List.length (failed m))) :: map failed_line (failed m)) = results right (failing stages success) /\
  List.length (failed m) = ((if right then 0 else 1) + (if success then 0 else 1))%nat.
Proof.
  intros right stages success H0 H1 H2 m. subst m.
  destruct success; [rewrite (H1 eq_refl)|specialize (H2 eq_refl); destruct stages as [|[|]]; [| |lia]];
    destruct right; split; vm_compute; reflexivity.
Qed.

(* ------------------------------------------------------------------- session *)

Section Session.
Variables (pl : platform) (cs : caps) (native : byte_order) (cb : bool) (fuel : nat).
Hypotheses (C : caps_fit pl cs) (R : room pl cs).

(** The end of the third test. *)
Definition last_end (x : outcome (state * bool)) : outcome state :=
  bind (noexcept x) (fun '((m, s), success) => bind (end_test m success) (fun m' => Ok (m', module_prints m m' s))).

Lemma up_to_first : forall l line r w r1 s, inv pl cs native [] [] l [] s -> takes Line l line r -> takes Word r w r1 -> Forall scalar l ->
  Forall (storable K8) line -> Forall (storable K8) w -> (List.length l < fuel)%nat -> short pl (len (text_bytes UTF8 native line)) ->
  let right := if list_eq_dec N.eq_dec (units K8 line) (units K8 [0x30C4%N]) then true else false in
  let asked := until_line ++ after_line right (text_bytes UTF8 native line) in
  exists s',
    run_functions [test_output pl (order_of native); test_input pl (order_of native) cb fuel; test_parsing_and_formatting pl (order_of native) cb fuel] (md0, s)
    = last_end (bind (parse_floating_point K8 F64 (units K8 w) default_float_format) (judge_first pl (order_of native) cb fuel (md7 right, s'))) /\
    inv pl cs native asked shown_as_errors r1 [asked; until_line] s'.
Proof.
  intros l line r w r1 s I Tl Tw Sc Sl Sw F Sh right asked.
  assert (St : settled [] s).
  { destruct I as [(_ & O & _) _]. destruct (O StandardOutput) as (_ & _ & _ & E). cbn [both] in E. symmetry in E. apply app_eq_nil in E. apply E. }
  destruct (output_ok _ _ _ _ _ _ _ md0 md1 _ I St C ltac:(vm_compute; reflexivity)) as (s1 & E1 & I1 & T1).
  change (end_stage (end_stage md1)) with md2 in E1, I1, T1.
  destruct (module_step _ _ _ _ _ _ _ md2 md3 _ I1 T1) as [I2 T2].
  destruct (input_ok _ _ _ _ _ _ _ cb fuel line r md3 md4 _ I2 T2 C R ltac:(vm_compute; reflexivity) Tl Sc Sl F Sh) as (s3 & E3 & I3 & T3).
  fold right in E3, I3, T3. change (if right then end_stage md4 else md4) with (md5 right) in E3.
  destruct (module_step _ _ _ _ _ _ _ (md5 right) (md6 right) _ I3 T3) as [I4 T4].
  assert (Sc2 : Forall scalar r) by (destruct (takes_suffix _ _ _ _ Tl) as [p ->]; rewrite Forall_app in Sc; tauto).
  assert (F2 : (List.length r < fuel)%nat) by (destruct (takes_suffix _ _ _ _ Tl) as [p ->]; rewrite app_length in F; lia).
  destruct (first_asked _ _ _ _ _ _ _ cb fuel w r1 (md6 right) (md7 right) _ I4 T4 C R ltac:(destruct right; vm_compute; reflexivity) Tw Sc2 Sw F2) as (s5 & E5 & I5).
  exists s5. split.
  - cbn [run_functions]. rewrite E1. cbn [noexcept bind].
    replace (end_test md2 true) with (Ok md3) by (vm_compute; reflexivity). cbn [bind]. rewrite E3. cbn [noexcept bind].
    replace (end_test (md5 right) right) with (Ok (md6 right)) by (destruct right; vm_compute; reflexivity). cbn [bind]. rewrite E5.
    unfold last_end. reflexivity.
  - unfold asked. rewrite <- (text_until_line native), <- (text_after_line native right), <- (text_errors native).
    rewrite !app_nil_l in I5. rewrite <- !app_assoc in I5. rewrite <- !app_assoc. exact I5.
Qed.

(** The first number is shown, and is wrong. *)
Lemma first_wrong : forall asked r qs right x t s, inv pl cs native asked shown_as_errors r qs s ->
  format_floating_point K8 cb F64 x default_float_format = Ok t -> Forall visible t -> Z.of_nat (List.length t) < 20022 ->
  equals_double x five_and_a_half = false ->
  exists s', last_end (judge_first pl (order_of native) cb fuel (md7 right, s) x) = Ok (md9 right 0 false, s') /\
    inv pl cs native (asked ++ after_first false t) shown_as_errors r qs s' /\ settled (asked ++ after_first false t) s'.
Proof.
  intros asked r qs right x t s I Et V L X.
  destruct (first_shown _ _ _ _ _ _ _ cb fuel x t (md7 right) _ I C Et V L) as (s1 & I1 & T1 & ->). rewrite X.
  destruct (cout_ok _ _ _ _ _ _ _ _ (literal "The parsed input does not match the expected value." ++ newline) I1 T1) as [I2 T2].
  destruct (module_step _ _ _ _ _ _ _ (md8 right 0) (md9 right 0 false) _ I2 T2) as [I3 T3]. unfold last_end, complain. cbn [noexcept bind].
  replace (end_test (md7 right) false) with (Ok (md9 right 0 false)) by (destruct right; vm_compute; reflexivity). cbn [bind].
  eexists. split; [reflexivity|]. rewrite <- (text_first_wrong native right t). rewrite <- !app_assoc in I3, T3. rewrite <- ?app_assoc. auto.
Qed.

(** The first number is right; the second is asked for. *)
Lemma first_right : forall asked r w r1 qs right x t s, inv pl cs native asked shown_as_errors r qs s ->
  format_floating_point K8 cb F64 x default_float_format = Ok t -> Forall visible t -> Z.of_nat (List.length t) < 20022 ->
  equals_double x five_and_a_half = true ->
  takes Word r w r1 -> Forall scalar r -> Forall (storable K8) w -> (List.length r < fuel)%nat ->
  exists s', judge_first pl (order_of native) cb fuel (md7 right, s) x
      = bind (parse_integer K8 I32 (units K8 w) default_integer_format) (judge_second pl (order_of native) cb (md8 right 1, s')) /\
    let asked2 := asked ++ after_first true t in inv pl cs native asked2 shown_as_errors r1 (asked2 :: qs) s'.
Proof.
  intros asked r w r1 qs right x t s I Et V L X Tw Sc Sw F.
  destruct (first_shown _ _ _ _ _ _ _ cb fuel x t (md7 right) _ I C Et V L) as (s1 & I1 & T1 & ->). rewrite X.
  destruct (second_asked _ _ _ _ _ _ _ cb fuel w r1 (md7 right) _ I1 T1 C R Tw Sc Sw F) as (s2 & I2 & E2). exists s2. split; [exact E2|].
  cbv zeta in *. rewrite <- (text_first_right native right t). rewrite <- !app_assoc in I2. rewrite <- ?app_assoc. exact I2.
Qed.

(** The second number is shown and judged. *)
Lemma second_judged : forall asked r qs right v t s, inv pl cs native asked shown_as_errors r qs s ->
  format_integer K8 cb I32 v default_integer_format = Ok t -> Forall visible t -> Z.of_nat (List.length t) < 20022 ->
  let success := (v =? -75) in
  exists s', last_end (judge_second pl (order_of native) cb (md8 right 1, s) v) = Ok (md9 right (if success then 2 else 1) success, s') /\
    inv pl cs native (asked ++ after_second success t) shown_as_errors r qs s' /\ settled (asked ++ after_second success t) s'.
Proof.
  intros asked r qs right v t s I Et V L success.
  destruct (second_shown _ _ _ _ _ _ _ cb v t (md8 right 1) _ I C Et V L) as (s1 & E1 & I1 & T1). fold success in E1, I1, T1. rewrite E1.
  replace (if success then end_stage (md8 right 1) else md8 right 1) with (md8 right (if success then 2 else 1)) by (destruct success; reflexivity).
  destruct (module_step _ _ _ _ _ _ _ (md8 right (if success then 2 else 1)) (md9 right (if success then 2 else 1) success) _ I1 T1) as [I2 T2].
  unfold last_end. cbn [noexcept bind].
  replace (end_test (md8 right (if success then 2 else 1)) success) with (Ok (md9 right (if success then 2 else 1) success))
    by (destruct right, success; vm_compute; reflexivity). cbn [bind].
  eexists. split; [reflexivity|]. rewrite <- (text_second native right success t). rewrite <- !app_assoc in I2, T2. rewrite <- ?app_assoc. auto.
Qed.

(** The results and the end of the program. *)
Lemma results_shown : forall b out r qs right stages success s, inv pl cs native out shown_as_errors r qs s -> settled out s ->
  (stages <= 2)%nat -> (success = true -> stages = 2%nat) -> (success = false -> (stages <= 1)%nat) ->
  let m := md9 right stages success in
  exists s', end_program pl b (cout_show s (printed (TotalsLine (successes m) (N.of_nat (List.length (failed m))) :: map failed_line (failed m)))) = Ok s' /\
    shown StandardOutput (log (os s')) = out ++ results right (failing stages success) /\ shown StandardError (log (os s')) = shown_as_errors /\
    List.length (failed m) = ((if right then 0 else 1) + (if success then 0 else 1))%nat /\
    forall d1 x d2, log (os s') = d1 ++ Waited x :: d2 -> In (shown StandardOutput d1) qs.
Proof.
  intros b out r qs right stages success s I T H0 H1 H2 m. destruct (text_results right stages success H0 H1 H2) as [Tx Len]. fold m in Tx, Len. rewrite Tx.
  destruct (cout_ok _ _ _ _ _ _ _ _ (results right (failing stages success)) I T) as [[G W] T1].
  destruct (end_shows pl cs b _ _ _ G C) as (s' & w & E & L & V & Sh & _). exists s'. split; [exact E|].
  split; [exact (Sh StandardOutput)|]. split; [exact (Sh StandardError)|]. split; [exact Len|]. rewrite L. now apply waits_kept.
Qed.
End Session.
