(** Property C137: the interactive test of the standard streams. *)
From Coq Require Import NArith ZArith List Bool Lia ZifyBool ZifyNat ZifyN Ascii String.
From Verif Require Import Base Integers UnicodeSpec UnicodeModel UnicodeText
  NumeralSpec NumberModel FloatModel ResourceSpec ResourceModel StreamSpec StreamModel StreamText
  FloatStreamModel TestSpec TestModel ReportModel StdioSpec StdioModel StdioText DemoSpec DemoModel RetrySpec ManualSpec ManualModel.
From Verif Require Import StreamLemmas StreamLemmas2 StreamLemmas3 StreamLemmas4 StdioLemmas StdioLemmas2 StdioLemmas3 StdioLemmas4 RetryLemmas NumberProps FloatStreamProps ManualLemmas ManualLemmas2.
Import ListNotations.
Open Scope list_scope.
Open Scope Z_scope.
Local Notation length := List.length (only parsing).

(** The test on a terminal where the text [l] is typed, in any pieces, and that takes all output;
    any sizes of the buffers. *)
Definition test_with (pl : platform) (native : byte_order) (cb : bool) (b : build) (h : host) (arr : list arrival) (ci co ce fuel : nat) :=
  manual_test pl (order_of native) cb b h fuel (new_stdio (patient_console arr) ci co ce).

Definition can_type (pl : platform) (native : byte_order) (arr : list arrival) (ci co ce fuel : nat) (l : list N) : Prop :=
  proper (unit_of pl) arr /\ typed arr = text_bytes (console_encoding pl) native l /\ Forall scalar l /\
  capacities_fit ci co ce /\ unit_fits pl ci /\ (length l < fuel)%nat.

(** A line or word that a u8string can take, of less than 4 GiB on Windows. *)
Definition can_enter_line (pl : platform) (native : byte_order) (line : list N) : Prop :=
  Forall (storable K8) line /\ (pl = Windows -> len (text_bytes UTF8 native line) < 2 ^ 32).

Lemma status_small : forall h n, (n <= 2)%nat -> exit_status h (convert I32 (Z.of_nat n)) = Z.of_nat n.
Proof. intros h n H. destruct n as [|[|[|n]]]; [| | |lia]; destruct h; reflexivity. Qed.

Lemma new_inv : forall pl native arr ci co ce fuel l, can_type pl native arr ci co ce fuel l ->
  inv pl (Caps (Z.of_nat ci) (Z.of_nat co) (Z.of_nat ce)) native [] [] l [] (new_stdio (patient_console arr) ci co ce).
Proof.
  intros pl native arr ci co ce fuel l (P & T & _). split.
  - rewrite <- T. eapply good_ext; [now apply good_new|]. now intros [].
  - intros [|] ? ? X; discriminate.
Qed.

Lemma right_line : forall line right, Forall scalar line -> (right = true <-> line = katakana_tu) ->
  (if list_eq_dec N.eq_dec (units K8 line) (units K8 [0x30C4%N]) then true else false) = right.
Proof.
  intros line right Sc H. destruct (list_eq_dec N.eq_dec (units K8 line) (units K8 [0x30C4%N])) as [E|E].
  - symmetry. apply H. apply utf8_one_to_one; auto. repeat constructor; unfold scalar; lia.
  - destruct right; [|reflexivity]. exfalso. apply E. now rewrite (proj1 H eq_refl).
Qed.

Lemma takes_rest : forall q l a r, takes q l a r -> Forall scalar l -> forall fuel, (length l < fuel)%nat -> Forall scalar r /\ (length r < fuel)%nat.
Proof.
  intros q l a r T Sc fuel F. destruct (takes_suffix _ _ _ _ T) as [p ->]. rewrite app_length in F. rewrite Forall_app in Sc. split; [tauto|lia].
Qed.

Lemma takes_line_scalar : forall l a r, takes Line l a r -> Forall scalar l -> Forall scalar a.
Proof. intros l a r H S. inversion H; subst. rewrite !Forall_app in S. tauto. Qed.

(** The session up to the first number. *)
Lemma session_start : forall pl native cb h arr ci co ce fuel l line r w1 r1 right,
  can_type pl native arr ci co ce fuel l -> can_enter_line pl native line -> Forall (storable K8) w1 ->
  takes Line l line r -> takes Word r w1 r1 -> (right = true <-> line = katakana_tu) ->
  let asked := until_line ++ after_line right (text_bytes UTF8 native line) in
  exists s, inv pl (Caps (Z.of_nat ci) (Z.of_nat co) (Z.of_nat ce)) native asked shown_as_errors r1 [asked; until_line] s /\
    Forall scalar r1 /\ (length r1 < fuel)%nat /\
    test_with pl native cb HeaderOnly h arr ci co ce fuel =
    bind (last_end (bind (parse_floating_point K8 F64 (units K8 w1) default_float_format) (judge_first pl (order_of native) cb fuel (md7 right, s)))) (fun '(m, s) =>
    let last := TotalsLine (successes m) (N.of_nat (List.length (failed m))) :: map failed_line (failed m) in
    bind (end_program pl HeaderOnly (cout_show s (printed last))) (fun s =>
    Ok (s, exit_status h (convert I32 (Z.of_nat (List.length (failed m))))))).
Proof.
  intros pl native cb h arr ci co ce fuel l line r w1 r1 right Ty [Sl Ll] Sw Tl Tw Hr asked.
  pose proof (new_inv _ _ _ _ _ _ _ _ Ty) as I. destruct Ty as (P & T & Sc & C & U & F).
  destruct (up_to_first pl _ native cb fuel (caps_ok pl ci co ce C) (room_ok pl ci co ce U) l line r w1 r1 _ I Tl Tw Sc Sl Sw F Ll) as (s & E & I1).
  rewrite (right_line line right (takes_line_scalar _ _ _ Tl Sc) Hr) in E, I1.
  destruct (takes_rest _ _ _ _ Tl Sc fuel F) as [Sr Fr]. destruct (takes_rest _ _ _ _ Tw Sr fuel Fr) as [Sr1 Fr1].
  exists s. split; [exact I1|]. split; [exact Sr1|]. split; [exact Fr1|]. unfold test_with, manual_test.
  assert (St : exists x, start_program HeaderOnly = Ok x) by (eexists; reflexivity). destruct St as [x ->]. cbn [bind].
  fold md0. rewrite E. reflexivity.
Qed.

(** The numbers of the test. *)
Lemma reads_five : parse_floating_point K8 F64 (units K8 (bytes_of "5.5")) default_float_format = Ok five_and_a_half.
Proof. vm_compute. reflexivity. Qed.

Lemma writes_five : forall cb, format_floating_point K8 cb F64 five_and_a_half default_float_format = Ok (bytes_of "5.5").
Proof. intros []; vm_compute; reflexivity. Qed.

(** Three answers, each on a line of its own. *)
Definition answers (line w1 w2 : list N) : list N := line ++ [10]%N ++ w1 ++ [10]%N ++ w2 ++ [10]%N.

Definition typed_at_once (pl : platform) (l : list N) : list arrival := [Arrives (text_bytes (console_encoding pl) LittleEndian l)].

Lemma plain_scalar : forall w, forallb (fun c => (c <? 0xD800)%N) w = true -> Forall scalar w.
Proof. intros w H. rewrite forallb_forall in H. apply Forall_forall. intros c Hc. specialize (H c Hc). unfold scalar. lia. Qed.

Lemma plain_storable : forall w, forallb (fun c => (c <? 0xD800)%N) w = true -> Forall (storable K8) w.
Proof.
  intros w H. rewrite forallb_forall in H. apply Forall_forall. intros c Hc. specialize (H c Hc). split; [cbn [holds]; unfold scalar; lia|].
  intros _. rewrite N.mod_small by lia. lia.
Qed.

Lemma whole_units : forall pl o l, (unit_of pl | Z.of_nat (length (text_bytes (console_encoding pl) o l))).
Proof.
  intros pl o l. unfold text_bytes. fold (unit_bytes (console_encoding pl) o (encode (console_encoding pl) l)).
  match goal with |- (_ | Z.of_nat (List.length ?x)) => change (Z.of_nat (List.length x)) with (len x) end. rewrite len_unit_bytes, <- unit_width_of. apply Z.divide_factor_l.
Qed.

Lemma answers_typed : forall pl line w1 w2, forallb (fun c => (c <? 0xD800)%N) (answers line w1 w2) = true -> (length (answers line w1 w2) < 64)%nat ->
  can_type pl LittleEndian (typed_at_once pl (answers line w1 w2)) 64 64 64 64 (answers line w1 w2).
Proof.
  intros pl line w1 w2 P L. split; [|split; [|split; [now apply plain_scalar|split; [unfold capacities_fit; cbn; lia|split; [intros _; cbn; lia|exact L]]]]].
  - repeat constructor; [|apply whole_units]. intro X. apply (f_equal (@List.length N)) in X. revert X. unfold answers.
    rewrite !text_bytes_app, !app_length. destruct pl; cbn; lia.
  - cbn. apply app_nil_r.
Qed.

Lemma answers_taken : forall line w1 w2, forallb (fun c => negb (c =? 10)%N && negb (c =? 13)%N) line = true ->
  forallb (fun c => ((32 <? c) && (c <? 127))%N) w1 = true -> w1 <> [] -> forallb (fun c => ((32 <? c) && (c <? 127))%N) w2 = true -> w2 <> [] ->
  takes Line (answers line w1 w2) line (w1 ++ [10]%N ++ w2 ++ [10]%N) /\
  takes Word (w1 ++ [10]%N ++ w2 ++ [10]%N) w1 (w2 ++ [10]%N) /\ takes Word (w2 ++ [10]%N) w2 [].
Proof.
  intros line w1 w2 L D1 N1 D2 N2.
  assert (Dark : forall w, forallb (fun c => ((32 <? c) && (c <? 127))%N) w = true -> Forall (fun c => ~ white_space c) w).
  { intros w H. rewrite forallb_forall in H. apply Forall_forall. intros c Hc. specialize (H c Hc). unfold white_space. lia. }
  rewrite forallb_forall in L. split; [|split].
  - apply (TakesLine line [10]%N); [now left| |]; intro X; specialize (L _ X); discriminate L.
  - apply (TakesWord [] w1 [10]%N); [constructor|exact N1|now apply Dark|left; now left].
  - apply (TakesWord [] w2 [10]%N []); [constructor|exact N2|now apply Dark|left; now left].
Qed.

(* --------------------------------------------------------------------- C137 *)

(** The first number is not 5.5.  The test ends with the number of failed tests, one or two.
    Everything is shown in order, each question before the program waits, and the summary
    names the tests and stages that failed.  [x1] is the value of the number, [t1] its text.
    Missing: numbers that cannot be read or shown, and texts that end early, see the refutations
    below; the library build, see C79. *)
Theorem C137_wrong_first_partial : forall pl native cb h arr ci co ce fuel l line r w1 r1 x1 right,
  can_type pl native arr ci co ce fuel l -> can_enter_line pl native line -> Forall (storable K8) w1 ->
  takes Line l line r -> takes Word r w1 r1 -> (right = true <-> line = katakana_tu) ->
  parse_floating_point K8 F64 (units K8 w1) default_float_format = Ok x1 ->
  (forall u, format_floating_point K8 cb F64 x1 default_float_format <> UB u) -> x1 <> five_and_a_half ->
  exists s t1, format_floating_point K8 cb F64 x1 default_float_format = Ok t1 /\
    test_with pl native cb HeaderOnly h arr ci co ce fuel = Ok (s, if right then 1 else 2) /\
    let first := until_line in let second := first ++ after_line right (text_bytes UTF8 native line) in
    shown StandardOutput (log (os s)) = second ++ after_first false t1 ++ results right (Some "1"%string) /\
    shown StandardError (log (os s)) = shown_as_errors /\
    forall d1 b d2, log (os s) = d1 ++ Waited b :: d2 -> shown StandardOutput d1 = first \/ shown StandardOutput d1 = second.
Proof.
  intros pl native cb h arr ci co ce fuel l line r w1 r1 x1 right Ty El Sw Tl Tw Hr Px Nu Nx.
  destruct (session_start pl native cb h arr ci co ce fuel l line r w1 r1 right Ty El Sw Tl Tw Hr) as (s & I & _ & _ & ->).
  pose proof (caps_ok pl ci co ce (proj1 (proj2 (proj2 (proj2 Ty))))) as C.
  destruct (double_text cb _ _ Px) as [(t1 & Et & V & L)|[u X]]; [|now destruct (Nu u)]. rewrite Px. cbn [bind].
  assert (Ne : equals_double x1 five_and_a_half = false).
  { unfold equals_double, five_and_a_half in *. destruct x1 as [a| |]; try reflexivity. destruct (Z.eqb_spec a (11 * 2 ^ (scale F64 - 1))); congruence. }
  destruct (first_wrong pl _ native cb fuel C _ _ _ right x1 t1 s I Et V L Ne) as (s2 & -> & I2 & T2). cbn [bind].
  destruct (results_shown pl _ native C HeaderOnly _ _ _ right 0 false s2 I2 T2 ltac:(lia) ltac:(discriminate) ltac:(lia)) as (s3 & E3 & So & Se & Len & W).
  cbv zeta. rewrite E3. cbn [bind]. exists s3, t1. split; [exact Et|]. split.
  - rewrite Len, status_small by (destruct right; lia). now destruct right.
  - split; [rewrite So, <- app_assoc; reflexivity|]. split; [exact Se|]. intros d1 b d2 X. apply W in X. destruct X as [X|[X|[]]]; auto.
Qed.
Print Assumptions C137_wrong_first_partial.

(** The first number is 5.5, and a second number [v] follows, other than the least int. *)
Theorem C137_answers_partial : forall pl native cb h arr ci co ce fuel l line r w1 r1 w2 r2 v right,
  can_type pl native arr ci co ce fuel l -> can_enter_line pl native line -> Forall (storable K8) w1 -> Forall (storable K8) w2 ->
  takes Line l line r -> takes Word r w1 r1 -> takes Word r1 w2 r2 -> (right = true <-> line = katakana_tu) ->
  parse_floating_point K8 F64 (units K8 w1) default_float_format = Ok five_and_a_half ->
  parse_integer K8 I32 (units K8 w2) default_integer_format = Ok v -> v <> -2147483648 ->
  exists s t2, numeral 10 false None v t2 /\
    test_with pl native cb HeaderOnly h arr ci co ce fuel = Ok (s, (if right then 0 else 1) + (if v =? -75 then 0 else 1)) /\
    let first := until_line in let second := first ++ after_line right (text_bytes UTF8 native line) in
    let third := second ++ after_first true (bytes_of "5.5") in
    shown StandardOutput (log (os s)) = third ++ after_second (v =? -75) t2 ++ results right (if v =? -75 then None else Some "2"%string) /\
    shown StandardError (log (os s)) = shown_as_errors /\
    forall d1 b d2, log (os s) = d1 ++ Waited b :: d2 -> In (shown StandardOutput d1) [first; second; third].
Proof.
  intros pl native cb h arr ci co ce fuel l line r w1 r1 w2 r2 v right Ty El Sw Sw2 Tl Tw Tw2 Hr Px Pv Nv.
  destruct (session_start pl native cb h arr ci co ce fuel l line r w1 r1 right Ty El Sw Tl Tw Hr) as (s & I & Sr1 & Fr1 & ->).
  pose proof (caps_ok pl ci co ce (proj1 (proj2 (proj2 (proj2 Ty))))) as C.
  pose proof (room_ok pl ci co ce (proj1 (proj2 (proj2 (proj2 (proj2 Ty)))))) as R.
  pose proof (writes_five cb) as Et.
  rewrite Px. cbn [bind].
  destruct (first_right pl _ native cb fuel C R _ _ w2 r2 _ right five_and_a_half (bytes_of "5.5") s I Et
    ltac:(repeat constructor; unfold visible; cbn; lia) ltac:(cbn; lia) eq_refl Tw2 Sr1 Sw2 Fr1) as (s2 & E2 & I2). rewrite E2, Pv. cbn [bind]. cbv zeta in I2.
  assert (Rv : in_range I32 v).
  { destruct (takes_scalar _ _ _ _ Tw2 Sr1 eq_refl) as (Sc2 & _ & _).
    destruct (C21_nothing_else_partial K8 I32 default_integer_format w2 ltac:(unfold standard; cbn; auto 10) ltac:(vm_compute; split; discriminate)) as [(v' & E & Ra)|[(e & E & _)|[(E & _)|(E & _)]]].
    - apply Forall_forall. intros c Hc. rewrite Forall_forall in Sw2. apply Sw2, Hc.
    - congruence.
    - congruence.
    - congruence.
    - congruence. }
  destruct (int_text cb _ v Pv Nv Rv) as (t2 & Et2 & Nt2 & V2 & L2).
  destruct (second_judged pl _ native cb C _ _ _ right v t2 s2 I2 Et2 V2 L2) as (s3 & -> & I3 & T3). cbn [bind]. set (ok := v =? -75) in *.
  destruct (results_shown pl _ native C HeaderOnly _ _ _ right (if ok then 2 else 1) ok s3 I3 T3
    ltac:(destruct ok; lia) ltac:(destruct ok; congruence) ltac:(destruct ok; [discriminate|lia])) as (s4 & E4 & So & Se & Len & W).
  cbv zeta. rewrite E4. cbn [bind]. exists s4, t2. split; [exact Nt2|]. split.
  - rewrite Len, status_small by (destruct right, ok; lia). now destruct right, ok.
  - split; [rewrite So; rewrite <- !app_assoc; destruct ok; reflexivity|]. split; [exact Se|]. intros d1 b d2 X. apply W in X.
    destruct X as [X|[X|[X|[]]]]; rewrite <- X; cbn [In]; auto.
Qed.
Print Assumptions C137_answers_partial.

(** The right answers: the test succeeds, and its exit status says so. *)
Theorem C137_right_partial : forall pl native cb h arr ci co ce fuel l r r1 r2,
  can_type pl native arr ci co ce fuel l ->
  takes Line l katakana_tu r -> takes Word r (bytes_of "5.5") r1 -> takes Word r1 (bytes_of "-75") r2 ->
  exists s, test_with pl native cb HeaderOnly h arr ci co ce fuel = Ok (s, 0) /\
    let first := until_line in let second := first ++ after_line true (bytes_of "ツ") in
    let third := second ++ after_first true (bytes_of "5.5") in
    shown StandardOutput (log (os s)) = third ++ after_second true (bytes_of "-75") ++ results true None /\
    shown StandardError (log (os s)) = shown_as_errors /\
    forall d1 b d2, log (os s) = d1 ++ Waited b :: d2 -> In (shown StandardOutput d1) [first; second; third].
Proof.
  intros pl native cb h arr ci co ce fuel l r r1 r2 Ty Tl Tw Tw2.
  assert (Pv : parse_integer K8 I32 (units K8 (bytes_of "-75")) default_integer_format = Ok (-75)) by (vm_compute; reflexivity).
  assert (El : can_enter_line pl native katakana_tu) by (split; [now apply plain_storable|intros _; destruct native; reflexivity]).
  destruct (C137_answers_partial pl native cb h arr ci co ce fuel l katakana_tu r (bytes_of "5.5") r1 (bytes_of "-75") r2 (-75) true Ty El
    ltac:(now apply plain_storable) ltac:(now apply plain_storable) Tl Tw Tw2 ltac:(tauto) reads_five Pv ltac:(discriminate)) as (s & t2 & Nt & E & So & Se & W).
  exists s. split; [exact E|].
  replace (text_bytes UTF8 native katakana_tu) with (bytes_of "ツ") in So, W by (destruct native; vm_compute; reflexivity).
  assert (t2 = bytes_of "-75") as ->; [|cbv zeta; auto].
  destruct (C18_canonical_partial K8 cb I32 (-75) default_integer_format ltac:(unfold standard; cbn; auto 10) ltac:(vm_compute; split; discriminate)
      ltac:(vm_compute; split; discriminate) ltac:(discriminate)) as (t & Et & _ & Un).
  rewrite (Un t2 Nt). replace (format_integer K8 cb I32 (-75) default_integer_format) with (Ok (bytes_of "-75")) in Et by (destruct cb; vm_compute; reflexivity).
  congruence.
Qed.
Print Assumptions C137_right_partial.

(** An answer that is no number does not fail the test: it ends the program, without the
    line that says so, and without results. *)
Theorem C137_no_number_refuted : forall pl native cb h arr ci co ce fuel l line r w1 r1,
  can_type pl native arr ci co ce fuel l -> can_enter_line pl native line -> Forall (storable K8) w1 ->
  takes Line l line r -> takes Word r w1 r1 ->
  (forall e, parse_floating_point K8 F64 (units K8 w1) default_float_format = Throw e ->
     test_with pl native cb HeaderOnly h arr ci co ce fuel = Terminate) /\
  (forall w2 r2 e, parse_floating_point K8 F64 (units K8 w1) default_float_format = Ok five_and_a_half ->
     takes Word r1 w2 r2 -> Forall (storable K8) w2 -> parse_integer K8 I32 (units K8 w2) default_integer_format = Throw e ->
     test_with pl native cb HeaderOnly h arr ci co ce fuel = Terminate).
Proof.
  intros pl native cb h arr ci co ce fuel l line r w1 r1 Ty El Sw Tl Tw.
  set (right := if list_eq_dec N.eq_dec line katakana_tu then true else false).
  assert (Hr : right = true <-> line = katakana_tu) by (subst right; destruct (list_eq_dec N.eq_dec line katakana_tu); split; congruence).
  destruct (session_start pl native cb h arr ci co ce fuel l line r w1 r1 right Ty El Sw Tl Tw Hr) as (s & I & Sr1 & Fr1 & ->).
  pose proof (caps_ok pl ci co ce (proj1 (proj2 (proj2 (proj2 Ty))))) as C.
  pose proof (room_ok pl ci co ce (proj1 (proj2 (proj2 (proj2 (proj2 Ty)))))) as R. split.
  - intros e ->. reflexivity.
  - intros w2 r2 e Px Tw2 Sw2 Pe.
    pose proof (writes_five cb) as Et.
    rewrite Px. cbn [bind].
    destruct (first_right pl _ native cb fuel C R _ _ w2 r2 _ right five_and_a_half (bytes_of "5.5") s I Et
      ltac:(repeat constructor; unfold visible; cbn; lia) ltac:(cbn; lia) eq_refl Tw2 Sr1 Sw2 Fr1) as (s2 & E2 & _). rewrite E2, Pe. reflexivity.
Qed.
Print Assumptions C137_no_number_refuted.

(** The three answers are typed in one piece. *)
Definition test_answers (pl : platform) (line w1 w2 : list N) : outcome (stdio * Z) :=
  test_with pl LittleEndian true HeaderOnly UnixHost (typed_at_once pl (answers line w1 w2)) 64 64 64 64.

(** Wrong answers that are accepted: "7-5" for -75. *)
Theorem C137_accepted_refuted : forall pl,
  (exists s, test_answers pl katakana_tu (bytes_of "5.5") (bytes_of "7-5") = Ok (s, 0)) /\ ~ denotes true (bytes_of "7-5") (-75).
Proof.
  intro pl. split.
  - destruct (answers_taken katakana_tu (bytes_of "5.5") (bytes_of "7-5") eq_refl eq_refl ltac:(discriminate) eq_refl ltac:(discriminate)) as (Tl & Tw & Tw2).
    destruct (C137_answers_partial pl LittleEndian true UnixHost _ 64 64 64 64 _ katakana_tu _ (bytes_of "5.5") _ (bytes_of "7-5") _ (-75) true
      (answers_typed pl katakana_tu (bytes_of "5.5") (bytes_of "7-5") eq_refl ltac:(cbn; lia))
      ltac:(split; [now apply plain_storable|intros _; reflexivity]) ltac:(now apply plain_storable) ltac:(now apply plain_storable) Tl Tw Tw2
      ltac:(tauto) reads_five ltac:(vm_compute; reflexivity) ltac:(discriminate)) as (s & t2 & _ & E & _). exists s. exact E.
  - intros (neg & sg & cs & ds & E & S & _ & D & _ & _). inversion S; subst; try discriminate E. cbn in E. subst cs.
    inversion D as [|? ? ? ? _ D1]; subst. inversion D1 as [|? ? ? ? [X _] _]; subst. discriminate X.
Qed.
Print Assumptions C137_accepted_refuted.

(** Numbers that can be read but not shown are undefined behaviour, here 9223372036854775807
    for 5.5, and so are numbers that do not fit when read, -2147483648 for -75.  So is every
    run of the library build.  No input at all ends the program. *)
Theorem C137_defined_refuted : forall pl,
  (forall line w2, can_enter_line pl LittleEndian line -> (length (answers line (bytes_of "9223372036854775807") w2) < 64)%nat ->
     forallb (fun c => (c <? 0xD800)%N) (answers line (bytes_of "9223372036854775807") w2) = true ->
     forallb (fun c => negb (c =? 10)%N && negb (c =? 13)%N) line = true ->
     forallb (fun c => ((32 <? c) && (c <? 127))%N) w2 = true -> w2 <> [] ->
     test_answers pl line (bytes_of "9223372036854775807") w2 = UB FloatCast) /\
  test_answers pl katakana_tu (bytes_of "5.5") (bytes_of "-2147483648") = UB SignedOverflow /\
  (forall native cb h arr ci co ce fuel, exists u, test_with pl native cb Library h arr ci co ce fuel = UB u) /\
  test_with pl LittleEndian true HeaderOnly UnixHost [] 64 64 64 64 = Terminate.
Proof.
  intro pl. split; [|split; [|split; [intros; eexists; reflexivity|destruct pl; vm_compute; reflexivity]]].
  - intros line w2 El L P Pl P2 N2. destruct (answers_taken line (bytes_of "9223372036854775807") w2 Pl eq_refl ltac:(discriminate) P2 N2) as (Tl & Tw & _).
    pose proof (answers_typed pl _ _ _ P L) as Ty.
    set (right := if list_eq_dec N.eq_dec line katakana_tu then true else false).
    assert (Hr : right = true <-> line = katakana_tu) by (subst right; destruct (list_eq_dec N.eq_dec line katakana_tu); split; congruence).
    destruct (session_start pl LittleEndian true UnixHost _ 64 64 64 64 _ line _ (bytes_of "9223372036854775807") _ right Ty El ltac:(now apply plain_storable) Tl Tw Hr) as (s & I & _ & _ & E).
    unfold test_answers. rewrite E.
    replace (parse_floating_point K8 F64 (units K8 (bytes_of "9223372036854775807")) default_float_format) with (Ok (Fin (2 ^ 63 * one F64))) by (vm_compute; reflexivity).
    cbn [bind]. unfold judge_first. pose proof (caps_ok pl 64 64 64 (proj1 (proj2 (proj2 (proj2 Ty))))) as C.
    destruct (show_step _ _ _ _ _ _ _ (KChar true) (literal "Entered value: ") (md7 right) _ I C ltac:(literal_ok) ltac:(literal_ok)) as (s1 & -> & _). cbn [bind].
    destruct (C99_range_refuted stdio Little (out_sink pl StandardOutput) true F64 (uout_or_uerr Little s1) double_is) as (A & _).
    change (order_of LittleEndian) with Little. rewrite A by (right; lia). reflexivity.
  - destruct (answers_taken katakana_tu (bytes_of "5.5") (bytes_of "-2147483648") eq_refl eq_refl ltac:(discriminate) eq_refl ltac:(discriminate)) as (Tl & Tw & Tw2).
    pose proof (answers_typed pl katakana_tu (bytes_of "5.5") (bytes_of "-2147483648") eq_refl ltac:(cbn; lia)) as Ty.
    destruct (session_start pl LittleEndian true UnixHost _ 64 64 64 64 _ katakana_tu _ (bytes_of "5.5") _ true Ty ltac:(split; [now apply plain_storable|intros _; reflexivity])
      ltac:(now apply plain_storable) Tl Tw ltac:(tauto)) as (s & I & Sr & Fr & E).
    pose proof (caps_ok pl 64 64 64 (proj1 (proj2 (proj2 (proj2 Ty))))) as C.
    pose proof (room_ok pl 64 64 64 (proj1 (proj2 (proj2 (proj2 (proj2 Ty)))))) as R.
    unfold test_answers. rewrite E, reads_five. cbn [bind].
    destruct (first_right pl _ LittleEndian true 64 C R _ _ (bytes_of "-2147483648") _ _ true five_and_a_half (bytes_of "5.5") s I (writes_five true)
      ltac:(repeat constructor; unfold visible; cbn; lia) ltac:(cbn; lia) eq_refl Tw2 Sr ltac:(now apply plain_storable) Fr) as (s2 & -> & I2). cbv zeta in I2.
    replace (parse_integer K8 I32 (units K8 (bytes_of "-2147483648")) default_integer_format) with (@UB Z SignedOverflow) by (vm_compute; reflexivity).
    reflexivity.
Qed.
Print Assumptions C137_defined_refuted.

(** Cases: the three answers come in two pieces, the lines end in LF or CR LF; wrong answers. *)
Example C137_right_example :
  let l := katakana_tu ++ [10]%N ++ bytes_of "5.5" ++ [13; 10]%N ++ bytes_of "-75" ++ [10]%N ++ [120]%N in
  can_type UnixLike LittleEndian [Arrives (text_bytes UTF8 LittleEndian (katakana_tu ++ [10]%N ++ bytes_of "5."));
    Arrives (text_bytes UTF8 LittleEndian (bytes_of "5" ++ [13; 10]%N ++ bytes_of "-75" ++ [10]%N ++ [120]%N))] 0 16 0 100 l /\
  takes Line l katakana_tu (bytes_of "5.5" ++ [13; 10]%N ++ bytes_of "-75" ++ [10]%N ++ [120]%N) /\
  takes Word (bytes_of "5.5" ++ [13; 10]%N ++ bytes_of "-75" ++ [10]%N ++ [120]%N) (bytes_of "5.5") (bytes_of "-75" ++ [10]%N ++ [120]%N) /\
  takes Word (bytes_of "-75" ++ [10]%N ++ [120]%N) (bytes_of "-75") [120]%N.
Proof.
  assert (Dark : forall w, forallb (fun c => ((32 <? c) && (c <? 127))%N) w = true -> Forall (fun c => ~ white_space c) w).
  { intros w H. rewrite forallb_forall in H. apply Forall_forall. intros c Hc. specialize (H c Hc). unfold white_space. lia. }
  split; [|split; [|split]].
  - split; [repeat constructor; try discriminate; apply Z.divide_1_l|]. split; [vm_compute; reflexivity|].
    split; [apply Forall_forall; intros c Hc; vm_compute in Hc; repeat (destruct Hc as [<-|Hc]; [unfold scalar; lia|]); destruct Hc|].
    split; [unfold capacities_fit; cbn; lia|]. split; [discriminate|cbn; lia].
  - apply (TakesLine katakana_tu [10]%N); [now left| |]; cbn; intros [X|[]]; discriminate.
  - apply (TakesWord [] (bytes_of "5.5") [13; 10]%N); [constructor|discriminate|now apply Dark|left; now right].
  - apply (TakesWord [] (bytes_of "-75") [10]%N); [constructor|discriminate|now apply Dark|left; now left].
Qed.

Example C137_wrong_first_example :
  can_enter_line Windows LittleEndian (bytes_of "tu") /\ bytes_of "tu" <> katakana_tu /\
  parse_floating_point K8 F64 (bytes_of "6") default_float_format = Ok (Fin (12 * 2 ^ (scale F64 - 1))) /\
  format_floating_point K8 true F64 (Fin (12 * 2 ^ (scale F64 - 1))) default_float_format = Ok (bytes_of "6") /\
  bind (test_answers Windows (bytes_of "tu") (bytes_of "6") (bytes_of "x")) (fun '(_, n) => Ok n) = Ok 2.
Proof.
  split; [|split; [discriminate|split; [vm_compute; reflexivity|split; vm_compute; reflexivity]]]. split; [now apply plain_storable|intros _; vm_compute; reflexivity].
Qed.

Example C137_answers_example :
  parse_floating_point K8 F64 (units K8 (bytes_of "5.5")) default_float_format = Ok five_and_a_half /\
  parse_integer K8 I32 (units K8 (bytes_of "75")) default_integer_format = Ok 75 /\
  takes Line (answers (bytes_of "tu") (bytes_of "5.5") (bytes_of "75")) (bytes_of "tu") (bytes_of "5.5" ++ [10]%N ++ bytes_of "75" ++ [10]%N) /\
  takes Word (bytes_of "5.5" ++ [10]%N ++ bytes_of "75" ++ [10]%N) (bytes_of "5.5") (bytes_of "75" ++ [10]%N) /\
  takes Word (bytes_of "75" ++ [10]%N) (bytes_of "75") [] /\
  can_type Windows LittleEndian (typed_at_once Windows (answers (bytes_of "tu") (bytes_of "5.5") (bytes_of "75"))) 64 64 64 64
    (answers (bytes_of "tu") (bytes_of "5.5") (bytes_of "75")).
Proof.
  split; [exact reads_five|]. split; [vm_compute; reflexivity|].
  destruct (answers_taken (bytes_of "tu") (bytes_of "5.5") (bytes_of "75") eq_refl eq_refl ltac:(discriminate) eq_refl ltac:(discriminate)) as (A & B & C).
  split; [exact A|]. split; [exact B|]. split; [exact C|]. apply answers_typed; [reflexivity|cbn; lia].
Qed.

Example C137_no_number_example :
  parse_floating_point K8 F64 (bytes_of "five") default_float_format = Throw (ParseFailed DigitCharacterExpected) /\
  test_answers UnixLike katakana_tu (bytes_of "five") (bytes_of "x") = Terminate.
Proof. split; vm_compute; reflexivity. Qed.
