(** Proofs about the interactive test of the standard streams. *)
From Coq Require Import NArith ZArith List Bool Lia ZifyBool ZifyNat ZifyN Ascii String.
From Verif Require Import Base Integers UnicodeSpec UnicodeModel UnicodeText UnicodeLemmas UnicodeLemmas2 UnicodeLemmas3
  NumeralSpec NumberModel NumberText NumberLemmas NumberLemmas2 FloatSpec FloatModel FloatText FloatLemmas FloatLemmas7
  ResourceSpec ResourceModel ResourceLemmas StreamSpec StreamModel StreamText StreamLemmas StreamLemmas2 StreamLemmas3 StreamLemmas4
  FloatStreamModel FloatStreamLemmas TestSpec TestModel ReportModel LogModel
  StdioSpec StdioModel StdioText StdioLemmas StdioLemmas2 StdioLemmas3 StdioLemmas4 DemoModel TalkLemmas RetryLemmas ManualModel.
From Verif Require Import NumberProps FloatProps FloatProps2 FloatLemmas4 FloatLemmas9.
Import ListNotations.
Open Scope list_scope.
Open Scope Z_scope.

(* ------------------------------------------------------------------- steps *)

Definition both (out err : list N) (ch : channel) : list N := match ch with StandardOutput => out | StandardError => err end.

(** [out] and [err] were sent to the two channels, [l] is still to be read, and whenever the
    program waited the standard output showed one of [qs]. *)
Definition inv (pl : platform) (cs : caps) (native : byte_order) (out err l : list N) (qs : list (list N)) (s : stdio) : Prop :=
  good pl cs (both out err) (text_bytes (console_encoding pl) native l) s /\
  forall d1 b d2, log (os s) = d1 ++ Waited b :: d2 -> In (shown StandardOutput d1) qs.

(** Nothing is held back on the standard output. *)
Definition settled (out : list N) (s : stdio) : Prop := shown StandardOutput (log (os s)) = out.

Lemma waits_kept : forall w lg qs, shows w ->
  (forall d1 b d2, lg = d1 ++ Waited b :: d2 -> In (shown StandardOutput d1) qs) ->
  forall d1 b d2, lg ++ w = d1 ++ Waited b :: d2 -> In (shown StandardOutput d1) qs.
Proof.
  intros w lg qs V H d1 b d2 E. destruct (split_log _ _ _ _ _ E) as [(d2' & Y & _)|(w1 & Y & _)]; [eauto|].
  exfalso. exact (shows_waited _ _ _ _ V Y).
Qed.

Lemma settled_kept : forall pl cs sent rest s out w, good pl cs sent rest s -> sent StandardOutput = out -> forall lg,
  shown StandardOutput lg = out -> log (os s) = lg ++ w -> settled out s.
Proof.
  intros pl cs sent rest s out w (_ & O & _) So lg Sh L. destruct (O StandardOutput) as (_ & _ & _ & E).
  unfold settled. rewrite L, shown_app, Sh in *. rewrite So in E. rewrite <- app_assoc in E.
  assert (X : [] = shown StandardOutput w ++ take (bpos (out_buffer StandardOutput s)) (mem (out_buffer StandardOutput s)))
    by (apply (app_inv_head out); now rewrite app_nil_r).
  symmetry in X. apply app_eq_nil in X. destruct X as [-> _]. apply app_nil_r.
Qed.

Lemma say_out : forall pl cs native out err l qs k x s, inv pl cs native out err l qs s -> caps_fit pl cs ->
  Forall (printable native UTF8 native k) x -> short pl (len (text_bytes UTF8 native x)) ->
  exists s', say pl (order_of native) StandardOutput k x s = Ok s' /\ inv pl cs native (out ++ text_bytes UTF8 native x) err l qs s'.
Proof.
  intros pl cs native out err l qs k x s [G W] C P Sh.
  destruct (say_ok pl cs native _ StandardOutput _ k x s G C P Sh) as (s' & w & E & G' & _ & L & V).
  exists s'. split; [exact E|]. split; [eapply good_ext; [exact G'|]; now intros []|]. rewrite L. now apply waits_kept.
Qed.

Lemma say_err : forall pl cs native out err l qs k x s, inv pl cs native out err l qs s -> settled out s -> caps_fit pl cs ->
  Forall (printable native UTF8 native k) x -> short pl (len (text_bytes UTF8 native x)) ->
  exists s', say pl (order_of native) StandardError k x s = Ok s' /\
    inv pl cs native out (err ++ text_bytes UTF8 native x) l qs s' /\ settled out s'.
Proof.
  intros pl cs native out err l qs k x s [G W] St C P Sh.
  destruct (say_ok pl cs native _ StandardError _ k x s G C P Sh) as (s' & w & E & G' & _ & L & V).
  exists s'. split; [exact E|]. split; [split; [eapply good_ext; [exact G'|]; now intros []|rewrite L; now apply waits_kept]|].
  eapply settled_kept; [exact G'|reflexivity|exact St|exact L].
Qed.

Lemma flush_out : forall pl cs native out err l qs s, inv pl cs native out err l qs s -> caps_fit pl cs ->
  exists s', out_flush pl StandardOutput s = Ok s' /\ inv pl cs native out err l qs s' /\ settled out s'.
Proof.
  intros pl cs native out err l qs s [G W] C.
  destruct (finish_ok pl cs _ _ s StandardOutput G C) as (s' & w & E & G' & S1 & L & V & _).
  exists s'. split; [exact E|]. split; [split; [exact G'|rewrite L; now apply waits_kept]|exact S1].
Qed.

Lemma flush_err : forall pl cs native out err l qs s, inv pl cs native out err l qs s -> settled out s -> caps_fit pl cs ->
  exists s', out_flush pl StandardError s = Ok s' /\ inv pl cs native out err l qs s' /\ settled out s'.
Proof.
  intros pl cs native out err l qs s [G W] St C.
  destruct (finish_ok pl cs _ _ s StandardError G C) as (s' & w & E & G' & _ & L & V & _).
  exists s'. split; [exact E|]. split; [split; [exact G'|rewrite L; now apply waits_kept]|].
  eapply settled_kept; [exact G'|reflexivity|exact St|exact L].
Qed.

Lemma cout_log : forall s line, acceptances (os s) = [] -> log (os (cout_show s line)) = log (os s) ++ [Shown StandardOutput line].
Proof. intros s line A. unfold cout_show. cbn [os]. unfold sys_write. rewrite A. reflexivity. Qed.

Lemma cout_ok : forall pl cs native out err l qs s line, inv pl cs native out err l qs s -> settled out s ->
  inv pl cs native (out ++ line) err l qs (cout_show s line) /\ settled (out ++ line) (cout_show s line).
Proof.
  intros pl cs native out err l qs s line [(I & O & A) W] St. pose proof (cout_log s line A) as L.
  assert (Sh : settled (out ++ line) (cout_show s line)).
  { unfold settled. rewrite L, shown_app, St. cbn. now rewrite app_nil_r. }
  split; [|exact Sh]. split.
  - split; [|split].
    + unfold cout_show. cbn [os uin_buffer]. eapply has_input_same; [exact I|]. unfold sys_write. rewrite A. reflexivity.
    + intro ch. destruct (O ch) as (Cp & B & Wd & E).
      assert (Eb : out_buffer ch (cout_show s line) = out_buffer ch s) by (destruct ch; reflexivity).
      split; [rewrite Eb; exact Cp|]. split; [rewrite Eb; exact B|]. split; [rewrite Eb; exact Wd|]. rewrite Eb. destruct ch.
      * cbn [both] in *. unfold settled in St, Sh. rewrite Sh. rewrite St in E.
        assert (X : take (bpos (out_buffer StandardOutput s)) (mem (out_buffer StandardOutput s)) = [])
          by (symmetry; apply (app_inv_head out); now rewrite app_nil_r).
        rewrite X. now rewrite app_nil_r.
      * cbn [both] in *. rewrite L, shown_app. cbn [shown flat_map same_channel]. rewrite !app_nil_r. exact E.
    + unfold cout_show. cbn [os]. unfold sys_write. rewrite A. reflexivity.
  - rewrite L. apply waits_kept; [repeat constructor|exact W].
Qed.

Lemma ask_step : forall pl cs native out err l qs fuel q k a r s, inv pl cs native out err l qs s -> caps_fit pl cs -> room pl cs ->
  takes q l a r -> q <> Character -> Forall scalar l -> Forall (storable k) a -> (List.length l < fuel)%nat ->
  exists s', ask pl (order_of native) fuel q k s = Ok (s', units k a) /\ inv pl cs native out err r (out :: qs) s'.
Proof.
  intros pl cs native out err l qs fuel q k a r s [G W] C R T Nq Sc Sa F.
  set (Ty := received (log (os s)) ++ typed (arrivals (os s))).
  assert (A : asking pl cs (both out err) (log (os s)) Ty (text_bytes (console_encoding pl) native l) s).
  { split; [exact G|]. split; [reflexivity|]. exists []. split; [now rewrite app_nil_r|]. intros [|] ? ? X; discriminate. }
  destruct (ask_ok pl cs native _ _ Ty fuel q k l a r s C R T Sc ltac:(destruct q; auto) F A) as (s1 & E & (G1 & T1 & d0 & L1 & Wf)).
  exists s1. split; [destruct q; congruence|]. split; [exact G1|]. intros d1 b d2 X. rewrite L1 in X.
  destruct (split_log _ _ _ _ _ X) as [(d2' & Y & _)|(w1 & Y & ->)].
  - right. eauto.
  - left. destruct (Wf _ _ _ Y) as [Sh _]. symmetry. exact Sh.
Qed.

(* ------------------------------------------------------- steps of the model *)

Lemma show_say : forall pl native ch k x m s,
  show_on pl native ch k (units k x) (m, s) = bind (say pl native ch k x s) (fun s => Ok (m, s)).
Proof. intros. unfold show_on, say. destruct (write_string _ _ _ _ _) as [st| | | |]; reflexivity. Qed.

Lemma plain_printable : forall native k l,
  forallb (fun c => ((c <? 0xD800)%N && ((c <? 128)%N || match k with KChar _ => false | _ => true end))) l = true ->
  Forall (printable native UTF8 native k) l.
Proof.
  intros native k l H. rewrite forallb_forall in H. apply Forall_forall. intros c Hc. specialize (H c Hc).
  unfold printable. destruct k; try lia; (split; [unfold scalar; lia|]; intros _; split;
    [split; [unfold scalar; lia|intros _; rewrite N.mod_small by lia; lia]|unfold single_unit, bmp; try lia; auto]).
Qed.

Lemma show_step : forall pl cs native out err l qs k x m s, inv pl cs native out err l qs s -> caps_fit pl cs ->
  Forall (printable native UTF8 native k) x -> short pl (len (text_bytes UTF8 native x)) ->
  exists s', show_on pl (order_of native) StandardOutput k (units k x) (m, s) = Ok (m, s') /\
    inv pl cs native (out ++ text_bytes UTF8 native x) err l qs s'.
Proof.
  intros pl cs native out err l qs k x m s I C P Sh. destruct (say_out _ _ _ _ _ _ _ _ _ _ I C P Sh) as (s' & E & I').
  exists s'. rewrite show_say, E. auto.
Qed.

Lemma show_err : forall pl cs native out err l qs k x m s, inv pl cs native out err l qs s -> settled out s -> caps_fit pl cs ->
  Forall (printable native UTF8 native k) x -> short pl (len (text_bytes UTF8 native x)) ->
  exists s', show_on pl (order_of native) StandardError k (units k x) (m, s) = Ok (m, s') /\
    inv pl cs native out (err ++ text_bytes UTF8 native x) l qs s' /\ settled out s'.
Proof.
  intros pl cs native out err l qs k x m s I St C P Sh. destruct (say_err _ _ _ _ _ _ _ _ _ _ I St C P Sh) as (s' & E & I').
  exists s'. rewrite show_say, E. auto.
Qed.

Lemma finish_step : forall pl cs native out err l qs cb m s, inv pl cs native out err l qs s -> caps_fit pl cs ->
  exists s', finish_line pl (order_of native) cb (m, s) = Ok (m, s') /\ inv pl cs native (out ++ [10%N]) err l qs s' /\ settled (out ++ [10%N]) s'.
Proof.
  intros pl cs native out err l qs cb m s I C.
  destruct (say_out _ _ _ _ _ _ _ K32 [10%N] _ I C) as (s1 & E1 & I1).
  { apply plain_printable. reflexivity. }
  { intros _. destruct native; reflexivity. }
  replace (text_bytes UTF8 native [10%N]) with [10%N] in I1 by (destruct native; reflexivity).
  destruct (flush_out _ _ _ _ _ _ _ _ I1 C) as (s' & E2 & I2 & S2). exists s'. split; [|auto].
  pose proof (print_char_say pl (order_of native) cb s) as P. rewrite E1 in P. unfold print_char in P. unfold finish_line.
  destruct (StreamModel.write_char _ _ _ _ _) as [st| | | |]; try discriminate. cbn [bind] in P |- *. injection P as <-. rewrite E2. reflexivity.
Qed.

Lemma module_step : forall pl cs native out err l qs m m' s, inv pl cs native out err l qs s -> settled out s ->
  inv pl cs native (out ++ printed (new_lines m m')) err l qs (module_prints m m' s) /\
  settled (out ++ printed (new_lines m m')) (module_prints m m' s).
Proof. intros. now apply cout_ok. Qed.

(* --------------------------------------------------------------------- tests *)

Ltac literal_ok := first [apply plain_printable; reflexivity | intros _; repeat match goal with b : byte_order |- _ => destruct b end; reflexivity].

Definition shrugs (native : byte_order) : list N :=
  text_bytes UTF8 native (shrug 49) ++ text_bytes UTF8 native [46; 10]%N ++ text_bytes UTF8 native (shrug 50) ++
  text_bytes UTF8 native [46; 10]%N ++ text_bytes UTF8 native (shrug 51) ++ text_bytes UTF8 native [46; 10]%N.

Lemma shrugs_out : forall pl cs native out err l qs m s, inv pl cs native out err l qs s -> caps_fit pl cs ->
  exists s', show_shrugs pl (order_of native) StandardOutput (m, s) = Ok (m, s') /\
    inv pl cs native (out ++ shrugs native) err l qs s' /\ settled (out ++ shrugs native) s'.
Proof.
  intros pl cs native out err l qs m s I C. unfold show_shrugs, shrugs.
  destruct (show_step _ _ _ _ _ _ _ K8 (shrug 49) m _ I C ltac:(literal_ok) ltac:(literal_ok)) as (s1 & -> & I1). cbn [bind].
  destruct (show_step _ _ _ _ _ _ _ K8 [46; 10]%N m _ I1 C ltac:(literal_ok) ltac:(literal_ok)) as (s2 & -> & I2). cbn [bind].
  destruct (show_step _ _ _ _ _ _ _ K16 (shrug 50) m _ I2 C ltac:(literal_ok) ltac:(literal_ok)) as (s3 & -> & I3). cbn [bind].
  destruct (show_step _ _ _ _ _ _ _ K16 [46; 10]%N m _ I3 C ltac:(literal_ok) ltac:(literal_ok)) as (s4 & -> & I4). cbn [bind].
  destruct (show_step _ _ _ _ _ _ _ K32 (shrug 51) m _ I4 C ltac:(literal_ok) ltac:(literal_ok)) as (s5 & -> & I5). cbn [bind].
  destruct (show_step _ _ _ _ _ _ _ K32 [46; 10]%N m _ I5 C ltac:(literal_ok) ltac:(literal_ok)) as (s6 & -> & I6). cbn [bind].
  destruct (flush_out _ _ _ _ _ _ _ _ I6 C) as (s' & -> & I7 & S7). cbn [bind]. exists s'. split; [reflexivity|].
  rewrite <- !app_assoc in I7, S7. auto.
Qed.

Lemma shrugs_err : forall pl cs native out err l qs m s, inv pl cs native out err l qs s -> settled out s -> caps_fit pl cs ->
  exists s', show_shrugs pl (order_of native) StandardError (m, s) = Ok (m, s') /\
    inv pl cs native out (err ++ shrugs native) l qs s' /\ settled out s'.
Proof.
  intros pl cs native out err l qs m s I T C. unfold show_shrugs, shrugs.
  destruct (show_err _ _ _ _ _ _ _ K8 (shrug 49) m _ I T C ltac:(literal_ok) ltac:(literal_ok)) as (s1 & -> & I1 & T1). cbn [bind].
  destruct (show_err _ _ _ _ _ _ _ K8 [46; 10]%N m _ I1 T1 C ltac:(literal_ok) ltac:(literal_ok)) as (s2 & -> & I2 & T2). cbn [bind].
  destruct (show_err _ _ _ _ _ _ _ K16 (shrug 50) m _ I2 T2 C ltac:(literal_ok) ltac:(literal_ok)) as (s3 & -> & I3 & T3). cbn [bind].
  destruct (show_err _ _ _ _ _ _ _ K16 [46; 10]%N m _ I3 T3 C ltac:(literal_ok) ltac:(literal_ok)) as (s4 & -> & I4 & T4). cbn [bind].
  destruct (show_err _ _ _ _ _ _ _ K32 (shrug 51) m _ I4 T4 C ltac:(literal_ok) ltac:(literal_ok)) as (s5 & -> & I5 & T5). cbn [bind].
  destruct (show_err _ _ _ _ _ _ _ K32 [46; 10]%N m _ I5 T5 C ltac:(literal_ok) ltac:(literal_ok)) as (s6 & -> & I6 & T6). cbn [bind].
  destruct (flush_err _ _ _ _ _ _ _ _ I6 T6 C) as (s' & -> & I7 & T7). cbn [bind]. exists s'. split; [reflexivity|].
  rewrite <- !app_assoc in I7. auto.
Qed.

Lemma output_ok : forall pl cs native out err l qs m m1 s, inv pl cs native out err l qs s -> settled out s -> caps_fit pl cs ->
  start_test m (literal "test_output") = Ok m1 ->
  exists s', let m2 := end_stage m1 in let m3 := end_stage m2 in
    let out' := out ++ printed (new_lines m m1) ++ shrugs native ++ printed (new_lines m1 m2) ++ printed (new_lines m2 m3) in
    test_output pl (order_of native) (m, s) = Ok ((m3, s'), true) /\
    inv pl cs native out' (err ++ shrugs native) l qs s' /\ settled out' s'.
Proof.
  intros pl cs native out err l qs m m1 s I T C E. unfold test_output, begin_test. rewrite E. cbn [bind].
  destruct (module_step _ _ _ _ _ _ _ m m1 _ I T) as [I1 T1].
  destruct (shrugs_out _ _ _ _ _ _ _ m1 _ I1 C) as (s2 & -> & I2 & T2). cbn [bind]. unfold stage_done.
  destruct (module_step _ _ _ _ _ _ _ m1 (end_stage m1) _ I2 T2) as [I3 T3].
  destruct (shrugs_err _ _ _ _ _ _ _ (end_stage m1) _ I3 T3 C) as (s4 & -> & I4 & T4). cbn [bind].
  destruct (module_step _ _ _ _ _ _ _ (end_stage m1) (end_stage (end_stage m1)) _ I4 T4) as [I5 T5].
  eexists. cbv zeta. split; [reflexivity|]. rewrite <- !app_assoc in I5, T5. auto.
Qed.

Lemma input_ok : forall pl cs native out err l qs cb fuel a r m m1 s, inv pl cs native out err l qs s -> settled out s ->
  caps_fit pl cs -> room pl cs -> start_test m (literal "test_input") = Ok m1 ->
  takes Line l a r -> Forall scalar l -> Forall (storable K8) a -> (List.length l < fuel)%nat -> short pl (len (text_bytes UTF8 native a)) ->
  let right := if list_eq_dec N.eq_dec (units K8 a) (units K8 [0x30C4%N]) then true else false in
  let asked := out ++ printed (new_lines m m1) ++ text_bytes UTF8 native (literal "Enter " ++ [0x30C4%N] ++ literal ": ") in
  let out' := asked ++ text_bytes UTF8 native (literal "Entered line: ") ++ text_bytes UTF8 native a ++ [10%N] ++
     (if right then printed (new_lines m1 (end_stage m1)) else literal "The input does not match the expected content." ++ newline) in
  exists s', test_input pl (order_of native) cb fuel (m, s) = Ok ((if right then end_stage m1 else m1, s'), right) /\
    inv pl cs native out' err r (asked :: qs) s' /\ settled out' s'.
Proof.
  intros pl cs native out err l qs cb fuel a r m m1 s I T C R E Tk Sc Sa F Sh right asked out'. unfold test_input, begin_test. rewrite E. cbn [bind].
  destruct (module_step _ _ _ _ _ _ _ m m1 _ I T) as [I1 T1].
  destruct (show_step _ _ _ _ _ _ _ K8 (literal "Enter " ++ [0x30C4%N] ++ literal ": ") m1 _ I1 C ltac:(literal_ok) ltac:(literal_ok)) as (s2 & -> & I2).
  cbn [bind]. rewrite <- app_assoc in I2. fold asked in I2.
  destruct (ask_step _ _ _ _ _ _ _ fuel Line K8 a r _ I2 C R Tk ltac:(discriminate) Sc Sa F) as (s3 & E3 & I3). unfold ask in E3.
  destruct (read_line _ _ _ _ _) as [[st input]| | | |]; try discriminate. cbn [bind] in E3 |- *. injection E3 as <- ->.
  destruct (show_step _ _ _ _ _ _ _ (KChar cb) (literal "Entered line: ") m1 _ I3 C ltac:(literal_ok) ltac:(literal_ok)) as (s4 & -> & I4). cbn [bind].
  assert (Pa : Forall (printable native UTF8 native K8) a).
  { apply Forall_forall. intros c Hc. rewrite Forall_forall in Sa. destruct (Sa c Hc) as [Hs _]. split; [exact Hs|]. intro X. destruct native; discriminate X. }
  destruct (show_step _ _ _ _ _ _ _ K8 a m1 _ I4 C Pa Sh) as (s5 & -> & I5). cbn [bind].
  destruct (finish_step _ _ _ _ _ _ _ cb m1 _ I5 C) as (s6 & -> & I6 & T6). cbn [bind].
  subst right out'. destruct (list_eq_dec N.eq_dec (units K8 a) (units K8 [0x30C4%N])) as [Y|Y].
  - destruct (module_step _ _ _ _ _ _ _ m1 (end_stage m1) _ I6 T6) as [I7 T7]. eexists. split; [reflexivity|].
    rewrite <- !app_assoc in I7, T7. auto.
  - destruct (cout_ok _ _ _ _ _ _ _ _ (literal "The input does not match the expected content." ++ newline) I6 T6) as [I7 T7]. eexists. split; [reflexivity|].
    rewrite <- !app_assoc in I7, T7. auto.
Qed.

(** Up to the first number. *)
Lemma first_asked : forall pl cs native out err l qs cb fuel w r m m1 s, inv pl cs native out err l qs s -> settled out s ->
  caps_fit pl cs -> room pl cs -> start_test m (literal "test_parsing_and_formatting") = Ok m1 ->
  takes Word l w r -> Forall scalar l -> Forall (storable K8) w -> (List.length l < fuel)%nat ->
  let asked := out ++ printed (new_lines m m1) ++ text_bytes UTF8 native (literal "Enter 5.5: ") in
  exists s', test_parsing_and_formatting pl (order_of native) cb fuel (m, s) =
      bind (parse_floating_point K8 F64 (units K8 w) default_float_format) (judge_first pl (order_of native) cb fuel (m1, s')) /\
    inv pl cs native asked err r (asked :: qs) s'.
Proof.
  intros pl cs native out err l qs cb fuel w r m m1 s I T C R E Tk Sc Sa F asked. unfold test_parsing_and_formatting, begin_test. rewrite E. cbn [bind].
  destruct (module_step _ _ _ _ _ _ _ m m1 _ I T) as [I1 T1].
  destruct (show_step _ _ _ _ _ _ _ K8 (literal "Enter 5.5: ") m1 _ I1 C ltac:(literal_ok) ltac:(literal_ok)) as (s2 & -> & I2).
  cbn [bind]. rewrite <- app_assoc in I2. fold asked in I2.
  destruct (ask_step _ _ _ _ _ _ _ fuel Word K8 w r _ I2 C R Tk ltac:(discriminate) Sc Sa F) as (s3 & E3 & I3). unfold ask in E3.
  unfold read_float. destruct (read_word _ _ _ _ _) as [[st input]| | | |]; try discriminate. cbn [bind] in E3 |- *. injection E3 as <- ->.
  exists (in_res st). split; [|exact I3]. destruct (parse_floating_point _ _ _ _) as [x| | | |]; reflexivity.
Qed.

(** Visible text is one byte for each character. *)
Lemma visible_bytes : forall native t, Forall visible t -> text_bytes UTF8 native t = t.
Proof.
  intros native t V. induction V as [|c t Vc V IH]; [reflexivity|]. change (c :: t) with ([c] ++ t) at 1. rewrite text_bytes_app, IH.
  unfold visible in Vc.
  assert (F : forall n, (n < 127)%nat -> text_bytes UTF8 native [N.of_nat n] = [N.of_nat n]).
  { intros n Hn. do 127 (destruct n as [|n]; [destruct native; reflexivity|]). lia. }
  rewrite <- (N2Nat.id c), F by lia. reflexivity.
Qed.

Lemma double_is : ieee F64.
Proof. unfold ieee. auto. Qed.

Lemma shown_number : forall pl cs native out err l qs t m s, inv pl cs native out err l qs s -> caps_fit pl cs ->
  Forall visible t -> Z.of_nat (List.length t) < 20022 ->
  exists s', bind (write_string (order_of native) (out_sink pl StandardOutput) K8 (uout_or_uerr (order_of native) s) t) (fun st => Ok (m, out_res st))
      = Ok (m : module, s') /\ inv pl cs native (out ++ t) err l qs s'.
Proof.
  intros pl cs native out err l qs t m s I C V L.
  destruct (show_step pl cs native out err l qs K8 t m s I C) as (s' & E & I').
  - now apply visible_printable.
  - intros _. rewrite visible_bytes by exact V. unfold len. lia.
  - rewrite visible_bytes in I' by exact V. unfold show_on in E. rewrite visible_units in E by exact V. eauto.
Qed.

(** The first number, shown and judged. *)
Lemma first_shown : forall pl cs native out err l qs cb fuel x t m s, inv pl cs native out err l qs s -> caps_fit pl cs ->
  format_floating_point K8 cb F64 x default_float_format = Ok t -> Forall visible t -> Z.of_nat (List.length t) < 20022 ->
  let out' := out ++ text_bytes UTF8 native (literal "Entered value: ") ++ t ++ [10%N] in
  exists s', inv pl cs native out' err l qs s' /\ settled out' s' /\
    judge_first pl (order_of native) cb fuel (m, s) x =
    (if equals_double x five_and_a_half then
       bind (show_on pl (order_of native) StandardOutput K8 (units K8 (literal "Enter -75: ")) (stage_done (m, s'))) (fun '(m, s) =>
       bind (read_integer (order_of native) (uin_source pl) fuel I32 (uin pl (order_of native) s)) (fun '(st, input2) =>
       judge_second pl (order_of native) cb (m, in_res st) input2))
     else Ok (complain "The parsed input does not match the expected value." (m, s'), false)).
Proof.
  intros pl cs native out err l qs cb fuel x t m s I C E V L out'. unfold judge_first.
  destruct (show_step _ _ _ _ _ _ _ (KChar cb) (literal "Entered value: ") m _ I C ltac:(literal_ok) ltac:(literal_ok)) as (s1 & -> & I1). cbn [bind].
  unfold write_float. change (own_kind (out_form (uout_or_uerr (order_of native) s1))) with K8. rewrite E. cbn [bind].
  destruct (shown_number _ _ _ _ _ _ _ t m _ I1 C V L) as (s2 & E2 & I2).
  destruct (write_string _ _ _ _ _) as [st| | | |]; try discriminate. cbn [bind] in E2 |- *. injection E2 as <-.
  destruct (finish_step _ _ _ _ _ _ _ cb m _ I2 C) as (s3 & -> & I3 & T3). cbn [bind]. exists s3.
  rewrite <- !app_assoc in I3, T3. auto.
Qed.

(** The second question. *)
Lemma second_asked : forall pl cs native out err l qs cb fuel w r m s, inv pl cs native out err l qs s -> settled out s ->
  caps_fit pl cs -> room pl cs -> takes Word l w r -> Forall scalar l -> Forall (storable K8) w -> (List.length l < fuel)%nat ->
  let m1 := end_stage m in
  let asked := out ++ printed (new_lines m m1) ++ text_bytes UTF8 native (literal "Enter -75: ") in
  exists s', inv pl cs native asked err r (asked :: qs) s' /\
    bind (show_on pl (order_of native) StandardOutput K8 (units K8 (literal "Enter -75: ")) (stage_done (m, s))) (fun '(m, s) =>
    bind (read_integer (order_of native) (uin_source pl) fuel I32 (uin pl (order_of native) s)) (fun '(st, input2) =>
    judge_second pl (order_of native) cb (m, in_res st) input2))
    = bind (parse_integer K8 I32 (units K8 w) default_integer_format) (judge_second pl (order_of native) cb (m1, s')).
Proof.
  intros pl cs native out err l qs cb fuel w r m s I T C R Tk Sc Sa F m1 asked. unfold stage_done.
  destruct (module_step _ _ _ _ _ _ _ m m1 _ I T) as [I1 T1]. fold m1.
  destruct (show_step _ _ _ _ _ _ _ K8 (literal "Enter -75: ") m1 _ I1 C ltac:(literal_ok) ltac:(literal_ok)) as (s2 & -> & I2).
  cbn [bind]. rewrite <- app_assoc in I2. fold asked in I2.
  destruct (ask_step _ _ _ _ _ _ _ fuel Word K8 w r _ I2 C R Tk ltac:(discriminate) Sc Sa F) as (s3 & E3 & I3). unfold ask in E3.
  unfold read_integer. destruct (read_word _ _ _ _ _) as [[st input]| | | |]; try discriminate. cbn [bind] in E3 |- *. injection E3 as <- ->.
  exists (in_res st). split; [exact I3|]. destruct (parse_integer _ _ _ _) as [x| | | |]; reflexivity.
Qed.

Lemma second_shown : forall pl cs native out err l qs cb v t m s, inv pl cs native out err l qs s -> caps_fit pl cs ->
  format_integer K8 cb I32 v default_integer_format = Ok t -> Forall visible t -> Z.of_nat (List.length t) < 20022 ->
  let out' := out ++ text_bytes UTF8 native (literal "Entered value: ") ++ t ++ [10%N] in
  let right := (v =? -75) in
  let out2 := out' ++ (if right then printed (new_lines m (end_stage m)) else literal "The parsed input does not match the expected value." ++ newline) in
  exists s', judge_second pl (order_of native) cb (m, s) v = Ok ((if right then end_stage m else m, s'), right) /\
    inv pl cs native out2 err l qs s' /\ settled out2 s'.
Proof.
  intros pl cs native out err l qs cb v t m s I C E V L out' right out2. unfold judge_second.
  destruct (show_step _ _ _ _ _ _ _ (KChar cb) (literal "Entered value: ") m _ I C ltac:(literal_ok) ltac:(literal_ok)) as (s1 & -> & I1). cbn [bind].
  unfold write_integer. change (own_kind (out_form (uout_or_uerr (order_of native) s1))) with K8. rewrite E. cbn [bind].
  destruct (shown_number _ _ _ _ _ _ _ t m _ I1 C V L) as (s2 & E2 & I2).
  destruct (write_string _ _ _ _ _) as [st| | | |]; try discriminate. cbn [bind] in E2 |- *. injection E2 as <-.
  destruct (finish_step _ _ _ _ _ _ _ cb m _ I2 C) as (s3 & -> & I3 & T3). cbn [bind].
  rewrite <- !app_assoc in I3, T3. fold out' in I3, T3. fold right. subst out2. destruct right.
  - destruct (module_step _ _ _ _ _ _ _ m (end_stage m) _ I3 T3) as [I4 T4]. eexists. split; [reflexivity|]. auto.
  - destruct (cout_ok _ _ _ _ _ _ _ _ (literal "The parsed input does not match the expected value." ++ newline) I3 T3) as [I4 T4]. eexists. split; [reflexivity|]. auto.
Qed.

(* ------------------------------------------------------------------- numbers *)

(** The finite values parse_floating_point gives are values of the type. *)
Lemma rounded_value : forall t z n, 0 < prec t -> fround t z = Fin n -> has_value t n.
Proof.
  intros t z n Hp E. unfold fround, pack in E. fold (limit_of t) in E.
  destruct (Z.ltb_spec (Z.abs (round_units (prec t) z)) (limit_of t)) as [L|L]; [|discriminate]. injection E as <-.
  apply in_has_value; [exact Hp|now apply round_rep_abs|exact L].
Qed.

Lemma fraction_value : forall t r s root output n, 0 < prec t ->
  (forall n, output = Fin n -> has_value t n) ->
  fraction_digits t r s root output = Ok (Fin n) -> has_value t n.
Proof.
  intros t r s. induction s as [|c s IH]; intros root output n Hp Ho E; cbn [fraction_digits] in E.
  - apply Ho. congruence.
  - destruct (digit_character_to_integer c r) as [[d|]| | | |]; try discriminate. cbn [bind] in E.
    destruct (append_digit t r d root output) as [root' output'] eqn:A. apply IH in E; auto.
    intros k ->. unfold append_digit in A. injection A as _ A. unfold fadd in A.
    destruct output as [x|b|]; [|discriminate|discriminate].
    destruct (divide_digit t d (times_radix t root r)) as [y|b|]; try discriminate. now apply rounded_value in A.
Qed.

Lemma parsed_value : forall k t s f n, 0 < prec t -> parse_floating_point k t s f = Ok (Fin n) -> has_value t n.
Proof.
  intros k t s f n Hp E. unfold parse_floating_point in E. destruct (convert_string K32 k s) as [u| | | |]; try discriminate. cbn [bind] in E.
  destruct (equivalent_format f) as [ef| | | |]; try discriminate. cbn [bind] in E.
  assert (L : forall i n, from_long_long t i = Fin n -> has_value t n) by (intros i m X; now apply rounded_value in X).
  destruct (split_at (point_char (point f)) u) as [[integral fraction]|].
  - destruct (parse_integer K32 I64 integral ef) as [i| | | |]; try discriminate. cbn [bind] in E. destruct fraction as [|c fraction].
    + destruct (limit f); [|destruct (0 <? places f)%N|destruct (0 <? places f)%N]; try discriminate; injection E as E; eauto.
    + eapply fraction_value; [exact Hp| |exact E]. eauto.
  - destruct (parse_integer K32 I64 u ef) as [i| | | |]; try discriminate. cbn [bind] in E. injection E as E. eauto.
Qed.

(** Every value is either shown, or showing it is undefined. *)
Lemma double_text : forall cb w x, parse_floating_point K8 F64 w default_float_format = Ok x ->
  (exists t, format_floating_point K8 cb F64 x default_float_format = Ok t /\ Forall visible t /\ Z.of_nat (List.length t) < 20022) \/
  (exists u, format_floating_point K8 cb F64 x default_float_format = UB u).
Proof.
  intros cb w x E.
  destruct (C26_range_refuted (fraction_fuel F64 default_float_format) K8 cb F64 default_float_format double_is default_radix) as (A & B & C & D).
  unfold format_floating_point. destruct x as [n|b|]; [|right; eauto|right; eauto].
  apply parsed_value in E; [|reflexivity].
  destruct (Z.lt_ge_cases n (- 2 ^ 63 * one F64)) as [X|X]; [right; eauto|].
  destruct (Z.le_gt_cases (2 ^ 63 * one F64) n) as [Y|Y]; [right; eauto|].
  destruct (Z.lt_ge_cases n (- (2 ^ 63 - 1) * one F64)) as [W|W]; [right; eauto|].
  left. destruct (number_text K8 cb F64 n double_is E) as (t & Et & V & _ & L & _); [split; assumption|]. exists t. auto.
Qed.

Lemma int_text : forall cb w v, parse_integer K8 I32 w default_integer_format = Ok v -> v <> min_of I32 -> in_range I32 v ->
  exists t, format_integer K8 cb I32 v default_integer_format = Ok t /\ numeral 10 false None v t /\ Forall visible t /\ Z.of_nat (List.length t) < 20022.
Proof.
  intros cb w v E Hm R.
  assert (Io : item_ok (Int I32 v)) by (cbn [item_ok]; split; [unfold standard; cbn; auto 10|auto]).
  destruct (item_text _ Io) as (t & T). pose proof (text_short _ _ Io T) as Sh. destruct T as (V & _ & F). destruct (F K8 cb) as [Ef _].
  exists t. split; [exact Ef|]. split; [|split; [exact V|lia]].
  destruct (C18_canonical_partial K8 cb I32 v default_integer_format ltac:(unfold standard; cbn; auto 10) R
    ltac:(vm_compute; split; discriminate) ltac:(auto)) as (t' & Et & Nt & _).
  rewrite Ef in Et. injection Et as <-. exact Nt.
Qed.
