(** Proofs about programs that use the standard streams. *)
From Coq Require Import NArith ZArith List Bool Lia ZifyBool ZifyNat ZifyN.
From Verif Require Import Base Integers UnicodeSpec UnicodeModel UnicodeText UnicodeLemmas UnicodeLemmas2 UnicodeLemmas3
  ResourceSpec ResourceModel ResourceLemmas StreamSpec StreamModel StreamText StreamLemmas StreamLemmas2 StreamLemmas3
  StdioSpec StdioModel StdioText StdioLemmas StdioLemmas2 StdioLemmas3.
Import ListNotations.
Open Scope Z_scope.

Lemma good_new : forall pl arr ci co ce, proper (unit_of pl) arr ->
  good pl (Caps (Z.of_nat ci) (Z.of_nat co) (Z.of_nat ce)) (fun _ => []) (typed arr) (new_stdio (patient_console arr) ci co ce).
Proof.
  intros pl arr ci co ce P. split; [|split; [|reflexivity]].
  - cbn [os new_stdio patient_console arrivals uin_buffer c_in]. now apply has_input_new.
  - intros [|]; apply has_output_new.
Qed.

Lemma caps_ok : forall pl ci co ce, capacities_fit ci co ce ->
  caps_fit pl (Caps (Z.of_nat ci) (Z.of_nat co) (Z.of_nat ce)).
Proof. intros pl ci co ce (H1 & H2 & H3). unfold caps_fit, short. cbn [c_in c_out c_err]. lia. Qed.

(* ------------------------------------------------------------------- bytes *)

Lemma run_calls_app : forall pl a b s, run_calls pl s (a ++ b) =
  bind (run_calls pl s a) (fun '(s, rs) => bind (run_calls pl s b) (fun '(s, rs') => Ok (s, rs ++ rs'))).
Proof.
  induction a as [|x a IH]; intros b s.
  - cbn. destruct (run_calls pl s b) as [[]| | | |]; reflexivity.
  - destruct x as [ch d|ch|block n]; cbn [app run_calls].
    + destruct (out_write pl ch s d) as [[]| | | |]; cbn [bind]; auto.
    + destruct (out_flush pl ch s) as [?| | | |]; cbn [bind]; auto.
    + destruct (uin_read pl s block n) as [[[]]| | | |]; cbn [bind]; auto. rewrite IH.
      destruct (run_calls pl _ a) as [[]| | | |]; cbn [bind]; auto.
      destruct (run_calls pl _ b) as [[]| | | |]; cbn [bind]; auto.
Qed.

Lemma sent_app : forall ch a b, sent ch (a ++ b) = sent ch a ++ sent ch b.
Proof. intros. unfold sent. apply flat_map_app. Qed.

Lemma run_ok : forall pl cs calls sent0 rest s, good pl cs sent0 rest s -> caps_fit pl cs -> calls_fit pl calls ->
  exists s' rs rest', run_calls pl s calls = Ok (s', rs) /\ rest = concat rs ++ rest' /\
    good pl cs (fun ch => sent0 ch ++ sent ch calls) rest' s' /\
    received (log (os s')) ++ typed (arrivals (os s')) = received (log (os s)) ++ typed (arrivals (os s)).
Proof.
  intros pl cs. induction calls as [|x calls IH]; intros sent0 rest s G C F.
  - exists s, [], rest. split; [reflexivity|]. split; [reflexivity|]. split; [|reflexivity].
    eapply good_ext; [exact G|]. intro ch. cbn. apply app_nil_r.
  - pose proof (Forall_inv F) as Fx. pose proof (Forall_inv_tail F) as F'. destruct x as [ch d|ch|block n]; cbn [run_calls] in *.
    + destruct (put_ok pl cs sent0 rest s ch d G C Fx) as (s1 & w & E & G1 & L & V). rewrite E. cbn [bind].
      destruct (IH _ _ _ G1 C F') as (s' & rs & rest' & E' & R & G' & T). exists s', rs, rest'. split; [exact E'|].
      split; [exact R|]. split; [|rewrite T, L, received_app, (shows_received w V), app_nil_r; f_equal].
      * eapply good_ext; [exact G'|]. intro ch'. unfold after. cbn [sent flat_map]. fold (sent ch' calls).
        destruct (same_channel ch' ch); cbn [app]; [now rewrite <- app_assoc|reflexivity].
      * (* the input is as it was *)
        revert E. unfold out_write. destruct G as (_ & O & A). destruct (cap_short pl cs ch C) as [C0 Cs].
        destruct (write_ok pl _ ch _ _ _ d A (O ch) C0 Cs Fx) as (c' & b' & w' & E1 & _ & _ & _ & _ & Ar & _).
        rewrite E1. cbn [bind]. intro X.
        assert (Y : with_out ch s (Resource c' b') = s1) by congruence. rewrite <- Y.
        replace (os (with_out ch s (Resource c' b'))) with c' by (destruct ch; reflexivity). now rewrite Ar.
    + destruct (finish_ok pl cs sent0 rest s ch G C) as (s1 & w & E & G1 & S1 & L & V & _). rewrite E. cbn [bind].
      destruct (IH _ _ _ G1 C F') as (s' & rs & rest' & E' & R & G' & T). exists s', rs, rest'. split; [exact E'|].
      split; [exact R|]. split; [exact G'|]. rewrite T, L, received_app, (shows_received w V), app_nil_r. f_equal.
      revert E. unfold out_flush. destruct G as (_ & O & A). destruct (cap_short pl cs ch C) as [C0 Cs].
      destruct (flush_ok pl _ ch _ _ _ A (O ch) Cs) as (c' & b' & w' & E1 & _ & _ & _ & _ & _ & _ & Ar & _).
      rewrite E1. cbn [bind]. intro X.
      assert (Y : with_out ch s (Resource c' b') = s1) by congruence. rewrite <- Y.
      replace (os (with_out ch s (Resource c' b'))) with c' by (destruct ch; reflexivity). now rewrite Ar.
    + destruct Fx as [Nb Nl].
      destruct (get_ok pl cs sent0 rest s block n G C Nb Nl)
        as (s1 & d & rest1 & f & w & E & R1 & Ld & G1 & L & V & W & S1 & T1 & _ & _ & _). rewrite E. cbn [bind].
      destruct (IH _ _ _ G1 C F') as (s' & rs & rest' & E' & R & G' & T). rewrite E'. cbn [bind].
      exists s', (d :: rs), rest'. split.
      { do 2 f_equal. f_equal. change (take (len d) (d ++ drop (len d) block) = d). apply take_app_exact. }
      split; [cbn [concat]; rewrite <- app_assoc, <- R; exact R1|]. split; [exact G'|].
      rewrite T, L, !received_app, (shows_received f V). cbn [app]. rewrite <- app_assoc. now rewrite T1.
Qed.

(** The end of the program. *)
Lemma end_ok : forall pl cs b sent0 rest s, good pl cs sent0 rest s -> caps_fit pl cs ->
  exists s', end_program pl b s = Ok s' /\ forall ch, shown ch (log (os s')) = sent0 ch.
Proof.
  intros pl cs b sent0 rest s G C. unfold end_program.
  destruct (finish_ok pl cs sent0 rest s StandardError G C) as (s1 & w1 & E1 & G1 & S1 & L1 & V1 & X1).
  destruct (finish_ok pl cs sent0 rest s1 StandardOutput G1 C) as (s2 & w2 & E2 & G2 & S2 & L2 & V2 & X2).
  exists s2. split.
  - destruct b; cbn [construction_order rev app destroy_statics is_alive existsb static_eqb orb bind];
      rewrite E1; cbn [bind]; rewrite E2; reflexivity.
  - intros [|]; [exact S2|]. rewrite L2, shown_app, (X2 StandardError eq_refl), app_nil_r. exact S1.
Qed.

(* -------------------------------------------------------------------- text *)

(** What happened since the log was L0: the waits. *)
Definition waits_fine (said : list N) (L0 : list happening) (used : Z) (d : list happening) : Prop :=
  forall d1 b d2, d = d1 ++ Waited b :: d2 ->
    shown StandardOutput (L0 ++ d1) = said /\ len (received (L0 ++ d1)) < used.

Definition asking (pl : platform) (cs : caps) (sent : channel -> list N) (L0 : list happening) (T : list N)
  (rest : list N) (s : stdio) : Prop :=
  good pl cs sent rest s /\ received (log (os s)) ++ typed (arrivals (os s)) = T /\
  exists d, log (os s) = L0 ++ d /\ waits_fine (sent StandardOutput) L0 (len T - len rest) d.

Definition room (pl : platform) (cs : caps) : Prop := pl = Windows -> 2 <= c_in cs.

Lemma split_log : forall a b (d1 : list happening) x d2, a ++ b = d1 ++ x :: d2 ->
  (exists d2', a = d1 ++ x :: d2' /\ d2 = d2' ++ b) \/ (exists b1, b = b1 ++ x :: d2 /\ d1 = a ++ b1).
Proof.
  induction a as [|y a IH]; intros b d1 x d2 E.
  - right. exists d1. auto.
  - destruct d1 as [|z d1]; cbn [app] in E; injection E as -> E.
    + left. exists a. auto.
    + destruct (IH _ _ _ _ E) as [(d2' & -> & ->)|(b1 & -> & ->)]; [left; exists d2'; auto|right; exists b1; auto].
Qed.

Lemma shows_waited : forall w a b c, shows w -> w <> a ++ Waited b :: c.
Proof. intros w a b c H ->. apply Forall_app in H. destruct H as [_ H]. inversion H; contradiction. Qed.

Lemma waits_split : forall a b c, waits (a ++ Waited b :: c) -> waits a.
Proof. intros a b c H. apply Forall_app in H. tauto. Qed.

Lemma uin_reader : forall pl cs sent L0 T, caps_fit pl cs -> room pl cs ->
  good_reader (uin_source pl) (unit_of pl) (asking pl cs sent L0 T).
Proof.
  intros pl cs sent L0 T C Rm. split. intros rest s block n (G & Tt & d & Ld & Wf) Nb Nu Nr. cbn [uin_source source_read].
  assert (U : unit_of pl <= 2) by (destruct pl; cbn; lia).
  destruct (get_ok pl cs sent rest s block n G C ltac:(lia) ltac:(lia))
    as (s1 & b & rest1 & f & w & E & R1 & Lb & G1 & L & V & W & S1 & T1 & Wt & _ & M).
  assert (Lbn : len b = n).
  { rewrite M; [lia|exact Nu|]. destruct pl; cbn [unit_of] in *.
    - destruct C as (C1 & _). destruct (Z.eq_dec (c_in cs) 0); [right; lia|left; lia].
    - left. exact (Rm eq_refl). }
  assert (Tb : take n rest = b) by (rewrite R1, <- Lbn; apply take_app_exact).
  assert (Db : drop n rest = rest1) by (rewrite R1, <- Lbn; apply drop_app_exact).
  rewrite Tb, Db. rewrite Lbn in E. exists s1. split; [exact E|].
  assert (Lr : len rest = n + len rest1) by (rewrite R1, len_app; lia).
  split; [exact G1|]. split.
  { rewrite L, !received_app, (shows_received f V). cbn [app]. rewrite <- app_assoc, T1. exact Tt. }
  exists (d ++ f ++ w). split; [rewrite L, Ld, !app_assoc; reflexivity|].
  intros d1 g d2 X. destruct (split_log _ _ _ _ _ X) as [(d2' & Y & _)|(b1 & Y & ->)].
  - destruct (Wf _ _ _ Y) as [Sh Rc]. split; [exact Sh|]. lia.
  - destruct (split_log _ _ _ _ _ Y) as [(d2' & Z0 & _)|(w1 & Z0 & ->)].
    { exfalso. exact (shows_waited _ _ _ _ V Z0). }
    pose proof (waits_split w1 g d2 ltac:(rewrite <- Z0; exact W)) as W1.
    split.
    + rewrite !app_assoc, shown_app, (waits_shown _ w1 W1), app_nil_r, <- Ld. exact S1.
    + pose proof (Wt _ _ _ Z0 ltac:(lia)) as Q. rewrite !app_assoc, <- Ld, !received_app, (shows_received f V), app_nil_r.
      assert (len T = len (received (log (os s))) + len (typed (arrivals (os s)))) by (rewrite <- Tt, len_app; reflexivity).
      rewrite len_app. lia.
Qed.

(** Without the waits, to the end of the input. *)
Lemma uin_to_the_end : forall pl cs sent, caps_fit pl cs -> room pl cs ->
  good_source (Source stdio (uin_read pl) (fun s => Ok (len (at_hand (uin_buffer s)) + len (typed (arrivals (os s))) =? 0)))
    (unit_of pl) (good pl cs sent).
Proof.
  intros pl cs sent C Rm. split.
  - intros rest s block n G Nb Nu. cbn [source_read].
    assert (U : unit_of pl <= 2) by (destruct pl; cbn; lia).
    destruct (get_ok pl cs sent rest s block n G C ltac:(lia) ltac:(lia))
      as (s1 & b & rest1 & f & w & E & R1 & Lb & G1 & L & V & W & S1 & T1 & Wt & _ & M).
    assert (Lbn : len b = Z.min n (len rest)).
    { apply M; [exact Nu|]. destruct pl; cbn [unit_of] in *.
      - destruct C as (C1 & _). destruct (Z.eq_dec (c_in cs) 0); [right; lia|left; lia].
      - left. exact (Rm eq_refl). }
    assert (Tb : take n rest = b).
    { rewrite R1. destruct (Z.le_ge_cases n (len rest)) as [Q|Q].
      - rewrite <- (take_app_exact b rest1) at 2. now replace n with (len b) by lia.
      - assert (rest1 = []) by (apply len_zero; rewrite R1, len_app in *; pose proof (len_nonneg rest1); lia). subst rest1.
        rewrite app_nil_r. apply take_all. rewrite app_nil_r in R1. subst b. lia. }
    assert (Db : drop n rest = rest1).
    { rewrite R1. destruct (Z.le_ge_cases n (len rest)) as [Q|Q].
      - replace n with (len b) by lia. apply drop_app_exact.
      - assert (rest1 = []) by (apply len_zero; rewrite R1, len_app in *; pose proof (len_nonneg rest1); lia). subst rest1.
        rewrite app_nil_r. apply drop_all. rewrite app_nil_r in R1. subst b. lia. }
    rewrite Tb, Db. exists s1. auto.
  - intros rest s (I & _). cbn [source_at_end]. destruct I as (_ & _ & _ & _ & _ & ->). now rewrite len_app.
Qed.

(** Output through a stream. *)
Definition saying (pl : platform) (cs : caps) (sent : channel -> list N) (ch : channel) (rest : list N) (L0 : list happening)
  (T : list N) (b : list N) (s : stdio) : Prop :=
  good pl cs (after sent ch b) rest s /\ received (log (os s)) ++ typed (arrivals (os s)) = T /\
  exists w, log (os s) = L0 ++ w /\ shows w.

Lemma out_arrivals : forall pl cs sent rest s ch, good pl cs sent rest s -> caps_fit pl cs ->
  (forall d s' k, short pl (len d) -> out_write pl ch s d = Ok (s', k) -> arrivals (os s') = arrivals (os s)) /\
  (forall s', out_flush pl ch s = Ok s' -> arrivals (os s') = arrivals (os s)).
Proof.
  intros pl cs sent rest s ch (_ & O & A) C. destruct (cap_short pl cs ch C) as [C0 Cs]. split.
  - intros d s' k Sd. unfold out_write.
    destruct (write_ok pl _ ch _ _ _ d A (O ch) C0 Cs Sd) as (c' & b' & w' & E1 & _ & _ & _ & _ & Ar & _).
    rewrite E1. cbn [bind]. intro X. assert (Y : with_out ch s (Resource c' b') = s') by congruence. rewrite <- Y.
    replace (os (with_out ch s (Resource c' b'))) with c' by (destruct ch; reflexivity). exact Ar.
  - intros s'. unfold out_flush. destruct (flush_ok pl _ ch _ _ _ A (O ch) Cs) as (c' & b' & w' & E1 & _ & _ & _ & _ & _ & _ & Ar & _).
    rewrite E1. cbn [bind]. intro X. assert (Y : with_out ch s (Resource c' b') = s') by congruence. rewrite <- Y.
    replace (os (with_out ch s (Resource c' b'))) with c' by (destruct ch; reflexivity). exact Ar.
Qed.

Lemma after_app : forall sent ch b d ch', after (after sent ch b) ch d ch' = after sent ch (b ++ d) ch'.
Proof. intros. unfold after. destruct (same_channel ch' ch); [now rewrite <- app_assoc|reflexivity]. Qed.

Lemma out_good_sink : forall pl cs sent ch rest L0 T limit, caps_fit pl cs -> short pl limit ->
  good_sink (out_sink pl ch) limit (saying pl cs sent ch rest L0 T).
Proof.
  intros pl cs sent ch rest L0 T limit C Sl. split.
  - intros b s d (G & Tt & w & L & V) Lm. cbn [out_sink sink_write].
    assert (Sd : short pl (len d)).
    { intro H. specialize (Sl H). rewrite len_app in Lm. pose proof (len_nonneg b). lia. }
    destruct (put_ok pl cs _ rest s ch d G C Sd) as (s' & w' & E & G' & L' & V'). exists s', (len d). split; [exact E|].
    split; [eapply good_ext; [exact G'|]; intro ch'; symmetry; apply after_app|].
    split; [rewrite L', received_app, (shows_received _ V'), app_nil_r, (proj1 (out_arrivals _ _ _ _ _ ch G C) _ _ _ Sd E); exact Tt|].
    exists (w ++ w'). split; [rewrite L', L, app_assoc; reflexivity|apply Forall_app; auto].
  - intros b s (G & Tt & w & L & V). cbn [out_sink sink_flush].
    destruct (finish_ok pl cs _ rest s ch G C) as (s' & w' & E & G' & S' & L' & V' & X). exists s'. split; [exact E|].
    split; [exact G'|].
    split; [rewrite L', received_app, (shows_received _ V'), app_nil_r, (proj2 (out_arrivals _ _ _ _ _ ch G C) _ E); exact Tt|].
    exists (w ++ w'). split; [rewrite L', L, app_assoc; reflexivity|apply Forall_app; auto].
Qed.

Lemma say_ok : forall pl cs native sent ch rest k l s, good pl cs sent rest s -> caps_fit pl cs ->
  Forall (printable native UTF8 native k) l -> short pl (len (text_bytes UTF8 native l)) ->
  exists s' w, say pl (order_of native) ch k l s = Ok s' /\ good pl cs (after sent ch (text_bytes UTF8 native l)) rest s' /\
    received (log (os s')) ++ typed (arrivals (os s')) = received (log (os s)) ++ typed (arrivals (os s)) /\
    log (os s') = log (os s) ++ w /\ shows w.
Proof.
  intros pl cs native sent ch rest k l s G C P Sl. unfold say.
  set (T := received (log (os s)) ++ typed (arrivals (os s))).
  pose proof (out_good_sink pl cs sent ch rest (log (os s)) T _ C Sl) as K.
  assert (H : wrote (saying pl cs sent ch rest (log (os s)) T) UTF8 native [] (uout_or_uerr (order_of native) s)).
  { split; [|split; reflexivity]. cbn [uout_or_uerr out_res]. split; [|split; [reflexivity|]].
    - eapply good_ext; [exact G|]. intro ch'. unfold after. destruct (same_channel ch' ch); [apply app_nil_r|reflexivity].
    - exists []. split; [now rewrite app_nil_r|constructor]. }
  destruct (write_string_ok native (out_sink pl ch) _ _ K UTF8 native k l [] _ P H ltac:(cbn [app]; lia))
    as (st' & E & (G' & Tt & w & L & V) & _). cbn [app] in *.
  rewrite E. cbn [bind]. exists (out_res st'), w. split; [reflexivity|]. split; [exact G'|]. split; [exact Tt|]. auto.
Qed.

Lemma storable_insertable : forall k l, Forall (storable k) l -> Forall (insertable k) l.
Proof. intros k l H. exact H. Qed.

Lemma unit_width_of : forall pl, Z.of_nat (unit_width (console_encoding pl)) = unit_of pl.
Proof. intros [|]; reflexivity. Qed.

(** The answer to one question. *)
Lemma ask_ok : forall pl cs native sent L0 T fuel q k l a r s, caps_fit pl cs -> room pl cs -> takes q l a r -> Forall scalar l ->
  (match q with Character => True | _ => Forall (storable k) a end) -> (length l < fuel)%nat ->
  asking pl cs sent L0 T (text_bytes (console_encoding pl) native l) s ->
  exists s', ask pl (order_of native) fuel q k s = Ok (s', match q with Character => a | _ => units k a end) /\
    asking pl cs sent L0 T (text_bytes (console_encoding pl) native r) s'.
Proof.
  intros pl cs native sent L0 T fuel q k l a r s C Rm Tk S St F A. unfold ask.
  pose proof (uin_reader pl cs sent L0 T C Rm) as G.
  assert (B : Z.of_nat (unit_width (console_encoding pl)) <= unit_of pl) by (rewrite unit_width_of; lia).
  set (st := uin pl (order_of native) s).
  assert (H : before (asking pl cs sent L0 T) (console_encoding pl) native (text_bytes (console_encoding pl) native l) st).
  { split; [exact A|]. destruct pl; split; reflexivity. }
  clearbody st. change (uin_source pl) with (never_ends (uin_source pl)).
  destruct Tk as [c r N|r|a le r Le N10 N13|ws w le r Ws Nw Ww Le].
  - inversion S; subst. destruct (never_plain native _ _ _ G _ native B c r st) as (st' & E & H'); try assumption.
    rewrite E. cbn [bind]. exists (in_res st'). split; [reflexivity|apply H'].
  - inversion S as [|? ? ? S']; subst. inversion S'; subst.
    destruct (never_cr native _ _ _ G _ native B 10%N r st) as (st' & E & H'); try assumption.
    rewrite E. cbn [bind]. exists (in_res st'). split; [reflexivity|apply H'].
  - destruct (never_line native _ _ _ G _ native B k a fuel [] r le st) as (st' & E & H'); try assumption.
    + rewrite app_length in F. lia.
    + unfold read_line. rewrite E. cbn [bind app]. exists (in_res st'). split; [reflexivity|apply H'].
  - destruct (never_word native _ _ _ G _ native B k ws w fuel le r st) as (st' & E & H'); try assumption.
    + rewrite !app_length in *. lia.
    + lia.
    + rewrite E. cbn [bind app]. exists (in_res st'). split; [reflexivity|apply H'].
Qed.

Lemma takes_suffix : forall q l a r, takes q l a r -> exists p, l = p ++ r.
Proof.
  intros q l a r [c r' N|r'|a' le r' Le N10 N13|ws w le r' Ws Nw Ww Le].
  - now exists [c].
  - now exists [13%N; 10%N].
  - exists (a' ++ le). now rewrite <- app_assoc.
  - exists (ws ++ w ++ le). now rewrite <- !app_assoc.
Qed.

Lemma dialogue_suffix : forall t l rs r, dialogue t l rs r -> exists p, l = p ++ r.
Proof.
  intros t l rs r D. induction D as [l|ch k x t l rs r D IH|ch t l rs r D IH|q k t l a l' rs r Tk D [p IH]]; auto.
  - now exists [].
  - destruct (takes_suffix _ _ _ _ Tk) as [p' ->]. exists (p' ++ p). now rewrite IH, <- app_assoc.
Qed.

Lemma run_turns_app : forall pl native fuel a b s, run_turns pl native fuel s (a ++ b) =
  bind (run_turns pl native fuel s a) (fun '(s, rs) => bind (run_turns pl native fuel s b) (fun '(s, rs') => Ok (s, rs ++ rs'))).
Proof.
  induction a as [|x a IH]; intros b s.
  - cbn. destruct (run_turns pl native fuel s b) as [[]| | | |]; reflexivity.
  - destruct x as [ch k l|ch|q k]; cbn [app run_turns].
    + destruct (say pl native ch k l s) as [?| | | |]; cbn [bind]; auto.
    + destruct (out_flush pl ch s) as [?| | | |]; cbn [bind]; auto.
    + destruct (ask pl native fuel q k s) as [[]| | | |]; cbn [bind]; auto. rewrite IH.
      destruct (run_turns pl native fuel _ a) as [[]| | | |]; cbn [bind]; auto.
      destruct (run_turns pl native fuel _ b) as [[]| | | |]; cbn [bind]; auto.
Qed.

(** A whole dialogue. *)
Lemma turns_ok : forall pl cs native fuel, caps_fit pl cs -> room pl cs -> forall t l rs r, dialogue t l rs r ->
  forall sent s, good pl cs sent (text_bytes (console_encoding pl) native l) s ->
  can_say pl native t -> can_take t rs -> Forall scalar l -> (length l < fuel)%nat ->
  exists s', run_turns pl (order_of native) fuel s t = Ok (s', as_given t rs) /\
    good pl cs (fun ch => sent ch ++ text_bytes UTF8 native (said ch t)) (text_bytes (console_encoding pl) native r) s' /\
    received (log (os s')) ++ typed (arrivals (os s')) = received (log (os s)) ++ typed (arrivals (os s)).
Proof.
  intros pl cs native fuel C Rm t l rs r D.
  induction D as [l|ch k x t l rs r D IH|ch t l rs r D IH|q k t l a l' rs r Tk D IH]; intros sent s G Cs Ct S F.
  - exists s. split; [reflexivity|]. split; [|reflexivity]. eapply good_ext; [exact G|]. intro ch. cbn. apply app_nil_r.
  - pose proof (Forall_inv Cs) as [Px Sx]. pose proof (Forall_inv_tail Cs) as Cs'. cbn [run_turns].
    destruct (say_ok pl cs native sent ch _ k x s G C Px Sx) as (s1 & w & E & G1 & T1 & L1 & V1). rewrite E. cbn [bind].
    destruct (IH _ _ G1 Cs' Ct S F) as (s' & E' & G' & T'). exists s'. split; [exact E'|]. split; [|congruence].
    eapply good_ext; [exact G'|]. intro ch'. unfold after. cbn [said flat_map]. fold (said ch' t).
    destruct (same_channel ch' ch); [rewrite text_bytes_app, app_assoc; reflexivity|reflexivity].
  - pose proof (Forall_inv_tail Cs) as Cs'. cbn [run_turns].
    destruct (finish_ok pl cs sent _ s ch G C) as (s1 & w & E & G1 & S1 & L1 & V1 & X1).
    pose proof (proj2 (out_arrivals _ _ _ _ _ ch G C) _ E) as Ar. rewrite E. cbn [bind].
    destruct (IH _ _ G1 Cs' Ct S F) as (s' & E' & G' & T'). exists s'. split; [exact E'|]. split; [exact G'|].
    rewrite T', L1, received_app, (shows_received _ V1), app_nil_r, Ar. reflexivity.
  - pose proof (Forall_inv_tail Cs) as Cs'. cbn [run_turns].
    change (can_take (Ask q k :: t) (a :: rs))
      with (Forall (fun '((q, k), a) => match q with Character => True | _ => Forall (storable k) a end)
              (((q, k), a) :: combine (kinds_asked t) rs)) in Ct.
    pose proof (Forall_inv Ct) as Ca. pose proof (Forall_inv_tail Ct) as Ct'. cbn beta iota in Ca.
    set (T := received (log (os s)) ++ typed (arrivals (os s))).
    assert (A : asking pl cs sent (log (os s)) T (text_bytes (console_encoding pl) native l) s).
    { split; [exact G|]. split; [reflexivity|]. exists []. split; [now rewrite app_nil_r|]. intros [|] ? ? X; discriminate. }
    destruct (ask_ok pl cs native sent _ T fuel q k l a l' s C Rm Tk S Ca F A) as (s1 & E & (G1 & T1 & _)). rewrite E. cbn [bind].
    destruct (takes_suffix _ _ _ _ Tk) as [p ->]. apply Forall_app in S. destruct S as [_ S].
    destruct (IH sent s1 G1 Cs' Ct' S ltac:(rewrite app_length in F; lia)) as (s' & E' & G' & T'). rewrite E'. cbn [bind].
    exists s'. split; [reflexivity|]. split; [exact G'|]. rewrite T'. exact T1.
Qed.

Lemma dialogue_app : forall a b l rs r, dialogue (a ++ b) l rs r ->
  exists rs1 m rs2, dialogue a l rs1 m /\ dialogue b m rs2 r /\ rs = rs1 ++ rs2.
Proof.
  induction a as [|x a IH]; intros b l rs r D.
  - exists [], l, rs. split; [constructor|]. auto.
  - cbn [app] in D. inversion D; subst;
      match goal with H : dialogue (a ++ b) _ _ _ |- _ => destruct (IH _ _ _ _ H) as (rs1 & m & rs2 & D1 & D2 & ->) end.
    + exists rs1, m, rs2. split; [now constructor|auto].
    + exists rs1, m, rs2. split; [now constructor|auto].
    + eexists (_ :: rs1), m, rs2. split; [econstructor; eassumption|auto].
Qed.

Lemma dialogue_length : forall t l rs r, dialogue t l rs r -> length rs = length (kinds_asked t).
Proof. intros t l rs r D. induction D; cbn; auto. Qed.

Lemma combine_split : forall (A B : Type) (a : list A) (c : list B), length c = length a -> forall b d,
  combine (a ++ b) (c ++ d) = combine a c ++ combine b d.
Proof.
  induction a as [|x a IH]; intros [|y c] E b d; try discriminate; [reflexivity|].
  cbn. f_equal. apply IH. cbn in E. lia.
Qed.

Lemma kinds_app : forall a b, kinds_asked (a ++ b) = kinds_asked a ++ kinds_asked b.
Proof. intros. unfold kinds_asked. apply flat_map_app. Qed.

Lemma given_app : forall a b rs1 rs2, length rs1 = length (kinds_asked a) ->
  as_given (a ++ b) (rs1 ++ rs2) = as_given a rs1 ++ as_given b rs2.
Proof. intros. unfold as_given. rewrite kinds_app, combine_split by assumption. apply map_app. Qed.

Lemma take_split : forall a b rs1 rs2, length rs1 = length (kinds_asked a) -> can_take (a ++ b) (rs1 ++ rs2) ->
  can_take a rs1 /\ can_take b rs2.
Proof. intros a b rs1 rs2 L. unfold can_take. rewrite kinds_app, combine_split by assumption. apply Forall_app. Qed.

Lemma room_ok : forall pl ci co ce, unit_fits pl ci -> room pl (Caps (Z.of_nat ci) (Z.of_nat co) (Z.of_nat ce)).
Proof. intros pl ci co ce H. exact H. Qed.

Lemma dialogue_ok : forall pl native arr ci co ce fuel t l rs r,
  proper (unit_of pl) arr -> typed arr = text_bytes (console_encoding pl) native l -> Forall scalar l ->
  capacities_fit ci co ce -> unit_fits pl ci -> dialogue t l rs r ->
  can_say pl native t -> can_take t rs -> (length l < fuel)%nat ->
  exists s, run_turns pl (order_of native) fuel (new_stdio (patient_console arr) ci co ce) t = Ok (s, as_given t rs) /\
    good pl (Caps (Z.of_nat ci) (Z.of_nat co) (Z.of_nat ce)) (fun ch => text_bytes UTF8 native (said ch t))
      (text_bytes (console_encoding pl) native r) s /\
    received (log (os s)) ++ typed (arrivals (os s)) = typed arr.
Proof.
  intros pl native arr ci co ce fuel t l rs r P Ty S C U D Cs Ct F.
  pose proof (good_new pl arr ci co ce P) as G. rewrite Ty in G.
  destruct (turns_ok pl _ native fuel (caps_ok pl _ _ _ C) (room_ok pl ci co ce U) t l rs r D _ _ G Cs Ct S F) as (s & E & G' & T).
  exists s. split; [exact E|]. split; [|exact T]. eapply good_ext; [exact G'|]. reflexivity.
Qed.

Lemma dialogue_ask : forall pl native arr ci co ce fuel t q k l rs r,
  proper (unit_of pl) arr -> typed arr = text_bytes (console_encoding pl) native l -> Forall scalar l ->
  capacities_fit ci co ce -> unit_fits pl ci -> dialogue (t ++ [Ask q k]) l rs r ->
  can_say pl native t -> can_take (t ++ [Ask q k]) rs -> (length l < fuel)%nat ->
  exists s s' d,
    run_turns pl (order_of native) fuel (new_stdio (patient_console arr) ci co ce) t = Ok (s, as_given t rs) /\
    run_turns pl (order_of native) fuel (new_stdio (patient_console arr) ci co ce) (t ++ [Ask q k])
      = Ok (s', as_given (t ++ [Ask q k]) rs) /\
    log (os s') = log (os s) ++ d /\
    waits_fine (text_bytes UTF8 native (said StandardOutput t)) (log (os s))
      (len (typed arr) - len (text_bytes (console_encoding pl) native r)) d.
Proof.
  intros pl native arr ci co ce fuel t q k l rs r P Ty S C U D Cs Ct F.
  destruct (dialogue_app _ _ _ _ _ D) as (rs1 & m & rs2 & D1 & D2 & ->).
  pose proof (dialogue_length _ _ _ _ D1) as L1. destruct (take_split _ _ _ _ L1 Ct) as [Ct1 Ct2].
  inversion D2 as [| | |q' k' t' l' a m' rs' r' Tk D3]; subst. inversion D3; subst.
  destruct (dialogue_ok pl native arr ci co ce fuel t l rs1 m P Ty S C U D1 Cs Ct1 F) as (s & E & G & T).
  destruct (dialogue_suffix _ _ _ _ D1) as [p El].
  assert (Sm : Forall scalar m) by (rewrite El in S; apply Forall_app in S; tauto).
  assert (Fm : (length m < fuel)%nat) by (rewrite El, app_length in F; lia).
  pose proof (Forall_inv Ct2) as Ca. cbn beta iota in Ca.
  assert (A : asking pl (Caps (Z.of_nat ci) (Z.of_nat co) (Z.of_nat ce)) (fun ch => text_bytes UTF8 native (said ch t))
    (log (os s)) (typed arr) (text_bytes (console_encoding pl) native m) s).
  { split; [exact G|]. split; [exact T|]. exists []. split; [now rewrite app_nil_r|]. intros [|] ? ? X; discriminate. }
  destruct (ask_ok pl _ native _ _ _ fuel q k m a r s (caps_ok pl _ _ _ C) (room_ok pl ci co ce U) Tk Sm Ca Fm A)
    as (s' & E' & (G' & T' & d & Ld & Wf)).
  exists s, s', d. split.
  { rewrite E. do 2 f_equal. rewrite <- (app_nil_r t) at 2. rewrite given_app by assumption. cbn. now rewrite app_nil_r. }
  split.
  { rewrite run_turns_app, E. cbn [bind run_turns]. rewrite E'. cbn [bind]. rewrite given_app by assumption. reflexivity. }
  split; [exact Ld|]. exact Wf.
Qed.
