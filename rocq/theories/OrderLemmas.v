(** Proofs about both output channels on one screen. *)
From Coq Require Import NArith ZArith List Bool Lia ZifyBool ZifyNat ZifyN.
From Verif Require Import Base Integers UnicodeSpec UnicodeModel UnicodeText UnicodeLemmas UnicodeLemmas2 UnicodeLemmas3
  ResourceSpec ResourceModel ResourceLemmas StreamSpec StreamModel StreamText StreamLemmas StreamLemmas2 StreamLemmas3
  StdioSpec StdioModel StdioText StdioLemmas StdioLemmas2 StdioLemmas3 StdioLemmas4 OrderSpec OrderText.
Import ListNotations.
Open Scope Z_scope.

Lemma screen_app : forall a b, screen (a ++ b) = screen a ++ screen b.
Proof. intros. unfold screen. apply flat_map_app. Qed.

(** If one channel shows nothing, the screen shows the other. *)
Lemma screen_one : forall ch w, (forall ch', same_channel ch' ch = false -> shown ch' w = []) -> screen w = shown ch w.
Proof.
  intros ch w. induction w as [|[c b|b] w IH]; intro H; [reflexivity| |].
  - change (screen (Shown c b :: w)) with (b ++ screen w).
    change (shown ch (Shown c b :: w)) with ((if same_channel ch c then b else []) ++ shown ch w).
    assert (H' : forall ch', same_channel ch' ch = false -> shown ch' w = []).
    { intros ch' N. specialize (H ch' N). change (shown ch' (Shown c b :: w)) with ((if same_channel ch' c then b else []) ++ shown ch' w) in H.
      now apply app_eq_nil in H. }
    rewrite (IH H'). f_equal. destruct (same_channel ch c) eqn:E; [reflexivity|].
    specialize (H c ltac:(destruct ch, c; auto)). change (shown c (Shown c b :: w)) with ((if same_channel c c then b else []) ++ shown c w) in H.
    apply app_eq_nil in H. destruct H as [H _]. destruct c; exact H.
  - apply IH. intros ch' N. exact (H ch' N).
Qed.

Lemma screen_none : forall w, (forall ch, shown ch w = []) -> screen w = [].
Proof. intros w H. rewrite (screen_one StandardOutput w); auto. Qed.

(** What waits in the buffer of a channel. *)
Definition waits_on (ch : channel) (s : stdio) : list N := take (bpos (out_buffer ch s)) (mem (out_buffer ch s)).

Lemma good_shown : forall pl cs sent rest s ch, good pl cs sent rest s -> sent ch = shown ch (log (os s)) ++ waits_on ch s.
Proof. intros pl cs sent rest s ch (_ & O & _). destruct (O ch) as (_ & _ & _ & S). exact S. Qed.

(** Nothing waits on any channel but this one, and the screen has shown all but that. *)
Definition in_turn (p : option channel) (all : list N) (s : stdio) : Prop :=
  (forall ch, match p with Some ch' => same_channel ch ch' = false | None => True end -> waits_on ch s = []) /\
  screen (log (os s)) ++ match p with Some ch => waits_on ch s | None => [] end = all.

Lemma same_refl : forall ch, same_channel ch ch = true.
Proof. intros [|]; reflexivity. Qed.

Lemma same_eq : forall a b, same_channel a b = true -> a = b.
Proof. intros [|] [|] H; discriminate || reflexivity. Qed.

(** A step that sends b to ch, when nothing waits on the other channel. *)
Lemma in_turn_step : forall pl cs sent sent' rest rest' s s' d p ch b all, good pl cs sent rest s -> good pl cs sent' rest' s' ->
  log (os s') = log (os s) ++ d -> in_turn p all s ->
  (p = None \/ p = Some ch) -> (forall ch', sent' ch' = after sent ch b ch') -> in_turn (Some ch) (all ++ b) s'.
Proof.
  intros pl cs sent sent' rest rest' s s' d p ch b all G G' L [Wo Sc] Hp Hs.
  assert (Wo' : forall ch', same_channel ch' ch = false -> waits_on ch' s = []).
  { intros ch' N. apply Wo. destruct Hp as [->| ->]; auto. }
  assert (D : forall ch', same_channel ch' ch = false -> shown ch' d = [] /\ waits_on ch' s' = []).
  { intros ch' N. pose proof (good_shown _ _ _ _ _ ch' G) as A. pose proof (good_shown _ _ _ _ _ ch' G') as A'.
    rewrite Hs in A'. unfold after in A'. rewrite N in A'. rewrite A, (Wo' _ N), L, shown_app, app_nil_r, <- app_assoc in A'.
    rewrite <- (app_nil_r (shown ch' (log (os s)))) in A' at 1. apply app_inv_head in A'. symmetry in A'. now apply app_eq_nil in A'. }
  split; [intros ch' N; now apply D|].
  rewrite L, screen_app, (screen_one ch d) by (intros; now apply D).
  pose proof (good_shown _ _ _ _ _ ch G) as A. pose proof (good_shown _ _ _ _ _ ch G') as A'.
  rewrite Hs in A'. unfold after in A'. rewrite same_refl, A, L, shown_app, <- !app_assoc in A'. apply app_inv_head in A'.
  rewrite <- app_assoc, <- A', app_assoc. f_equal. rewrite <- Sc. f_equal.
  destruct Hp as [->| ->]; [apply Wo; exact I|reflexivity].
Qed.

(** A step that sends nothing. *)
Lemma in_turn_nothing : forall pl cs sent rest rest' s s' d p all, good pl cs sent rest s -> good pl cs sent rest' s' ->
  log (os s') = log (os s) ++ d -> in_turn p all s -> in_turn p all s'.
Proof.
  intros pl cs sent rest rest' s s' d p all G G' L [Wo Sc].
  assert (D : forall ch, waits_on ch s = [] -> shown ch d = [] /\ waits_on ch s' = []).
  { intros ch N. pose proof (good_shown _ _ _ _ _ ch G) as A. pose proof (good_shown _ _ _ _ _ ch G') as A'.
    rewrite A, N, L, shown_app, app_nil_r, <- app_assoc in A'.
    rewrite <- (app_nil_r (shown ch (log (os s)))) in A' at 1. apply app_inv_head in A'. symmetry in A'. now apply app_eq_nil in A'. }
  split; [intros ch N; apply D; auto|]. rewrite L, screen_app. destruct p as [ch|].
  - rewrite (screen_one ch d) by (intros; apply D; auto).
    pose proof (good_shown _ _ _ _ _ ch G) as A. pose proof (good_shown _ _ _ _ _ ch G') as A'.
    rewrite A, L, shown_app, <- app_assoc in A'. apply app_inv_head in A'.
    now rewrite <- app_assoc, <- A'.
  - rewrite (screen_none d) by (intro; apply D; auto). now rewrite app_nil_r.
Qed.

(** Once nothing waits on the channel. *)
Lemma in_turn_done : forall ch all s, in_turn (Some ch) all s -> waits_on ch s = [] -> in_turn None all s.
Proof.
  intros ch all s [Wo Sc] E. split; [|now rewrite E in Sc]. intros ch' _.
  destruct (same_channel ch' ch) eqn:Q; [apply same_eq in Q; now subst|now apply Wo].
Qed.

Lemma in_turn_weaken : forall p ch all s, in_turn None all s -> p = Some ch -> in_turn p all s.
Proof. intros p ch all s [Wo Sc] ->. split; [auto|]. now rewrite (Wo ch I). Qed.

Lemma nothing_waits : forall pl cs sent rest s ch, good pl cs sent rest s -> shown ch (log (os s)) = sent ch -> waits_on ch s = [].
Proof.
  intros pl cs sent rest s ch G E. pose proof (good_shown _ _ _ _ _ ch G) as A. rewrite <- E in A.
  rewrite <- (app_nil_r (shown ch (log (os s)))) in A at 1. symmetry. now apply app_inv_head in A.
Qed.

(* --------------------------------------------------------------- questions *)

(** A question, with any account of the input. *)
Lemma ask_reader : forall pl native fuel (L : list N -> stdio -> Prop) q k l a r s,
  good_reader (uin_source pl) (unit_of pl) L -> takes q l a r -> Forall scalar l ->
  (match q with Character => True | _ => Forall (storable k) a end) -> (length l < fuel)%nat ->
  L (text_bytes (console_encoding pl) native l) s ->
  exists s', ask pl (order_of native) fuel q k s = Ok (s', match q with Character => a | _ => units k a end) /\
    L (text_bytes (console_encoding pl) native r) s'.
Proof.
  intros pl native fuel L q k l a r s G Tk S St F A. unfold ask.
  assert (B : Z.of_nat (unit_width (console_encoding pl)) <= unit_of pl) by (rewrite unit_width_of; lia).
  set (st := uin pl (order_of native) s).
  assert (H : before L (console_encoding pl) native (text_bytes (console_encoding pl) native l) st).
  { split; [exact A|]. destruct pl; split; reflexivity. }
  clearbody st. change (uin_source pl) with (never_ends (uin_source pl)).
  destruct Tk as [c r N|r|a le r Le N10 N13|ws w le r Ws Nw Ww Le].
  - inversion S; subst. destruct (never_plain native _ _ _ G _ native B c r st) as (st' & E & H'); try assumption.
    rewrite E. cbn [bind]. exists (in_res st'). split; [reflexivity|apply H'].
  - inversion S as [|? ? ? S']; subst. inversion S'; subst.
    destruct (never_cr native _ _ _ G _ native B 10%N r st) as (st' & E & H'); try assumption.
    rewrite E. cbn [bind]. exists (in_res st'). split; [reflexivity|apply H'].
  - destruct (never_line native _ _ _ G _ native B k a fuel [] r le st) as (st' & E & H'); try assumption.
    + rewrite app_length in F. lia.
    + unfold read_line. rewrite E. cbn [bind app]. exists (in_res st'). split; [reflexivity|apply H'].
  - destruct (never_word native _ _ _ G _ native B k ws w fuel le r st) as (st' & E & H'); try assumption.
    + rewrite !app_length in *. lia.
    + lia.
    + rewrite E. cbn [bind app]. exists (in_res st'). split; [reflexivity|apply H'].
Qed.

(** Input was only read after the standard output had been flushed. *)
Definition prompted (pl : platform) (cs : caps) (sent : channel -> list N) (L0 : list happening) (R0 rest : list N) (s : stdio) : Prop :=
  good pl cs sent rest s /\ (exists d, log (os s) = L0 ++ d) /\ (rest = R0 \/ shown StandardOutput (log (os s)) = sent StandardOutput).

Lemma prompted_reader : forall pl cs sent L0 R0, caps_fit pl cs -> room pl cs ->
  good_reader (uin_source pl) (unit_of pl) (prompted pl cs sent L0 R0).
Proof.
  intros pl cs sent L0 R0 C Rm. split. intros rest s block n (G & (d & Ld) & _) Nb Nu Nr. cbn [uin_source source_read].
  assert (U : unit_of pl <= 2) by (destruct pl; cbn; lia).
  destruct (get_ok pl cs sent rest s block n G C ltac:(lia) ltac:(lia))
    as (s1 & b & rest1 & f & w & E & R1 & Lb & G1 & L & V & W & S1 & T1 & Wt & _ & M).
  assert (Lbn : len b = n).
  { rewrite M; [lia|exact Nu|]. destruct pl; cbn [unit_of] in *.
    - destruct C as (C1 & _). destruct (Z.eq_dec (c_in cs) 0); [right; lia|left; lia].
    - left. exact (Rm eq_refl). }
  assert (Tb : take n rest = b) by (rewrite R1, <- Lbn; apply take_app_exact).
  assert (Db : drop n rest = rest1) by (rewrite R1, <- Lbn; apply drop_app_exact).
  rewrite Tb, Db. rewrite Lbn in E. exists s1. split; [exact E|].
  split; [exact G1|]. split; [exists (d ++ f ++ w); now rewrite L, Ld, !app_assoc|]. right.
  now rewrite L, app_assoc, shown_app, (waits_shown _ w W), app_nil_r.
Qed.

Lemma takes_less : forall q l a r, takes q l a r -> (length r < length l)%nat.
Proof.
  intros q l a r [c r' N|r'|a' le r' Le N10 N13|ws w le r' Ws Nw Ww Le].
  - cbn. lia.
  - cbn. lia.
  - destruct Le as [->| ->]; rewrite !app_length; cbn; lia.
  - destruct w; [congruence|]. rewrite !app_length. cbn. lia.
Qed.

Lemma takes_bytes : forall e o q l a r, takes q l a r -> text_bytes e o r <> text_bytes e o l.
Proof.
  intros e o q l a r T E. pose proof (takes_less _ _ _ _ T) as L. destruct (takes_suffix _ _ _ _ T) as [p ->].
  rewrite app_length in L. destruct p as [|c p]; [cbn in L; lia|].
  rewrite text_bytes_app in E. apply (f_equal len) in E. rewrite len_app in E.
  pose proof (text_bytes_ne e o c p). pose proof (len_nonneg (text_bytes e o (c :: p))). lia.
Qed.

Lemma ask_in_turn : forall pl cs native sent fuel q k l a r s p all, caps_fit pl cs -> room pl cs -> takes q l a r -> Forall scalar l ->
  (match q with Character => True | _ => Forall (storable k) a end) -> (length l < fuel)%nat ->
  good pl cs sent (text_bytes (console_encoding pl) native l) s -> in_turn p all s ->
  exists s', ask pl (order_of native) fuel q k s = Ok (s', match q with Character => a | _ => units k a end) /\
    good pl cs sent (text_bytes (console_encoding pl) native r) s' /\
    in_turn (match p with Some StandardOutput => None | _ => p end) all s'.
Proof.
  intros pl cs native sent fuel q k l a r s p all C Rm Tk S St F G I.
  pose proof (prompted_reader pl cs sent (log (os s)) (text_bytes (console_encoding pl) native l) C Rm) as Gr.
  destruct (ask_reader pl native fuel _ q k l a r s Gr Tk S St F) as (s' & E & G' & (d & L) & Fl).
  { split; [exact G|]. split; [exists []; now rewrite app_nil_r|now left]. }
  exists s'. split; [exact E|]. split; [exact G'|].
  pose proof (in_turn_nothing _ _ _ _ _ _ _ _ _ _ G G' L I) as I'.
  destruct p as [[|]|]; auto. apply (in_turn_done StandardOutput); [exact I'|].
  destruct Fl as [X|X]; [now apply (takes_bytes _ _ _ _ _ _ Tk) in X|]. eapply nothing_waits; eassumption.
Qed.

(* ---------------------------------------------------------------- programs *)

Lemma turns_in_turn : forall pl cs native fuel, caps_fit pl cs -> room pl cs -> forall t l rs r, dialogue t l rs r ->
  forall sent s p all, good pl cs sent (text_bytes (console_encoding pl) native l) s -> in_turn p (text_bytes UTF8 native all) s -> orderly p t ->
  can_say pl native t -> can_take t rs -> Forall scalar l -> (length l < fuel)%nat ->
  exists s' p', run_turns pl (order_of native) fuel s t = Ok (s', as_given t rs) /\
    good pl cs (fun ch => sent ch ++ text_bytes UTF8 native (said ch t)) (text_bytes (console_encoding pl) native r) s' /\
    in_turn p' (text_bytes UTF8 native (all ++ spoken t)) s'.
Proof.
  intros pl cs native fuel C Rm t l rs r D.
  induction D as [l|ch k x t l rs r D IH|ch t l rs r D IH|q k t l a l' rs r Tk D IH]; intros sent s p all G I O Cs Ct S F.
  - exists s, p. split; [reflexivity|]. cbn [spoken flat_map]. rewrite app_nil_r. split; [|exact I].
    eapply good_ext; [exact G|]. intro ch. cbn. apply app_nil_r.
  - pose proof (Forall_inv Cs) as [Px Sx]. pose proof (Forall_inv_tail Cs) as Cs'. cbn [run_turns]. destruct O as [O1 O2].
    destruct (say_ok pl cs native sent ch _ k x s G C Px Sx) as (s1 & w & E & G1 & T1 & L1 & V1). rewrite E. cbn [bind].
    assert (I1 : in_turn (Some ch) (text_bytes UTF8 native (all ++ x)) s1).
    { rewrite text_bytes_app. eapply in_turn_step; [exact G|exact G1|exact L1|exact I| |reflexivity].
      destruct p as [ch'|]; [right|now left]. apply same_eq in O1. now subst. }
    destruct (IH _ _ _ _ G1 I1 O2 Cs' Ct S F) as (s' & p' & E' & G' & I'). exists s', p'. split; [exact E'|]. split.
    + eapply good_ext; [exact G'|]. intro ch'. unfold after. cbn [said flat_map]. fold (said ch' t).
      destruct (same_channel ch' ch); [rewrite text_bytes_app, app_assoc; reflexivity|reflexivity].
    + cbn [spoken flat_map]. fold (spoken t). now rewrite app_assoc.
  - pose proof (Forall_inv_tail Cs) as Cs'. cbn [run_turns]. cbn [orderly] in O.
    destruct (finish_ok pl cs sent _ s ch G C) as (s1 & w & E & G1 & S1 & L1 & V1 & X1). rewrite E. cbn [bind].
    pose proof (in_turn_nothing _ _ _ _ _ _ _ _ _ _ G G1 L1 I) as I1.
    assert (I2 : in_turn (match p with Some ch' => if same_channel ch ch' then None else p | None => None end)
                   (text_bytes UTF8 native all) s1).
    { destruct p as [ch'|]; [|exact I1]. destruct (same_channel ch ch') eqn:Q; [|exact I1]. apply same_eq in Q. subst ch'.
      apply (in_turn_done ch); [exact I1|]. eapply nothing_waits; eassumption. }
    destruct (IH _ _ _ _ G1 I2 O Cs' Ct S F) as (s' & p' & E' & G' & I'). exists s', p'. auto.
  - pose proof (Forall_inv_tail Cs) as Cs'. cbn [run_turns]. cbn [orderly] in O.
    change (can_take (Ask q k :: t) (a :: rs))
      with (Forall (fun '((q, k), a) => match q with Character => True | _ => Forall (storable k) a end)
              (((q, k), a) :: combine (kinds_asked t) rs)) in Ct.
    pose proof (Forall_inv Ct) as Ca. pose proof (Forall_inv_tail Ct) as Ct'. cbn beta iota in Ca.
    destruct (ask_in_turn pl cs native sent fuel q k l a l' s p _ C Rm Tk S Ca F G I) as (s1 & E & G1 & I1). rewrite E. cbn [bind].
    destruct (takes_suffix _ _ _ _ Tk) as [pre ->]. apply Forall_app in S. destruct S as [_ S].
    destruct (IH sent s1 _ _ G1 I1 O Cs' Ct' S ltac:(rewrite app_length in F; lia)) as (s' & p' & E' & G' & I'). rewrite E'. cbn [bind].
    exists s', p'. split; [reflexivity|]. split; [exact G'|exact I'].
Qed.

(** The end of the program. *)
Lemma end_in_turn : forall pl cs b sent rest s p all, good pl cs sent rest s -> caps_fit pl cs -> in_turn p all s ->
  exists s', end_program pl b s = Ok s' /\ screen (log (os s')) = all.
Proof.
  intros pl cs b sent rest s p all G C I. unfold end_program.
  destruct (finish_ok pl cs sent rest s StandardError G C) as (s1 & w1 & E1 & G1 & S1 & L1 & V1 & X1).
  destruct (finish_ok pl cs sent rest s1 StandardOutput G1 C) as (s2 & w2 & E2 & G2 & S2 & L2 & V2 & X2).
  exists s2. split.
  - destruct b; cbn [construction_order rev app destroy_statics is_alive existsb static_eqb orb bind];
      rewrite E1; cbn [bind]; rewrite E2; reflexivity.
  - pose proof (in_turn_nothing _ _ _ _ _ _ _ _ _ _ G G1 L1 I) as I1.
    pose proof (in_turn_nothing _ _ _ _ _ _ _ _ _ _ G1 G2 L2 I1) as [Wo <-].
    destruct p as [[|]|].
    + rewrite (nothing_waits _ _ _ _ _ StandardOutput G2 S2). now rewrite app_nil_r.
    + assert (S3 : shown StandardError (log (os s2)) = sent StandardError)
        by (rewrite L2, shown_app, (X2 StandardError eq_refl), app_nil_r; exact S1).
      rewrite (nothing_waits _ _ _ _ _ StandardError G2 S3). now rewrite app_nil_r.
    + now rewrite app_nil_r.
Qed.

(** Without buffers nothing waits. *)
Lemma unbuffered_in_turn : forall pl cs sent rest s p all, good pl cs sent rest s -> cap_of cs StandardOutput = 0 -> cap_of cs StandardError = 0 ->
  in_turn p all s -> in_turn None all s.
Proof.
  intros pl cs sent rest s p all G C1 C2 I.
  assert (W : forall ch, waits_on ch s = []).
  { intro ch. destruct G as (_ & O & _). destruct (O ch) as (Cp & B & _). unfold waits_on.
    assert (bpos (out_buffer ch s) = 0) as -> by (destruct ch; lia). reflexivity. }
  destruct I as [_ Sc]. split; [auto|]. destruct p as [ch|]; [now rewrite (W ch) in Sc|exact Sc].
Qed.

Lemma turns_unbuffered : forall pl cs native fuel, caps_fit pl cs -> room pl cs ->
  cap_of cs StandardOutput = 0 -> cap_of cs StandardError = 0 -> forall t l rs r, dialogue t l rs r ->
  forall sent s all, good pl cs sent (text_bytes (console_encoding pl) native l) s -> in_turn None (text_bytes UTF8 native all) s ->
  can_say pl native t -> can_take t rs -> Forall scalar l -> (length l < fuel)%nat ->
  exists s', run_turns pl (order_of native) fuel s t = Ok (s', as_given t rs) /\
    in_turn None (text_bytes UTF8 native (all ++ spoken t)) s'.
Proof.
  intros pl cs native fuel C Rm C1 C2 t l rs r D.
  induction D as [l|ch k x t l rs r D IH|ch t l rs r D IH|q k t l a l' rs r Tk D IH]; intros sent s all G I Cs Ct S F.
  - exists s. split; [reflexivity|]. cbn [spoken flat_map]. now rewrite app_nil_r.
  - pose proof (Forall_inv Cs) as [Px Sx]. pose proof (Forall_inv_tail Cs) as Cs'. cbn [run_turns].
    destruct (say_ok pl cs native sent ch _ k x s G C Px Sx) as (s1 & w & E & G1 & T1 & L1 & V1). rewrite E. cbn [bind].
    assert (I1 : in_turn None (text_bytes UTF8 native (all ++ x)) s1).
    { eapply unbuffered_in_turn; [exact G1|exact C1|exact C2|].
      rewrite text_bytes_app. eapply in_turn_step; [exact G|exact G1|exact L1|exact I|now left|reflexivity]. }
    destruct (IH _ _ _ G1 I1 Cs' Ct S F) as (s' & E' & I'). exists s'. split; [exact E'|].
    cbn [spoken flat_map]. fold (spoken t). now rewrite app_assoc.
  - pose proof (Forall_inv_tail Cs) as Cs'. cbn [run_turns].
    destruct (finish_ok pl cs sent _ s ch G C) as (s1 & w & E & G1 & S1 & L1 & V1 & X1). rewrite E. cbn [bind].
    pose proof (in_turn_nothing _ _ _ _ _ _ _ _ _ _ G G1 L1 I) as I1.
    destruct (IH _ _ _ G1 I1 Cs' Ct S F) as (s' & E' & I'). exists s'. auto.
  - pose proof (Forall_inv_tail Cs) as Cs'. cbn [run_turns].
    change (can_take (Ask q k :: t) (a :: rs))
      with (Forall (fun '((q, k), a) => match q with Character => True | _ => Forall (storable k) a end)
              (((q, k), a) :: combine (kinds_asked t) rs)) in Ct.
    pose proof (Forall_inv Ct) as Ca. pose proof (Forall_inv_tail Ct) as Ct'. cbn beta iota in Ca.
    destruct (ask_in_turn pl cs native sent fuel q k l a l' s None _ C Rm Tk S Ca F G I) as (s1 & E & G1 & I1). rewrite E. cbn [bind].
    destruct (takes_suffix _ _ _ _ Tk) as [pre ->]. apply Forall_app in S. destruct S as [_ S].
    destruct (IH sent s1 _ G1 I1 Cs' Ct' S ltac:(rewrite app_length in F; lia)) as (s' & E' & I'). rewrite E'. cbn [bind].
    exists s'. split; [reflexivity|exact I'].
Qed.

Lemma in_turn_new : forall native arr ci co ce, in_turn None (text_bytes UTF8 native []) (new_stdio (patient_console arr) ci co ce).
Proof.
  intros. split; [|reflexivity]. intros [|] _; unfold waits_on; reflexivity.
Qed.
