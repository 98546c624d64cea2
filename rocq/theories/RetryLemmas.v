(** Proofs about numbers and truth values asked of the user. *)
From Coq Require Import NArith ZArith List Bool Lia ZifyBool ZifyNat ZifyN.
From Verif Require Import Base Integers UnicodeSpec UnicodeModel UnicodeText UnicodeLemmas UnicodeLemmas2 UnicodeLemmas3
  NumeralSpec NumberModel NumberText NumberLemmas NumberLemmas2 NumberLemmas3 NumberLemmas4 NumberLemmas5
  ResourceSpec ResourceModel ResourceLemmas StreamSpec StreamModel StreamText StreamLemmas StreamLemmas2 StreamLemmas3
  StdioSpec StdioModel StdioText StdioLemmas StdioLemmas2 StdioLemmas3 StdioLemmas4 RetrySpec RetryModel RetryText.
Import ListNotations.
Open Scope Z_scope.

(* ---------------------------------------------------------- few digits fit *)

Lemma small_step : forall t r d p o, standard t -> (2 <= r <= 36)%N -> (d < r)%N ->
  0 < p -> 0 <= o < p * Z.of_N r -> p * Z.of_N r * Z.of_N r <= max_of t + 1 ->
  prepend_digit t r d (ParseState false false p 0 o)
  = Ok (ParseState false false (p * Z.of_N r) 1 (o + Z.of_N d * (p * Z.of_N r))).
Proof.
  intros t r d p o Ht Hr Hd Hp Ho Hm. unfold prepend_digit. cbn [power output sign_found negate digits_counted].
  pose proof (standard_u t Ht) as Hu. pose proof (standard_p t Ht) as Hi.
  change (with_int t) with (promote t).
  set (R := Z.of_N r) in *. assert (HR : 2 <= R <= 36) by (unfold R; lia).
  set (D := Z.of_N d) in *. assert (HD : 0 <= D < R) by (unfold D, R; lia).
  assert (B1 : p * R <= max_of t) by (clear - Hp HR Hm; nia).
  assert (B0 : p <= max_of t) by (clear - Hp HR B1; nia).
  assert (B2 : D * (p * R) <= max_of t) by (clear - Hp HR HD Hm; nia).
  assert (B3 : o + D * (p * R) <= max_of t) by (clear - Hp HR HD Ho Hm; nia).
  assert (P0 : 0 <= p * R) by (clear - Hp HR; nia).
  assert (P1 : 0 <= D * (p * R)) by (clear - P0 HD; nia).
  assert (Wu : forall x, 0 <= x <= max_of t -> in_range (with_unsigned t) x).
  { intros x X. clear - Ht X. std_cases t Ht; bounds; lia. }
  rewrite (convert_id (with_unsigned t) p) by (first [assumption | apply Wu; lia]).
  rewrite (convert_id (with_unsigned t) R) by (first [assumption | apply small_range; [assumption|lia]]).
  rewrite arith_ok by (first [assumption | apply Wu; lia]). cbn [bind].
  rewrite (convert_id t (p * R)) by (first [assumption | apply nonneg_t; [assumption|lia]]).
  rewrite (convert_id (promote t) D) by (first [assumption | apply small_range; [assumption|lia]]).
  rewrite arith_ok by (first [assumption | apply range_p; [assumption|apply nonneg_t; [assumption|lia]]]). cbn [bind].
  rewrite arith_ok by (first [assumption | apply range_p; [assumption|apply nonneg_t; [assumption|lia]]]). cbn [bind].
  rewrite (convert_id t (o + D * (p * R))) by (first [assumption | apply nonneg_t; [assumption|lia]]).
  reflexivity.
Qed.

Lemma pow_succ : forall R n, R ^ Z.of_nat (S n) = R * R ^ Z.of_nat n.
Proof. intros R n. rewrite Nat2Z.inj_succ, Z.pow_succ_r by lia. reflexivity. Qed.

Lemma room_for_one : forall p R P M, 0 < p -> 2 <= R -> 1 <= P -> p * R * (R * P) <= M -> p * R * R <= M.
Proof. intros. nia. Qed.

Lemma next_bound : forall p R D o, 0 <= D < R -> 0 < p -> 0 <= o < p * R -> 0 <= o + D * (p * R) < p * R * R.
Proof. intros. nia. Qed.

Lemma small_ploop : forall t f cs sf ng p n o, standard t -> (2 <= radix f <= 36)%N ->
  0 < p -> 0 <= o < p * Z.of_N (radix f) ->
  p * Z.of_N (radix f) * Z.of_N (radix f) ^ Z.of_nat (length (digits_in (radix f) cs)) <= max_of t + 1 ->
  match ploop t f cs (ParseState sf ng p n o) with
  | Ok st => 0 <= output st <= max_of t
  | UB u => u <> SignedOverflow
  | _ => True
  end.
Proof.
  intros t f cs. induction cs as [|c cs IH]; intros sf ng p n o Ht Hr Hp Ho Hm.
  - cbn [ploop output]. cbn [digits_in flat_map length] in Hm. change (Z.of_nat 0) with 0 in Hm. rewrite Z.pow_0_r in Hm. lia.
  - cbn [ploop].
    destruct (step_cases t f c sf ng p n o Hr)
      as [(S & _ & E)|[(Hsf & S & E)|(N1 & N2 & [(B & S & E)|[(B & S & E)|[(B & d & D & E)|[(B & D & C & E)|(B & D & C & E)]]]])]];
      rewrite E; clear E; cbn [bind]; auto; try discriminate.
    + assert (Sc : sign_char c) by (unfold sign_char; inversion S; auto).
      rewrite digits_in_other in Hm by (intro; now apply sign_not_digit). apply IH; assumption.
    + rewrite digits_in_other in Hm by (intro; eapply sep_not_digit; eauto). apply IH; assumption.
    + rewrite (digits_in_digit _ c d) in Hm by assumption. cbn [length] in Hm. rewrite pow_succ in Hm.
      set (R := Z.of_N (radix f)) in *. set (P := R ^ Z.of_nat (length (digits_in (radix f) cs))) in *.
      assert (HR : 2 <= R <= 36) by (unfold R; lia).
      assert (HP : 1 <= P) by (unfold P; apply Z.lt_pred_le, Z.pow_pos_nonneg; lia).
      assert (HD : 0 <= Z.of_N d < R) by (unfold R; destruct D; lia).
      rewrite (small_step t (radix f) d p o Ht Hr (proj2 D) Hp Ho) by (fold R; eapply room_for_one; eauto; lia).
      cbn [bind power output]. fold R. apply IH; fold R; auto.
      * clear - Hp HR. nia.
      * apply next_bound; assumption.
      * fold P. replace (p * R * R * P) with (p * R * (R * P)) by ring. exact Hm.
Qed.

(** Few digits: no overflow. *)
Lemma small_parse : forall k t f l, standard t -> (2 <= radix f <= 36)%N -> Forall (holds k) l ->
  Z.of_N (radix f) ^ Z.of_nat (length (digits_in (radix f) l)) <= max_of t + 1 ->
  parse_integer k t (units k l) f <> UB SignedOverflow.
Proof.
  intros k t f l Ht Hr H Hm. rewrite parse_integer_list by assumption.
  destruct l as [|c l _] using rev_ind; [discriminate|]. rewrite rev_app_distr. cbn [rev app].
  destruct (radix_digit_total (radix f) c Hr) as [(d & D & _ & E)|[(D & _ & _ & E)|(D & C & _ & E)]];
    rewrite E; cbn [bind]; try discriminate.
  assert (D36 : (d < 36)%N) by (destruct D; lia).
  rewrite (convert_id t (Z.of_N d)) by (first [assumption | apply small_range; [assumption|lia]]).
  rewrite digits_in_app, (digits_in_digit _ c d [] D), app_length in Hm. cbn [digits_in flat_map length] in Hm.
  rewrite Nat.add_1_r, pow_succ in Hm.
  pose proof (small_ploop t f (rev l) false false 1 1 (Z.of_N d) Ht Hr ltac:(lia) ltac:(destruct D; lia)) as P.
  rewrite digits_in_rev, rev_length in P. specialize (P ltac:(lia)).
  destruct (ploop _ _ _ _) as [st|e|u| |]; cbn [bind]; try discriminate; [|congruence].
  unfold finish_integer. destruct (negate st); [|discriminate]. destruct (is_signed t) eqn:S; [|discriminate].
  rewrite arith_ok; [discriminate|now apply standard_p|].
  clear - Ht S P. std_cases t Ht; try discriminate S; bounds; lia.
Qed.

(* ------------------------------------------------------------ what is told *)

Lemma modest_holds : forall q w, modest q w -> Forall (holds K8) w /\ Forall (storable K8) w.
Proof.
  intros q w [H _]. split; apply (Forall_impl _ (P := fun c => (c <= 255)%N)); auto; intros c C.
  - cbn [holds]. unfold scalar. lia.
  - split; [cbn [holds]; unfold scalar; lia|]. intros _. rewrite N.mod_small by lia. lia.
Qed.

Lemma in_front : forall a c d, signs_in (tl (a ++ [c])) = [] -> is_digit 10 c d ->
  Forall (fun x => (exists d, is_digit 10 x d) \/ sign_char x) (a ++ [c]) ->
  exists sg cs, a ++ [c] = sg ++ cs /\ cs <> [] /\ signs_in (a ++ [c]) = sg /\ digits_text 10 cs (digits_in 10 (a ++ [c])).
Proof.
  intros a c d T D F.
  assert (A : forall l, Forall (fun x => (exists d, is_digit 10 x d) \/ sign_char x) l -> signs_in l = [] ->
            digits_text 10 l (digits_in 10 l)).
  { clear. induction l as [|x l IH]; intros F S; [constructor|].
    pose proof (Forall_inv F) as Fx. pose proof (Forall_inv_tail F) as Fl.
    unfold signs_in in S. cbn [filter] in S.
    destruct Fx as [[d D]|Sx].
    - rewrite (digit_not_sign _ _ _ D) in S. rewrite (digits_in_digit _ _ _ _ D). constructor; auto. now apply IH.
    - exfalso. replace ((x =? 43) || (x =? 45))%N with true in S by (unfold sign_char in Sx; lia). discriminate. }
  destruct (a ++ [c]) as [|x l] eqn:El; [destruct a; discriminate|]. cbn [tl] in T.
  pose proof (Forall_inv F) as Fx. pose proof (Forall_inv_tail F) as Fl.
  destruct Fx as [[e De]|Sx].
  - exists [], (x :: l). split; [reflexivity|]. split; [discriminate|].
    assert (Z : signs_in (x :: l) = []) by (unfold signs_in in *; cbn [filter]; now rewrite (digit_not_sign _ _ _ De)).
    split; [exact Z|]. apply A; assumption.
  - exists [x], l. split; [reflexivity|]. split.
    { intros ->. destruct a as [|y a]; cbn in El; [|destruct a; discriminate]. injection El as ->.
      now apply (sign_not_digit 10 x d). }
    assert (Z : signs_in (x :: l) = [x]).
    { unfold signs_in in *; cbn [filter]. replace ((x =? 43) || (x =? 45))%N with true by (unfold sign_char in Sx; lia).
      now rewrite T. }
    split; [exact Z|]. rewrite digits_in_other by (intro; now apply sign_not_digit). apply A; assumption.
Qed.

Lemma grouped_plain : forall l, grouped None l = l.
Proof.
  intro l. unfold grouped. generalize 0%nat. induction l as [|c l IH]; intro n; [reflexivity|]. cbn. now rewrite IH.
Qed.

Lemma digits_ascii : forall cs ds, digits_text 10 cs ds -> Forall (fun c => (c < 128)%N) cs.
Proof.
  intros cs ds D. induction D as [|c d cs ds [V L] D IH]; constructor; auto. unfold digit_value in V.
  destruct ((48 <=? c) && (c <=? 57))%N eqn:E1; [lia|]. destruct ((65 <=? c) && (c <=? 90))%N eqn:E2; [lia|].
  destruct ((97 <=? c) && (c <=? 122))%N eqn:E3; [lia|discriminate].
Qed.

Lemma number_told : forall t w, standard t -> modest (WantNumber t) w ->
  match parse_integer K8 t (units K8 w) default_integer_format with
  | Ok x => denotes (is_signed t) w x /\ in_range t x
  | Throw (ParseFailed _) => forall x, ~ (denotes (is_signed t) w x /\ in_range t x)
  | _ => False
  end.
Proof.
  intros t w Ht M. destruct (modest_holds _ _ M) as [H _]. destruct M as [L [T Hm]].
  assert (Hr : (2 <= radix default_integer_format <= 36)%N) by (cbn; lia).
  pose proof (small_parse K8 t default_integer_format w Ht Hr H Hm) as NO.
  pose proof (parse_outcome K8 t default_integer_format w Ht Hr H) as P.
  change (radix default_integer_format) with 10%N in *.
  assert (Vb : forall ds, (length ds <= length (digits_in 10 w))%nat -> Forall (fun d => (d < 10)%N) ds ->
            Z.of_N (value 10 ds) <= max_of t).
  { intros ds Ld Fd. pose proof (value_bound 10 ds ltac:(lia) Fd) as B.
    assert (10 ^ Z.of_nat (length ds) <= 10 ^ Z.of_nat (length (digits_in 10 w))) by (apply Z.pow_le_mono_r; lia).
    assert (Z.of_N (10 ^ N.of_nat (length ds)) = 10 ^ Z.of_nat (length ds)) by (rewrite N2Z.inj_pow, nat_N_Z; reflexivity).
    lia. }
  assert (Rg : forall neg, (neg = true -> is_signed t = true) -> forall v, Z.of_N v <= max_of t -> in_range t (signed_value neg v)).
  { intros neg S v V. unfold signed_value. clear - Ht S V. destruct neg; [specialize (S eq_refl)|clear S];
      std_cases t Ht; try discriminate S; bounds; lia. }
  destruct (parse_integer K8 t (units K8 w) default_integer_format) as [v|e|u| |] eqn:E; try contradiction.
  - destruct P as (R & F & (a & c & d & -> & D) & ng & Sn & S & Ev). split; [|exact R].
    assert (F' : Forall (fun x => (exists d, is_digit 10 x d) \/ sign_char x) (a ++ [c])).
    { eapply Forall_impl; [|exact F]. intros x [X|[X|X]]; [now left|now right|discriminate]. }
    destruct (in_front a c d T D F') as (sg & cs & Ew & Nc & Sg & Dt).
    exists ng, sg, cs, (digits_in 10 (a ++ [c])). split; [exact Ew|]. split.
    { rewrite Sg in Sn. destruct Sn as [(-> & _ & ->)|(_ & _ & x & -> & Px & ->)]; [constructor|exact Px]. }
    split; [exact S|]. split; [exact Dt|]. split; [exact Nc|].
    rewrite Ev. apply convert_id; [exact Ht|]. apply Rg; [exact S|]. apply Vb; [lia|apply digits_in_lt].
  - assert (Ee : exists p, e = ParseFailed p).
    { cbn [In] in P. destruct P as [<-|[<-|[<-|[<-|[<-|[]]]]]]; eauto. }
    destruct Ee as [p ->]. intros x [(neg & sg & cs & ds & -> & Sp & S & Dt & Nc & ->) R].
    assert (Ls : digits_in 10 (sg ++ cs) = ds).
    { rewrite digits_in_app, (digits_in_text _ _ _ Dt). inversion Sp; reflexivity. }
    rewrite Ls in *. pose proof (digits_lt _ _ _ Dt) as Fd.
    pose proof (parse_value_fits K8 t default_integer_format sg neg cs ds Ht Hr Dt Nc Sp S (Vb ds (le_n _) Fd)) as X.
    assert (X' : parse_integer K8 t (sg ++ grouped (sep_char (separator default_integer_format)) cs) default_integer_format
                 = Ok (signed_value neg (value 10 ds))).
    { apply X. intros ->. change (Z.of_N (radix default_integer_format)) with 10.
      assert (length ds <> 0%nat) by (destruct ds; [inversion Dt; congruence|discriminate]).
      assert (10 ^ (Z.of_nat (length ds) - 1) < 10 ^ Z.of_nat (length ds)) by (apply Z.pow_lt_mono_r; lia). lia. }
    cbn [separator sep_char default_integer_format] in X'. rewrite grouped_plain in X'.
    rewrite <- (ascii_units K8 (sg ++ cs)) in X'; [congruence|].
    apply Forall_app. split; [inversion Sp; repeat constructor|].
    eapply digits_ascii; eassumption.
  - destruct P as [[-> _]|(_ & _ & X)]; [congruence|].
    apply Exists_exists in X as (c & I & C). rewrite Forall_forall in L. specialize (L c I). lia.
Qed.

Lemma utf8_one_to_one : forall l m, Forall scalar l -> Forall scalar m -> units K8 l = units K8 m -> l = m.
Proof.
  intros l m Hl Hm E.
  assert (C : forall l, Forall scalar l -> convert_string K32 K8 (encode UTF8 l) = Ok (encode UTF32 l)).
  { intros x Hx. apply (convert_ok K32 K8 x).
    - exact Hx.
    - apply Forall_forall. intros; exact I.
    - apply Forall_forall. intros c Hc. rewrite Forall_forall in Hx. split; [now apply Hx|discriminate]. }
  change (encode UTF8 l = encode UTF8 m) in E.
  pose proof (C l Hl) as A. rewrite E, (C m Hm) in A.
  assert (I : forall x, encode UTF32 x = x) by (induction x as [|c x IH]; [reflexivity|];
    change (encode UTF32 (c :: x)) with (c :: encode UTF32 x); now rewrite IH).
  rewrite !I in A. congruence.
Qed.

Lemma truth_told : forall w, Forall scalar w -> w <> [] ->
  match parse_bool K8 (units K8 w) default_bool_format with
  | Ok b => w = [if b then 49 else 48]%N
  | Throw (ParseFailed _) => w <> [49]%N /\ w <> [48]%N
  | _ => False
  end.
Proof.
  intros w S N. unfold parse_bool. cbn [bind true_string false_string default_bool_format].
  assert (One : forall c, (c < 128)%N -> units K8 w = [c] <-> w = [c]).
  { intros c C. split; intro H.
    - apply utf8_one_to_one; [exact S|constructor; [unfold scalar; lia|constructor]|].
      rewrite H. symmetry. apply ascii_units. constructor; [exact C|constructor].
    - subst w. apply ascii_units. constructor; [exact C|constructor]. }
  assert (L : (length (units K8 w) =? 0)%nat = false).
  { destruct w as [|c w]; [congruence|]. unfold units. cbn [encode flat_map]. rewrite app_length.
    pose proof (encode1_nonempty (encoding_of K8) c) as X. destruct (encode1 (encoding_of K8) c); [congruence|reflexivity]. }
  rewrite L. unfold str_eqb. destruct (list_eq_dec N.eq_dec (units K8 w) [49%N]) as [E|E].
  - apply One; [lia|exact E].
  - destruct (list_eq_dec N.eq_dec (units K8 w) [48%N]) as [E'|E'].
    + apply One; [lia|exact E'].
    + split; intro H; [apply E|apply E']; apply One; auto; lia.
Qed.

(* -------------------------------------------------------------- attempts *)

Definition wanted_ok (q : wanted) : Prop := match q with WantNumber t => standard t | WantTruth => True end.

(** One question: the word, then the parser. *)
Lemma attempt_ask : forall pl native fuel q s,
  attempt pl native fuel q s = bind (ask pl native fuel Word K8 s) (fun '(s, input) =>
    match q with
    | WantNumber t => caught s Number (parse_integer K8 t input default_integer_format)
    | WantTruth => caught s Truth (parse_bool K8 input default_bool_format)
    end).
Proof.
  intros. unfold attempt, ask. destruct (read_word _ _ _ _ _) as [[st input]| | | |]; reflexivity.
Qed.

Lemma takes_scalar : forall q l a r, takes q l a r -> Forall scalar l -> q = Word -> Forall scalar a /\ Forall scalar r /\ a <> [].
Proof.
  intros q l a r [c r' N|r'|a' le r' Le N10 N13|ws w le r' Ws Nw Ww Le] S E; try discriminate.
  rewrite !Forall_app in S. tauto.
Qed.

Lemma parse_shape : forall q w (s : stdio), wanted_ok q -> modest q w -> Forall scalar w -> w <> [] ->
  exists a, match q with
    | WantNumber t => caught s Number (parse_integer K8 t (units K8 w) default_integer_format)
    | WantTruth => caught s Truth (parse_bool K8 (units K8 w) default_bool_format)
    end = Ok (s, a) /\ right_reply q w a.
Proof.
  intros q w s O M S N. destruct q as [t|].
  - pose proof (number_told t w O M) as T.
    destruct (parse_integer K8 t (units K8 w) default_integer_format) as [x|[]|u| |]; try contradiction;
      eexists; (split; [reflexivity|exact T]).
  - pose proof (truth_told w S N) as T.
    destruct (parse_bool K8 (units K8 w) default_bool_format) as [x|[]|u| |]; try contradiction;
      eexists; (split; [reflexivity|exact T]).
Qed.

(** Any word: a reply, or undefined behaviour. *)
Lemma parse_any : forall q w (s : stdio), wanted_ok q -> Forall (storable K8) w -> Forall scalar w -> w <> [] ->
  let p := match q with
    | WantNumber t => caught s Number (parse_integer K8 t (units K8 w) default_integer_format)
    | WantTruth => caught s Truth (parse_bool K8 (units K8 w) default_bool_format)
    end in
  (exists a, p = Ok (s, a)) \/ (exists u, p = UB u).
Proof.
  intros q w s O St S N. destruct q as [t|].
  - assert (H : Forall (holds K8) w) by (eapply Forall_impl; [|exact St]; intros c [C _]; exact C).
    assert (Hr : (2 <= radix default_integer_format <= 36)%N) by (cbn; lia).
    pose proof (parse_outcome K8 t default_integer_format w O Hr H) as P.
    destruct (parse_integer K8 t (units K8 w) default_integer_format) as [x|e|u| |]; try contradiction; cbn [caught]; eauto.
    cbn [In] in P. destruct P as [<-|[<-|[<-|[<-|[<-|[]]]]]]; eauto.
  - pose proof (truth_told w S N) as T.
    destruct (parse_bool K8 (units K8 w) default_bool_format) as [x|[]|u| |]; try contradiction; cbn [caught]; eauto.
Qed.

Lemma word_ok : forall pl cs native sent fuel l w r s, caps_fit pl cs -> room pl cs ->
  good pl cs sent (text_bytes (console_encoding pl) native l) s -> takes Word l w r -> Forall scalar l ->
  Forall (storable K8) w -> (length l < fuel)%nat ->
  exists s', ask pl (order_of native) fuel Word K8 s = Ok (s', units K8 w) /\
    good pl cs sent (text_bytes (console_encoding pl) native r) s'.
Proof.
  intros pl cs native sent fuel l w r s C Rm G Tk S St F.
  set (T := received (log (os s)) ++ typed (arrivals (os s))).
  assert (A : asking pl cs sent (log (os s)) T (text_bytes (console_encoding pl) native l) s).
  { split; [exact G|]. split; [reflexivity|]. exists []. split; [now rewrite app_nil_r|]. intros [|] ? ? X; discriminate. }
  destruct (ask_ok pl cs native sent _ T fuel Word K8 l w r s C Rm Tk S St F A) as (s' & E & (G' & _)). eauto.
Qed.

Lemma shorter : forall l w r, takes Word l w r -> (length r <= length l)%nat.
Proof. intros l w r T. destruct (takes_suffix _ _ _ _ T) as [p ->]. rewrite app_length. lia. Qed.

Definition pairs (l : list step) (ws : list (list N)) : list (wanted * list N) := combine (asked l) ws.

Lemma steps_ok : forall pl cs native fuel, caps_fit pl cs -> room pl cs -> forall t l ws r sent s,
  words l ws r -> length ws = length (asked t) ->
  good pl cs sent (text_bytes (console_encoding pl) native l) s ->
  can_print pl native t -> Forall wanted_ok (asked t) -> Forall (Forall (storable K8)) ws -> Forall scalar l -> (length l < fuel)%nat ->
  let out := run_steps pl (order_of native) fuel s t in
  let shows s' := good pl cs (fun ch => sent ch ++ text_bytes UTF8 native (printed ch t)) (text_bytes (console_encoding pl) native r) s' in
  ((exists s' rs, out = Ok (s', rs) /\ shows s') \/ (exists u, out = UB u)) /\
  (Forall2 modest (asked t) ws -> exists s' rs, out = Ok (s', rs) /\ shows s' /\
     Forall2 (fun '(q, w) a => right_reply q w a) (combine (asked t) ws) rs).
Proof.
  intros pl cs native fuel C Rm t. induction t as [|x t IH]; intros l ws r sent s W Lw G Cp Ow St S F out shows.
  - destruct ws; [|discriminate]. inversion W; subst.
    assert (Sh : shows s) by (eapply good_ext; [exact G|]; intro ch; cbn; apply app_nil_r).
    unfold out. cbn [run_steps]. split; [left; eauto|]. intros _. exists s, []. split; [reflexivity|]. split; [exact Sh|constructor].
  - pose proof (Forall_inv_tail Cp) as Cp'. destruct x as [ch k x|q]; unfold out; cbn [run_steps].
    + pose proof (Forall_inv Cp) as [Px Sx].
      destruct (say_ok pl cs native sent ch _ k x s G C Px Sx) as (s1 & w & E & G1 & _). rewrite E. cbn [bind].
      destruct (IH l ws r _ s1 W Lw G1 Cp' Ow St S F) as [IH1 IH2].
      assert (Sh : forall s', good pl cs (fun ch' => after sent ch (text_bytes UTF8 native x) ch' ++ text_bytes UTF8 native (printed ch' t))
                     (text_bytes (console_encoding pl) native r) s' -> shows s').
      { intros s' G'. eapply good_ext; [exact G'|]. intro ch'. unfold after. cbn [printed flat_map]. fold (printed ch' t).
        destruct (same_channel ch' ch); [rewrite text_bytes_app, app_assoc; reflexivity|reflexivity]. }
      split.
      * destruct IH1 as [(s' & rs & E' & G')|IH1]; [left; exists s', rs; auto|right; exact IH1].
      * intro M. destruct (IH2 M) as (s' & rs & E' & G' & R). exists s', rs. auto.
    + cbn [asked flat_map app] in Lw, Ow. fold (asked t) in Lw, Ow. destruct ws as [|w ws]; [discriminate|].
      inversion W as [|? ? l' ? ? Tk W']; subst. injection Lw as Lw.
      pose proof (Forall_inv Ow) as Oq. pose proof (Forall_inv_tail Ow) as Ow'.
      pose proof (Forall_inv St) as Sw. pose proof (Forall_inv_tail St) as St'.
      destruct (takes_scalar _ _ _ _ Tk S eq_refl) as (Sca & Scr & Nw).
      destruct (word_ok pl cs native sent fuel l w l' s C Rm G Tk S Sw F) as (s1 & E & G1).
      rewrite attempt_ask, E. cbn [bind].
      pose proof (shorter _ _ _ Tk) as Ls.
      assert (F' : (length l' < fuel)%nat) by lia.
      destruct (IH l' ws r sent s1 W' Lw G1 Cp' Ow' St' Scr F') as [IH1 IH2]. split.
      * destruct (parse_any q w s1 Oq Sw Sca Nw) as [[a Ea]|[u Eu]].
        -- rewrite Ea. cbn [bind]. destruct IH1 as [(s' & rs & E' & G')|[u E']]; rewrite E'; cbn [bind].
           ++ left. exists s', (a :: rs). split; [reflexivity|exact G'].
           ++ right. eauto.
        -- rewrite Eu. right. cbn [bind]. eauto.
      * cbn [asked flat_map app]. fold (asked t). intro M. inversion M as [|? ? ? ? Mq M']; subst.
        destruct (parse_shape q w s1 Oq Mq Sca Nw) as (a & Ea & Ra). rewrite Ea. cbn [bind].
        destruct (IH2 M') as (s' & rs & E' & G' & R). rewrite E'. cbn [bind].
        exists s', (a :: rs). split; [reflexivity|]. split; [exact G'|]. cbn [combine]. constructor; [exact Ra|exact R].
Qed.

(** The loop. *)
Lemma until_ok : forall pl cs native fuel k prompt q, caps_fit pl cs -> room pl cs -> wanted_ok q ->
  Forall (printable native UTF8 native k) prompt -> short pl (len (text_bytes UTF8 native prompt)) ->
  forall ws l w m r a sent s,
  words l ws m -> takes Word m w r -> Forall (fun v => modest q v /\ right_reply q v Wrong) ws ->
  modest q w -> right_reply q w a -> a <> Wrong ->
  good pl cs sent (text_bytes (console_encoding pl) native l) s -> Forall scalar l -> (length l < fuel)%nat ->
  exists s' a', ask_until pl (order_of native) fuel (S (length ws)) k prompt q s = Ok (s', a') /\ right_reply q w a' /\ a' <> Wrong /\
    good pl cs (after sent StandardOutput (text_bytes UTF8 native (concat (repeat prompt (S (length ws))))))
      (text_bytes (console_encoding pl) native r) s'.
Proof.
  intros pl cs native fuel k prompt q C Rm Oq Pp Sp. induction ws as [|v ws IH]; intros l w m r a sent s W Tk Ws Mw Rw Na G S F.
  - inversion W; subst. cbn [length ask_until].
    destruct (say_ok pl cs native sent StandardOutput _ k prompt s G C Pp Sp) as (s1 & d & E & G1 & _). rewrite E. cbn [bind].
    destruct (takes_scalar _ _ _ _ Tk S eq_refl) as (Sca & Scr & Nw).
    destruct (word_ok pl cs native _ fuel m w r s1 C Rm G1 Tk S (proj2 (modest_holds _ _ Mw)) F) as (s2 & E2 & G2).
    rewrite attempt_ask, E2. cbn [bind].
    destruct (parse_shape q w s2 Oq Mw Sca Nw) as (a' & Ea & Ra). rewrite Ea. cbn [bind].
    assert (Na' : a' <> Wrong).
    { intros ->. destruct q as [t|], a as [x|b|]; cbn [right_reply] in *; try contradiction; [now apply (Ra x)|].
      destruct b; destruct Ra; congruence. }
    exists s2, a'. cbn [repeat concat]. rewrite app_nil_r. destruct a'; try congruence; auto.
  - inversion W as [|? ? l' ? ? Tv W']; subst. cbn [length ask_until].
    pose proof (Forall_inv Ws) as [Mv Rv]. pose proof (Forall_inv_tail Ws) as Ws'.
    destruct (say_ok pl cs native sent StandardOutput _ k prompt s G C Pp Sp) as (s1 & d & E & G1 & _). rewrite E. cbn [bind].
    destruct (takes_scalar _ _ _ _ Tv S eq_refl) as (Sca & Scr & Nw).
    destruct (word_ok pl cs native _ fuel l v l' s1 C Rm G1 Tv S (proj2 (modest_holds _ _ Mv)) F) as (s2 & E2 & G2).
    rewrite attempt_ask, E2. cbn [bind].
    destruct (parse_shape q v s2 Oq Mv Sca Nw) as (a' & Ea & Ra). rewrite Ea. cbn [bind].
    assert (a' = Wrong) as ->.
    { destruct q as [t|], a' as [x|b|]; cbn [right_reply] in *; try contradiction; auto; [now apply Rv in Ra|].
      destruct b; destruct Rv; congruence. }
    pose proof (shorter _ _ _ Tv) as Ls.
    destruct (IH l' w m r a _ s2 W' Tk Ws' Mw Rw Na G2 Scr ltac:(lia)) as (s' & a' & E' & R' & N' & G').
    exists s', a'. split; [exact E'|]. split; [exact R'|]. split; [exact N'|].
    eapply good_ext; [exact G'|]. intro ch. rewrite after_app. cbn [repeat concat]. unfold after. destruct (same_channel ch StandardOutput); [|reflexivity]. now rewrite text_bytes_app.
Qed.

(** The outcome is that of StreamModel.v, but for the caught exception. *)
Lemma attempt_read : forall pl native fuel s,
  (forall t, attempt pl native fuel (WantNumber t) s =
     match read_integer native (uin_source pl) fuel t (uin pl native s), ask pl native fuel Word K8 s with
     | Ok (st, x), _ => Ok (in_res st, Number x)
     | Throw (ParseFailed _), Ok (s, _) => Ok (s, Wrong)
     | Throw e, _ => Throw e | UB u, _ => UB u | Terminate, _ => Terminate | Diverge, _ => Diverge
     end) /\
  attempt pl native fuel WantTruth s =
     match read_bool native (uin_source pl) fuel (uin pl native s), ask pl native fuel Word K8 s with
     | Ok (st, x), _ => Ok (in_res st, Truth x)
     | Throw (ParseFailed _), Ok (s, _) => Ok (s, Wrong)
     | Throw e, _ => Throw e | UB u, _ => UB u | Terminate, _ => Terminate | Diverge, _ => Diverge
     end.
Proof.
  intros. unfold attempt, read_integer, read_bool, ask. split; [intro t|];
    destruct (read_word native (uin_source pl) fuel K8 (uin pl native s)) as [[st input]|e|u| |]; cbn [bind]; auto.
  - destruct (parse_integer K8 t input default_integer_format) as [x|[]|u| |]; reflexivity.
  - destruct e; reflexivity.
  - destruct (parse_bool K8 input default_bool_format) as [x|[]|u| |]; reflexivity.
  - destruct e; reflexivity.
Qed.
