(** Lemmas about the Unicode model (iteration). *)
From Coq Require Import NArith ZArith List Bool Lia ZifyBool ZifyNat ZifyN.
From Verif Require Import Base UnicodeSpec UnicodeModel UnicodeText.
Import ListNotations.
Open Scope N_scope.
Ltac Zify.zify_post_hook ::= Z.div_mod_to_equations.

(* ---------------------------------------------------- bits to arithmetic *)

Lemma lor_disjoint : forall a b n, a < 2 ^ n -> N.lor a (b * 2 ^ n) = a + b * 2 ^ n.
Proof.
  intros a b n H.
  assert (L : N.land a (b * 2 ^ n) = 0).
  { apply N.bits_inj; intro m. rewrite N.land_spec, N.bits_0.
    destruct (N.lt_ge_cases m n).
    - rewrite N.mul_pow2_bits_low by assumption. apply andb_false_r.
    - destruct (N.eq_dec a 0) as [->|Ha]; [rewrite N.bits_0; reflexivity|].
      rewrite N.bits_above_log2; [reflexivity|].
      apply N.log2_lt_pow2 in H; lia. }
  rewrite N.add_nocarry_lxor by assumption.
  symmetry. now apply N.lxor_lor.
Qed.

Lemma lor_add : forall a b c n, a < 2 ^ n -> b = c * 2 ^ n -> N.lor a b = a + b.
Proof. intros; subst; now apply lor_disjoint. Qed.

Lemma land_ones_mod : forall a m n, m = N.ones n -> N.land a m = a mod 2 ^ n.
Proof. intros; subst; apply N.land_ones. Qed.

Lemma trailing_iff : forall u, is_trailing_byte u = true <-> 128 <= u < 192.
Proof.
  intro u. unfold is_trailing_byte. rewrite N.shiftr_div_pow2, N.eqb_eq.
  change (2 ^ 6) with 64. lia.
Qed.
Lemma trailing_false_iff : forall u, is_trailing_byte u = false <-> ~ (128 <= u < 192).
Proof.
  intro u. rewrite <- trailing_iff. destruct (is_trailing_byte u); intuition congruence.
Qed.
Lemma lead2_iff : forall u, (N.shiftr u 5 =? 6) = true <-> 192 <= u < 224.
Proof. intro u. rewrite N.shiftr_div_pow2, N.eqb_eq. change (2 ^ 5) with 32. lia. Qed.
Lemma lead3_iff : forall u, (N.shiftr u 4 =? 14) = true <-> 224 <= u < 240.
Proof. intro u. rewrite N.shiftr_div_pow2, N.eqb_eq. change (2 ^ 4) with 16. lia. Qed.
Lemma lead4_iff : forall u, (N.shiftr u 3 =? 30) = true <-> 240 <= u < 248.
Proof. intro u. rewrite N.shiftr_div_pow2, N.eqb_eq. change (2 ^ 3) with 8. lia. Qed.

(** initialize_utf8_sequence by ranges. *)
Definition init8_table (u : N) : outcome (nat * N) :=
  if u <? 128 then Ok (1%nat, u)
  else if u <? 192 then Throw InvalidUnicodeEncoding
  else if u <? 224 then Ok (2%nat, u - 192)
  else if u <? 240 then Ok (3%nat, u - 224)
  else if u <? 248 then Ok (4%nat, u - 240)
  else Throw InvalidUnicodeEncoding.

Lemma init8_eq : forall u, initialize_utf8_sequence u = init8_table u.
Proof.
  intro u. unfold initialize_utf8_sequence, init8_table, is_standalone_byte, fits_in_7_bits.
  pose proof (lead2_iff u) as H2. pose proof (lead3_iff u) as H3.
  pose proof (lead4_iff u) as H4.
  rewrite (land_ones_mod u 31 5), (land_ones_mod u 15 4), (land_ones_mod u 7 3) by reflexivity.
  change (2 ^ 5) with 32. change (2 ^ 4) with 16. change (2 ^ 3) with 8.
  destruct (N.shiftr u 5 =? 6), (N.shiftr u 4 =? 14), (N.shiftr u 3 =? 30);
    destruct (u <=? 127) eqn:E1; destruct (u <? 128) eqn:E2; try lia; try reflexivity;
    destruct (u <? 192) eqn:E3; try lia; try reflexivity;
    destruct (u <? 224) eqn:E4; try lia; try reflexivity;
    try (do 2 f_equal; lia);
    destruct (u <? 240) eqn:E5; try lia; try reflexivity;
    try (do 2 f_equal; lia);
    destruct (u <? 248) eqn:E6; try lia; try reflexivity;
    try (do 2 f_equal; lia).
Qed.

Lemma push6 : forall r u, 128 <= u < 192 ->
  N.lor (N.shiftl r 6) (N.land u 63) = r * 64 + (u - 128).
Proof.
  intros r u H. rewrite N.shiftl_mul_pow2, (land_ones_mod u 63 6) by reflexivity.
  rewrite N.lor_comm. rewrite (lor_disjoint _ r 6).
  - change (2 ^ 6) with 64. lia.
  - change (2 ^ 6) with 64. lia.
Qed.

Lemma leading_surrogate_iff : forall u, u < 0x10000 ->
  is_leading_surrogate u = true <-> 0xD800 <= u <= 0xDBFF.
Proof.
  intros u H. unfold is_leading_surrogate, to_char16.
  rewrite N.mod_small by assumption.
  unfold leading_surrogate_minimum_value, leading_surrogate_maximum_value. lia.
Qed.
Lemma trailing_surrogate_iff : forall u, u < 0x10000 ->
  is_trailing_surrogate u = true <-> 0xDC00 <= u <= 0xDFFF.
Proof.
  intros u H. unfold is_trailing_surrogate, to_char16.
  rewrite N.mod_small by assumption.
  unfold trailing_surrogate_minimum_value, trailing_surrogate_maximum_value. lia.
Qed.
Lemma surrogate_iff : forall u, u < 0x10000 ->
  is_surrogate u = true <-> 0xD800 <= u <= 0xDFFF.
Proof.
  intros u H. unfold is_surrogate, to_char16.
  rewrite N.mod_small by assumption.
  unfold leading_surrogate_minimum_value, trailing_surrogate_maximum_value. lia.
Qed.

(* --------------------------------------------------------- loose sequences *)

Lemma cons_inj : forall (a b : N) l l', a :: l = b :: l' -> a = b /\ l = l'.
Proof. intros a b l l' E; inversion E; auto. Qed.
Ltac cons_eqs := repeat match goal with
  | H : _ :: _ = _ :: _ |- _ => apply cons_inj in H; destruct H
  | H : _ :: _ = [] |- _ => discriminate H
  | H : [] = _ :: _ |- _ => discriminate H
  end.

Lemma loose8_inv : forall bs c, loose8 bs c ->
  (exists b, bs = [b] /\ c = b /\ b < 128) \/
  (exists a x, bs = [a; x] /\ 192 <= a < 224 /\ 128 <= x < 192 /\
     c = (a - 192) * 64 + (x - 128)) \/
  (exists a x y, bs = [a; x; y] /\ 224 <= a < 240 /\ 128 <= x < 192 /\ 128 <= y < 192 /\
     c = (a - 224) * 4096 + (x - 128) * 64 + (y - 128)) \/
  (exists a x y z, bs = [a; x; y; z] /\ 240 <= a < 248 /\ 128 <= x < 192 /\
     128 <= y < 192 /\ 128 <= z < 192 /\
     c = (a - 240) * 262144 + (x - 128) * 4096 + (y - 128) * 64 + (z - 128)).
Proof.
  intros bs c H. destruct H.
  - left. eauto.
  - right; left. do 2 eexists. split; [reflexivity|]. lia.
  - right; right; left. do 3 eexists. split; [reflexivity|]. lia.
  - right; right; right. do 4 eexists. split; [reflexivity|]. lia.
Qed.
Lemma loose16_inv : forall bs c, loose16 bs c ->
  (exists u, bs = [u] /\ c = u /\ u < 0x10000 /\ ~ (0xD800 <= u <= 0xDFFF)) \/
  (exists a b, bs = [a; b] /\ 0xD800 <= a <= 0xDBFF /\ 0xDC00 <= b <= 0xDFFF /\
     c = (a - 0xD800) * 1024 + (b - 0xDC00) + 0x10000).
Proof.
  intros bs c H. destruct H.
  - left. eauto.
  - right. do 2 eexists. split; [reflexivity|]. lia.
Qed.
Ltac inv8 L := apply loose8_inv in L;
  destruct L as [(? & ? & ? & ?)|[(? & ? & ? & ? & ? & ?)
    |[(? & ? & ? & ? & ? & ? & ? & ?)|(? & ? & ? & ? & ? & ? & ? & ? & ? & ?)]]]; subst.
Ltac inv16 L := apply loose16_inv in L;
  destruct L as [(? & ? & ? & ? & ?)|(? & ? & ? & ? & ? & ?)]; subst.

Lemma mk2 : forall a x, 192 <= a < 224 -> 128 <= x < 192 ->
  loose8 [a; x] ((a - 192) * 64 + (x - 128)).
Proof.
  intros. pose proof (L2 (a - 192) (x - 128)) as P.
  replace (192 + (a - 192)) with a in P by lia.
  replace (128 + (x - 128)) with x in P by lia. apply P; lia.
Qed.
Lemma mk3 : forall a x y, 224 <= a < 240 -> 128 <= x < 192 -> 128 <= y < 192 ->
  loose8 [a; x; y] ((a - 224) * 4096 + (x - 128) * 64 + (y - 128)).
Proof.
  intros. pose proof (L3 (a - 224) (x - 128) (y - 128)) as P.
  replace (224 + (a - 224)) with a in P by lia.
  replace (128 + (x - 128)) with x in P by lia.
  replace (128 + (y - 128)) with y in P by lia. apply P; lia.
Qed.
Lemma mk4 : forall a x y z, 240 <= a < 248 -> 128 <= x < 192 -> 128 <= y < 192 ->
  128 <= z < 192 ->
  loose8 [a; x; y; z]
    ((a - 240) * 262144 + (x - 128) * 4096 + (y - 128) * 64 + (z - 128)).
Proof.
  intros. pose proof (L4 (a - 240) (x - 128) (y - 128) (z - 128)) as P.
  replace (240 + (a - 240)) with a in P by lia.
  replace (128 + (x - 128)) with x in P by lia.
  replace (128 + (y - 128)) with y in P by lia.
  replace (128 + (z - 128)) with z in P by lia. apply P; lia.
Qed.

Lemma loose8_nonempty : forall bs c, loose8 bs c -> bs <> [].
Proof. intros bs c H; destruct H; discriminate. Qed.
Lemma loose16_nonempty : forall bs c, loose16 bs c -> bs <> [].
Proof. intros bs c H; destruct H; discriminate. Qed.
Lemma loose_nonempty : forall e bs c, loose e bs c -> bs <> [].
Proof.
  intros [] bs c H; cbn in H.
  - eapply loose8_nonempty; eauto.
  - eapply loose16_nonempty; eauto.
  - destruct H; discriminate.
Qed.

Lemma loose8_det : forall bs c bs' c' p p',
  loose8 bs c -> loose8 bs' c' -> bs ++ p = bs' ++ p' -> bs = bs' /\ c = c'.
Proof.
  intros bs c bs' c' p p' H H' E.
  inv8 H; inv8 H'; cbn [app] in E; cons_eqs; subst; try lia; auto.
Qed.
Lemma loose16_det : forall bs c bs' c' p p',
  loose16 bs c -> loose16 bs' c' -> bs ++ p = bs' ++ p' -> bs = bs' /\ c = c'.
Proof.
  intros bs c bs' c' p p' H H' E.
  inv16 H; inv16 H'; cbn [app] in E; cons_eqs; subst; try lia; auto.
Qed.
Lemma loose_det : forall e bs c bs' c' p p',
  loose e bs c -> loose e bs' c' -> bs ++ p = bs' ++ p' -> bs = bs' /\ c = c'.
Proof.
  intros [] bs c bs' c' p p' H H' E; cbn in H, H'.
  - eapply loose8_det; eauto.
  - eapply loose16_det; eauto.
  - destruct H; destruct H'; cbn in E; injection E; intros; subst; auto.
Qed.

Lemma loose8_utf8_of : forall c, c < 0x200000 -> loose8 (utf8_of c) c.
Proof.
  intros c H. unfold utf8_of.
  destruct (c <? 0x80) eqn:E1; [constructor; lia|].
  destruct (c <? 0x800) eqn:E2.
  { replace c with (c / 64 * 64 + c mod 64) at 3 by lia. constructor; lia. }
  destruct (c <? 0x10000) eqn:E3.
  { replace c with (c / 4096 * 4096 + (c / 64) mod 64 * 64 + c mod 64) at 4 by lia.
    constructor; lia. }
  replace c with (c / 262144 * 262144 + (c / 4096) mod 64 * 4096
                  + (c / 64) mod 64 * 64 + c mod 64) at 5 by lia.
  constructor; lia.
Qed.
Lemma loose16_utf16_of : forall c, scalar c -> loose16 (utf16_of c) c.
Proof.
  intros c [H H']. unfold utf16_of.
  destruct (c <? 0x10000) eqn:E; [constructor; lia|].
  replace c with ((c - 0x10000) / 1024 * 1024 + (c - 0x10000) mod 1024 + 0x10000) at 3 by lia.
  constructor; lia.
Qed.
Lemma loose_encode1 : forall e c, scalar c -> loose e (encode1 e c) c.
Proof.
  intros [] c H; cbn.
  - apply loose8_utf8_of. destruct H; lia.
  - now apply loose16_utf16_of.
  - constructor.
Qed.
Lemma loose_text_encode : forall e l, Forall scalar l -> loose_text e (encode e l) l.
Proof.
  intros e l H; induction H; cbn.
  - constructor.
  - constructor; auto. now apply loose_encode1.
Qed.

(* ------------------------------------------------- reading in the middle *)

Lemma nth_mid : forall (pre rest : list N) j,
  nth_error (pre ++ rest) (length pre + j) = nth_error rest j.
Proof.
  intros. rewrite nth_error_app2 by lia. f_equal. lia.
Qed.
Lemma nth_mid0 : forall (pre rest : list N),
  nth_error (pre ++ rest) (length pre) = nth_error rest 0.
Proof. intros. rewrite nth_error_app2 by lia. f_equal. lia. Qed.

Lemma len_mid : forall (pre rest : list N) j,
  Nat.eqb (length pre + j) (length (pre ++ rest)) = Nat.eqb j (length rest).
Proof.
  intros. rewrite app_length.
  destruct (Nat.eqb j (length rest)) eqn:E; lia.
Qed.
Lemma len_mid0 : forall (pre rest : list N),
  Nat.eqb (length pre) (length (pre ++ rest)) = Nat.eqb 0 (length rest).
Proof. intros. rewrite app_length. destruct (Nat.eqb 0 (length rest)) eqn:E; lia. Qed.
Lemma ptr_inc_mid : forall (pre rest : list N) j, (j < length rest)%nat ->
  ptr_inc (pre ++ rest) (length pre + j) = ((length pre + S j)%nat, Ok tt).
Proof.
  intros. unfold ptr_inc. rewrite app_length.
  destruct (Nat.ltb_spec (length pre + j) (length pre + length rest)); [|lia].
  f_equal. lia.
Qed.
Lemma ptr_inc_mid0 : forall (pre rest : list N), (0 < length rest)%nat ->
  ptr_inc (pre ++ rest) (length pre) = ((length pre + 1)%nat, Ok tt).
Proof.
  intros. replace (length pre) with (length pre + 0)%nat at 1 by lia.
  now rewrite ptr_inc_mid.
Qed.

(** What one step at a position does, whatever follows: decodes one loose
    sequence, or throws because the text there is truncated or malformed. *)
Definition truncated (e : encoding) (rest : list N) : Prop :=
  exists more c, more <> [] /\ loose e (rest ++ more) c.

Definition step_result (k : ukind) (pre rest : list N) : Prop :=
  (exists bs c post, rest = bs ++ post /\ loose (encoding_of k) bs c /\
     deref k (pre ++ rest) (length pre) = Ok (widen k c) /\
     (single_unit k c -> advance k (pre ++ rest) (length pre)
         = ((length pre + length bs)%nat, Ok tt)) /\
     (~ single_unit k c -> advance k (pre ++ rest) (length pre)
         = ((length pre + 1)%nat, Ok tt)))
  \/
  ((forall bs c post, rest = bs ++ post -> ~ loose (encoding_of k) bs c) /\
   (truncated (encoding_of k) rest /\ deref k (pre ++ rest) (length pre) = Throw IteratedPastEnd
    \/ ~ truncated (encoding_of k) rest /\
       deref k (pre ++ rest) (length pre) = Throw InvalidUnicodeEncoding)).

Ltac mid := repeat (rewrite nth_mid || rewrite nth_mid0 || rewrite len_mid
                    || rewrite len_mid0 || rewrite <- Nat.add_assoc).

Lemma trailing_true : forall u, 128 <= u < 192 -> is_trailing_byte u = true.
Proof. intros; now apply trailing_iff. Qed.
Lemma trailing_false : forall u, ~ (128 <= u < 192) -> is_trailing_byte u = false.
Proof. intros; now apply trailing_false_iff. Qed.

Lemma ltb_t : forall a b, a < b -> (a <? b) = true. Proof. intros; lia. Qed.
Lemma ltb_f : forall a b, b <= a -> (a <? b) = false. Proof. intros; lia. Qed.

Lemma init8_1 : forall u, u < 128 -> initialize_utf8_sequence u = Ok (1%nat, u).
Proof. intros. rewrite init8_eq. unfold init8_table. now rewrite ltb_t. Qed.
Lemma init8_2 : forall u, 192 <= u < 224 -> initialize_utf8_sequence u = Ok (2%nat, u - 192).
Proof.
  intros. rewrite init8_eq. unfold init8_table.
  now rewrite (ltb_f u 128), (ltb_f u 192), (ltb_t u 224) by lia.
Qed.
Lemma init8_3 : forall u, 224 <= u < 240 -> initialize_utf8_sequence u = Ok (3%nat, u - 224).
Proof.
  intros. rewrite init8_eq. unfold init8_table.
  now rewrite (ltb_f u 128), (ltb_f u 192), (ltb_f u 224), (ltb_t u 240) by lia.
Qed.
Lemma init8_4 : forall u, 240 <= u < 248 -> initialize_utf8_sequence u = Ok (4%nat, u - 240).
Proof.
  intros. rewrite init8_eq. unfold init8_table.
  now rewrite (ltb_f u 128), (ltb_f u 192), (ltb_f u 224), (ltb_f u 240), (ltb_t u 248) by lia.
Qed.
Lemma init8_bad : forall u, 128 <= u < 192 \/ 248 <= u ->
  initialize_utf8_sequence u = Throw InvalidUnicodeEncoding.
Proof.
  intros. rewrite init8_eq. unfold init8_table.
  rewrite (ltb_f u 128) by lia.
  destruct (u <? 192) eqn:E; [reflexivity|].
  now rewrite (ltb_f u 224), (ltb_f u 240), (ltb_f u 248) by lia.
Qed.

(** A byte at the front of a list is one of five classes. *)
Lemma byte_cases : forall u : N,
  u < 128 \/ (128 <= u < 192 \/ 248 <= u) \/ 192 <= u < 224 \/ 224 <= u < 240 \/ 240 <= u < 248.
Proof. intros; lia. Qed.

Ltac inv H := inversion H; subst; clear H.

Lemma step8 : forall pre rest, rest <> [] -> step_result K8 pre rest.
Proof.
  intros pre rest Hne. unfold step_result; cbn [encoding_of loose widen single_unit].
  destruct rest as [|u rest]; [congruence|].
  assert (Dd : deref K8 (pre ++ u :: rest) (length pre)
               = ref_decode8 (pre ++ u :: rest) (length pre)).
  { unfold deref. rewrite len_mid0. reflexivity. }
  rewrite Dd. unfold advance; cbn [class_of].
  unfold ref_decode8, advance8. rewrite nth_mid0; cbn [nth_error].
  destruct (byte_cases u) as [C|[C|[C|[C|C]]]].
  - (* standalone *)
    left. exists [u], u, rest. rewrite init8_1 by assumption.
    cbn [bind ref_finish8 adv_finish8 Nat.sub].
    repeat split; try reflexivity; try (now constructor); try tauto.
    intros _. rewrite ptr_inc_mid0 by (cbn; lia). reflexivity.
  - (* not a lead *)
    right. rewrite init8_bad by assumption. cbn [bind].
    split.
    + intros bs c post E L. inv8 L; cbn [app] in E; cons_eqs; subst; lia.
    + right. split; [|reflexivity].
      intros (more & c & Hm & L). inv8 L; cbn [app] in *; cons_eqs; subst; lia.
  - (* two bytes *)
    rewrite init8_2 by assumption. cbn [bind ref_finish8 adv_finish8 Nat.sub].
    rewrite len_mid.
    destruct rest as [|x rest].
    { right. cbn [length Nat.eqb]. split.
      - intros bs c post E L. inv8 L; cbn [app] in E; cons_eqs; subst; lia.
      - left. split; [|reflexivity].
        exists [128]. eexists. split; [discriminate|]. cbn [app].
        first [apply mk2 | apply mk3 | apply mk4]; lia. }
    cbn [length Nat.eqb]. rewrite nth_mid; cbn [nth_error].
    destruct (is_trailing_byte x) eqn:Tx.
    + apply trailing_iff in Tx. left.
      exists [u; x], ((u - 192) * 64 + (x - 128)), rest.
      cbn [negb]. rewrite push6 by assumption.
      split; [reflexivity|]. split.
      { first [apply mk2 | apply mk3 | apply mk4]; lia. }
      split; [reflexivity|]. split; [|tauto]. intros _.
      rewrite len_mid0; cbn [Nat.eqb length].
      rewrite ptr_inc_mid0 by (cbn; lia). cbn [then_].
      rewrite ptr_inc_mid by (cbn; lia). reflexivity.
    + apply trailing_false_iff in Tx. right. cbn [negb]. split.
      * intros bs c post E L. inv8 L; cbn [app] in E; cons_eqs; subst; lia.
      * right. split; [|reflexivity].
        intros (more & c & Hm & L). inv8 L; cbn [app] in *; cons_eqs; subst; lia.
  - (* three bytes *)
    rewrite init8_3 by assumption. cbn [bind ref_finish8 adv_finish8 Nat.sub].
    rewrite len_mid.
    destruct rest as [|x rest].
    { right. cbn [length Nat.eqb]. split.
      - intros bs c post E L. inv8 L; cbn [app] in E; cons_eqs; subst; lia.
      - left. split; [|reflexivity].
        exists [128; 128]. eexists. split; [discriminate|]. cbn [app].
        first [apply mk2 | apply mk3 | apply mk4]; lia. }
    cbn [length Nat.eqb]. rewrite nth_mid; cbn [nth_error].
    destruct (is_trailing_byte x) eqn:Tx.
    2:{ apply trailing_false_iff in Tx. right. cbn [negb]. split.
        - intros bs c post E L. inv8 L; cbn [app] in E; cons_eqs; subst; lia.
        - right. split; [|reflexivity].
          intros (more & c & Hm & L). inv8 L; cbn [app] in *; cons_eqs; subst; lia. }
    apply trailing_iff in Tx. cbn [negb]. rewrite push6 by assumption.
    rewrite <- Nat.add_assoc. rewrite len_mid. cbn [length Nat.eqb Nat.add].
    destruct rest as [|y rest].
    { right. cbn [length Nat.eqb]. split.
      - intros bs c post E L. inv8 L; cbn [app] in E; cons_eqs; subst; lia.
      - left. split; [|reflexivity].
        exists [128]. eexists. split; [discriminate|]. cbn [app].
        first [apply mk2 | apply mk3 | apply mk4]; lia. }
    cbn [length Nat.eqb]. rewrite nth_mid; cbn [nth_error].
    destruct (is_trailing_byte y) eqn:Ty.
    2:{ apply trailing_false_iff in Ty. right. cbn [negb]. split.
        - intros bs c post E L. inv8 L; cbn [app] in E; cons_eqs; subst; lia.
        - right. split; [|reflexivity].
          intros (more & c & Hm & L). inv8 L; cbn [app] in *; cons_eqs; subst; lia. }
    apply trailing_iff in Ty. cbn [negb]. rewrite push6 by assumption.
    left. exists [u; x; y], ((u - 224) * 4096 + (x - 128) * 64 + (y - 128)), rest.
    split; [reflexivity|]. split.
    { first [apply mk2 | apply mk3 | apply mk4]; lia. }
    split; [f_equal; lia|]. split; [|tauto]. intros _.
    rewrite len_mid0; cbn [Nat.eqb length].
    rewrite ptr_inc_mid0 by (cbn; lia). cbn [then_].
    rewrite len_mid; cbn [Nat.eqb length].
    rewrite <- Nat.add_assoc, nth_mid; cbn [nth_error Nat.add].
    rewrite trailing_true by assumption. cbn [negb].
    rewrite ptr_inc_mid by (cbn; lia). cbn [then_].
    rewrite ptr_inc_mid by (cbn; lia). reflexivity.
  - (* four bytes *)
    rewrite init8_4 by assumption. cbn [bind ref_finish8 adv_finish8 Nat.sub].
    rewrite len_mid.
    destruct rest as [|x rest].
    { right. cbn [length Nat.eqb]. split.
      - intros bs c post E L. inv8 L; cbn [app] in E; cons_eqs; subst; lia.
      - left. split; [|reflexivity].
        exists [128; 128; 128]. eexists. split; [discriminate|]. cbn [app].
        first [apply mk2 | apply mk3 | apply mk4]; lia. }
    cbn [length Nat.eqb]. rewrite nth_mid; cbn [nth_error].
    destruct (is_trailing_byte x) eqn:Tx.
    2:{ apply trailing_false_iff in Tx. right. cbn [negb]. split.
        - intros bs c post E L. inv8 L; cbn [app] in E; cons_eqs; subst; lia.
        - right. split; [|reflexivity].
          intros (more & c & Hm & L). inv8 L; cbn [app] in *; cons_eqs; subst; lia. }
    apply trailing_iff in Tx. cbn [negb]. rewrite push6 by assumption.
    rewrite <- Nat.add_assoc. rewrite len_mid. cbn [length Nat.eqb Nat.add].
    destruct rest as [|y rest].
    { right. cbn [length Nat.eqb]. split.
      - intros bs c post E L. inv8 L; cbn [app] in E; cons_eqs; subst; lia.
      - left. split; [|reflexivity].
        exists [128; 128]. eexists. split; [discriminate|]. cbn [app].
        first [apply mk2 | apply mk3 | apply mk4]; lia. }
    cbn [length Nat.eqb]. rewrite nth_mid; cbn [nth_error].
    destruct (is_trailing_byte y) eqn:Ty.
    2:{ apply trailing_false_iff in Ty. right. cbn [negb]. split.
        - intros bs c post E L. inv8 L; cbn [app] in E; cons_eqs; subst; lia.
        - right. split; [|reflexivity].
          intros (more & c & Hm & L). inv8 L; cbn [app] in *; cons_eqs; subst; lia. }
    apply trailing_iff in Ty. cbn [negb]. rewrite push6 by assumption.
    rewrite <- Nat.add_assoc. rewrite len_mid. cbn [length Nat.eqb Nat.add].
    destruct rest as [|z rest].
    { right. cbn [length Nat.eqb]. split.
      - intros bs c post E L. inv8 L; cbn [app] in E; cons_eqs; subst; lia.
      - left. split; [|reflexivity].
        exists [128]. eexists. split; [discriminate|]. cbn [app].
        first [apply mk2 | apply mk3 | apply mk4]; lia. }
    cbn [length Nat.eqb]. rewrite nth_mid; cbn [nth_error].
    destruct (is_trailing_byte z) eqn:Tz.
    2:{ apply trailing_false_iff in Tz. right. cbn [negb]. split.
        - intros bs c post E L. inv8 L; cbn [app] in E; cons_eqs; subst; lia.
        - right. split; [|reflexivity].
          intros (more & c & Hm & L). inv8 L; cbn [app] in *; cons_eqs; subst; lia. }
    apply trailing_iff in Tz. cbn [negb]. rewrite push6 by assumption.
    left. exists [u; x; y; z],
      ((u - 240) * 262144 + (x - 128) * 4096 + (y - 128) * 64 + (z - 128)), rest.
    split; [reflexivity|]. split.
    { first [apply mk2 | apply mk3 | apply mk4]; lia. }
    split; [f_equal; lia|]. split; [|tauto]. intros _.
    rewrite len_mid0; cbn [Nat.eqb length].
    rewrite ptr_inc_mid0 by (cbn; lia). cbn [then_].
    rewrite len_mid; cbn [Nat.eqb length].
    rewrite <- Nat.add_assoc, nth_mid; cbn [nth_error Nat.add].
    rewrite trailing_true by assumption. cbn [negb].
    rewrite ptr_inc_mid by (cbn; lia). cbn [then_].
    rewrite len_mid; cbn [Nat.eqb length].
    rewrite <- Nat.add_assoc, nth_mid; cbn [nth_error Nat.add].
    rewrite trailing_true by assumption. cbn [negb].
    rewrite ptr_inc_mid by (cbn; lia). cbn [then_].
    rewrite ptr_inc_mid by (cbn; lia). reflexivity.
Qed.

Lemma mk16 : forall a b, 0xD800 <= a <= 0xDBFF -> 0xDC00 <= b <= 0xDFFF ->
  loose16 [a; b] ((a - 0xD800) * 1024 + (b - 0xDC00) + 0x10000).
Proof.
  intros. pose proof (S2 (a - 0xD800) (b - 0xDC00)) as P.
  replace (0xD800 + (a - 0xD800)) with a in P by lia.
  replace (0xDC00 + (b - 0xDC00)) with b in P by lia. apply P; lia.
Qed.

Lemma init16_lead : forall u, 0xD800 <= u <= 0xDBFF ->
  initialize_utf16_sequence u = Ok (2%nat, (u - 0xD800) * 1024).
Proof.
  intros u H. unfold initialize_utf16_sequence.
  rewrite (proj2 (leading_surrogate_iff u ltac:(lia))) by lia.
  rewrite N.shiftl_mul_pow2. reflexivity.
Qed.
Lemma init16_trail : forall u, 0xDC00 <= u <= 0xDFFF ->
  initialize_utf16_sequence u = Throw InvalidUnicodeEncoding.
Proof.
  intros u H. unfold initialize_utf16_sequence.
  destruct (is_leading_surrogate u) eqn:E.
  { apply leading_surrogate_iff in E; lia. }
  now rewrite (proj2 (trailing_surrogate_iff u ltac:(lia))) by lia.
Qed.
Lemma init16_other : forall u, u < 0x10000 -> ~ (0xD800 <= u <= 0xDFFF) ->
  initialize_utf16_sequence u = Ok (1%nat, u).
Proof.
  intros u H H'. unfold initialize_utf16_sequence.
  destruct (is_leading_surrogate u) eqn:E.
  { apply leading_surrogate_iff in E; lia. }
  destruct (is_trailing_surrogate u) eqn:E'.
  { apply trailing_surrogate_iff in E'; lia. }
  reflexivity.
Qed.

Lemma step16 : forall k pre rest, class_of k = Multi16 ->
  rest <> [] -> Forall (unit_range k) rest -> step_result k pre rest.
Proof.
  intros k pre rest Hk Hne Hr.
  assert (Ek : k = K16 \/ k = KW2) by (destruct k; cbn in Hk; try discriminate; auto).
  assert (W : forall c, widen k c = c) by (destruct Ek; subst; reflexivity).
  assert (Ee : encoding_of k = UTF16) by (destruct Ek; subst; reflexivity).
  assert (Es : forall c, single_unit k c = bmp c) by (destruct Ek; subst; reflexivity).
  assert (Hr' : Forall (fun u => u < 0x10000) rest)
    by (destruct Ek; subst; exact Hr). clear Hr.
  destruct rest as [|u rest]; [congruence|].
  assert (Dd : deref k (pre ++ u :: rest) (length pre)
               = ref_decode16 (pre ++ u :: rest) (length pre)).
  { unfold deref. rewrite len_mid0, Hk. reflexivity. }
  unfold step_result. setoid_rewrite W. setoid_rewrite Es. rewrite Ee, Dd.
  unfold advance; rewrite Hk. cbn [loose].
  unfold ref_decode16, advance16. rewrite nth_mid0; cbn [nth_error].
  inversion Hr' as [|? ? Hu Hrest]; subst.
  assert (C : (u < 0xD800 \/ 0xDFFF < u) \/ 0xDC00 <= u <= 0xDFFF \/ 0xD800 <= u <= 0xDBFF) by lia.
  destruct C as [C|[C|C]].
  - left. exists [u], u, rest. rewrite init16_other by lia. cbn [bind].
    split; [reflexivity|]. split; [constructor; lia|]. split; [reflexivity|].
    unfold bmp. split; [intros _|intros Hb; lia].
    unfold adv_finish16. cbn [Nat.eqb]. now rewrite ptr_inc_mid0 by (cbn; lia).
  - right. rewrite init16_trail by lia. cbn [bind]. split.
    + intros bs c post E L. inv16 L; cbn [app] in E; cons_eqs; subst; lia.
    + right. split; [|reflexivity].
      intros (more & c & Hm & L). inv16 L; cbn [app] in *; cons_eqs; subst; lia.
  - rewrite init16_lead by lia. cbn [bind]. unfold ref_finish16, adv_finish16. cbn [Nat.eqb].
    rewrite len_mid, len_mid0.
    destruct rest as [|x rest].
    { right. cbn [length Nat.eqb]. split.
      - intros bs c post E L. inv16 L; cbn [app] in E; cons_eqs; subst; lia.
      - left. split; [|reflexivity].
        exists [0xDC00]. eexists. split; [discriminate|]. apply mk16; lia. }
    cbn [length Nat.eqb]. rewrite nth_mid; cbn [nth_error].
    inversion Hrest as [|? ? Hx Hrest2]; subst.
    destruct (is_trailing_surrogate x) eqn:T; cbn [negb].
    + apply trailing_surrogate_iff in T; [|assumption].
      left. exists [u; x]. eexists. exists rest. split; [reflexivity|].
      split; [apply mk16; lia|]. split; [reflexivity|].
      unfold bmp. split; [intros Hb; lia|intros _].
      now rewrite ptr_inc_mid0 by (cbn; lia).
    + right. split.
      * intros bs c post E L. inv16 L; cbn [app] in E; cons_eqs; subst; try lia.
        rewrite (proj2 (trailing_surrogate_iff _ ltac:(eassumption))) in T; [discriminate|lia].
      * right. split; [|reflexivity].
        intros (more & c & Hm & L). inv16 L; cbn [app] in *; cons_eqs; subst; try lia.
        rewrite (proj2 (trailing_surrogate_iff _ ltac:(eassumption))) in T; [discriminate|lia].
Qed.

Lemma step_plain : forall k pre rest, class_of k = Plain ->
  rest <> [] -> step_result k pre rest.
Proof.
  intros k pre rest Hk Hne.
  assert (Ee : encoding_of k = UTF32) by (destruct k; cbn in Hk; try discriminate; reflexivity).
  assert (Es : forall c, single_unit k c = True)
    by (destruct k; cbn in Hk; try discriminate; reflexivity).
  destruct rest as [|u rest]; [congruence|].
  left. exists [u], u, rest. rewrite Ee, Es.
  split; [reflexivity|]. split; [constructor|].
  unfold deref, advance. rewrite len_mid0, Hk. cbn [length Nat.eqb].
  rewrite nth_mid0; cbn [nth_error]. split; [reflexivity|]. split; [intros _|tauto].
  now rewrite ptr_inc_mid0 by (cbn; lia).
Qed.

Lemma step : forall k pre rest, rest <> [] -> Forall (unit_range k) rest ->
  step_result k pre rest.
Proof.
  intros k pre rest Hne Hr. destruct (class_of k) eqn:C.
  - now apply step_plain.
  - assert (k = K8) as -> by (destruct k; cbn in C; try discriminate; reflexivity).
    now apply step8.
  - now apply step16.
Qed.

(* --------------------------------------------------- well-formed positions *)

Lemma encode_app : forall e a b, encode e (a ++ b) = encode e a ++ encode e b.
Proof. intros. apply flat_map_app. Qed.

Lemma holds_widen : forall k c, holds k c -> widen k c = c.
Proof.
  intros [[]| | | | |] c H; cbn in *; try reflexivity.
  now rewrite ltb_t.
Qed.
Lemma holds_loose : forall k c, holds k c ->
  loose (encoding_of k) (encode1 (encoding_of k) c) c.
Proof.
  intros [[]| | | | |] c H; cbn in *; try constructor;
    first [now apply loose16_utf16_of | apply loose8_utf8_of; destruct H; lia].
Qed.
Lemma holds_range : forall k c, holds k c ->
  Forall (unit_range k) (encode1 (encoding_of k) c).
Proof.
  assert (R8 : forall c, scalar c -> Forall (fun u => u < 256) (utf8_of c)).
  { intros c [H _]. unfold utf8_of.
    destruct (c <? 128) eqn:?; [repeat constructor; lia|].
    destruct (c <? 0x800) eqn:?; [repeat constructor; lia|].
    destruct (c <? 0x10000) eqn:?; repeat constructor; lia. }
  assert (R16 : forall c, scalar c -> Forall (fun u => u < 0x10000) (utf16_of c)).
  { intros c [H _]. unfold utf16_of.
    destruct (c <? 0x10000) eqn:?; repeat constructor; lia. }
  intros [[]| | | | |] c H; cbn [encoding_of encode1 holds] in *;
    try exact (R8 c H); try exact (R16 c H);
    (apply Forall_cons; [cbn [unit_range]|apply Forall_nil]); try lia; destruct H; lia.
Qed.
Lemma units_range : forall k l, Forall (holds k) l -> Forall (unit_range k) (units k l).
Proof.
  intros k l H; unfold units; induction H; cbn; [constructor|].
  apply Forall_app; split; auto. now apply holds_range.
Qed.
Lemma encode1_nonempty : forall e c, encode1 e c <> [].
Proof.
  intros [] c; cbn; unfold utf8_of, utf16_of, utf32_of;
    repeat match goal with |- context [if ?b then _ else _] => destruct b end; discriminate.
Qed.

Lemma at_boundary : forall k pre c post,
  holds k c -> Forall (unit_range k) post ->
  let s := pre ++ encode1 (encoding_of k) c ++ post in
  deref k s (length pre) = Ok c /\
  (single_unit k c -> advance k s (length pre)
     = (length (pre ++ encode1 (encoding_of k) c), Ok tt)) /\
  (~ single_unit k c -> advance k s (length pre) = ((length pre + 1)%nat, Ok tt)).
Proof.
  intros k pre c post Hc Hp s.
  destruct (step k pre (encode1 (encoding_of k) c ++ post)) as [(bs & c' & p' & E & L & D & A & A')|(Hno & _)].
  - intro E. apply app_eq_nil in E. now apply (encode1_nonempty (encoding_of k) c).
  - apply Forall_app; split; auto. now apply holds_range.
  - pose proof (holds_loose k c Hc) as L'.
    destruct (loose_det _ _ _ _ _ _ _ L' L E) as [<- <-].
    rewrite holds_widen in D by assumption.
    rewrite app_length. auto.
  - exfalso. exact (Hno _ _ _ eq_refl (holds_loose k c Hc)).
Qed.

(* ------------------------------------------------------ forward iteration *)

Lemma visit_from_ok : forall k l pre fuel,
  Forall (holds k) l -> Forall (single_unit k) l -> (length l < fuel)%nat ->
  visit_from fuel k (pre ++ units k l) (length pre) = (l, Ok tt).
Proof.
  intros k l; induction l as [|c l IH]; intros pre fuel Hh Hs Hf.
  - destruct fuel; [lia|]. cbn [visit_from]. rewrite len_mid0. reflexivity.
  - destruct fuel; [cbn in Hf; lia|]. cbn [visit_from].
    inversion Hh as [|? ? Hc Hl]; inversion Hs as [|? ? Sc Sl]; subst.
    change (units k (c :: l)) with (encode1 (encoding_of k) c ++ units k l).
    rewrite len_mid0.
    destruct (encode1 (encoding_of k) c) as [|u r] eqn:Ee.
    { now apply encode1_nonempty in Ee. }
    cbn [app length Nat.eqb]. change (u :: r ++ units k l) with ((u :: r) ++ units k l).
    rewrite <- Ee.
    destruct (at_boundary k pre c (units k l) Hc (units_range k l Hl)) as (D & A & _).
    rewrite D, (A Sc).
    rewrite app_assoc. rewrite IH; auto. cbn in Hf; lia.
Qed.

Lemma length_units_ge : forall k l, (length l <= length (units k l))%nat.
Proof.
  intros k l; unfold units; induction l as [|c l IH]; cbn; [lia|].
  rewrite app_length. destruct (encode1 (encoding_of k) c) eqn:E.
  - now apply encode1_nonempty in E.
  - cbn. unfold encode in IH. lia.
Qed.

Lemma visit_ok : forall k l,
  Forall (holds k) l -> Forall (single_unit k) l -> visit k (units k l) = (l, Ok tt).
Proof.
  intros. unfold visit. apply (visit_from_ok k l []); auto.
  pose proof (length_units_ge k l). lia.
Qed.

(** Arbitrary text, kinds other than UTF-16: the loop decodes the longest loose
    prefix. *)
Definition stuck (e : encoding) (s : list N) : Prop :=
  s <> [] /\ forall bs c post, s = bs ++ post -> ~ loose e bs c.

Lemma visit_from_loose : forall k fuel pre rest,
  class_of k <> Multi16 -> Forall (unit_range k) rest -> (length rest < fuel)%nat ->
  exists s1 s2 l r, rest = s1 ++ s2 /\ loose_text (encoding_of k) s1 l /\
    visit_from fuel k (pre ++ rest) (length pre) = (map (widen k) l, r) /\
    ((s2 = [] /\ r = Ok tt) \/
     (stuck (encoding_of k) s2 /\
      (truncated (encoding_of k) s2 /\ r = Throw IteratedPastEnd \/
       ~ truncated (encoding_of k) s2 /\ r = Throw InvalidUnicodeEncoding))).
Proof.
  intros k fuel; induction fuel as [|fuel IH]; intros pre rest Hk Hr Hf; [lia|].
  cbn [visit_from]. rewrite len_mid0.
  destruct rest as [|u rest].
  { exists [], [], [], (Ok tt). repeat split; try constructor; auto. }
  cbn [length Nat.eqb].
  destruct (step k pre (u :: rest) ltac:(discriminate) Hr)
    as [(bs & c & post & E & L & D & A & _)|(Hno & Hd)].
  - rewrite D.
    assert (Sc : single_unit k c) by (destruct k; cbn in *; auto; congruence).
    rewrite (A Sc). rewrite E in Hr |- *. rewrite app_assoc.
    rewrite <- app_length.
    apply Forall_app in Hr as [_ Hpost].
    destruct (IH (pre ++ bs) post Hk Hpost) as (s1 & s2 & l & r & E2 & L2 & V & T).
    { apply (f_equal (@length N)) in E. rewrite app_length in E. cbn in E, Hf.
      pose proof (loose_nonempty _ _ _ L). destruct bs; [congruence|]. cbn in E. lia. }
    rewrite V. exists (bs ++ s1), s2, (c :: l), r.
    split; [now rewrite <- app_assoc, <- E2|]. split; [now constructor|]. split; auto.
  - exists [], (u :: rest), [].
    destruct Hd as [[Ht Hd]|[Ht Hd]]; rewrite Hd; eexists; (split; [reflexivity|]);
      (split; [constructor|]); (split; [reflexivity|]); right;
      (split; [split; [discriminate|exact Hno]|]); auto.
Qed.

(** Arbitrary UTF-16 text: units are visited one by one up to the first surrogate. *)
Definition surrogate (u : N) : Prop := 0xD800 <= u <= 0xDFFF.

Lemma visit16_lone_trail : forall fuel k pre u rest,
  class_of k = Multi16 -> 0xDC00 <= u <= 0xDFFF -> Forall (unit_range k) (u :: rest) ->
  visit_from (S fuel) k (pre ++ u :: rest) (length pre) = ([], Throw InvalidUnicodeEncoding).
Proof.
  intros fuel k pre u rest Hk Hu Hr. cbn [visit_from]. rewrite len_mid0. cbn [length Nat.eqb].
  unfold deref. rewrite len_mid0, Hk. cbn [length Nat.eqb].
  unfold ref_decode16. rewrite nth_mid0. cbn [nth_error]. now rewrite init16_trail.
Qed.

Lemma visit16_arbitrary : forall k pre a rest fuel,
  class_of k = Multi16 -> Forall (unit_range k) (a ++ rest) ->
  Forall (fun u => ~ surrogate u) a ->
  (length (a ++ rest) < fuel)%nat ->
  visit_from fuel k (pre ++ a ++ rest) (length pre) =
  let '(l, r) := visit_from (fuel - length a) k ((pre ++ a) ++ rest) (length (pre ++ a))
  in (a ++ l, r).
Proof.
  intros k pre a; revert pre; induction a as [|u a IH]; intros pre rest fuel Hk Hr Hs Hf.
  - cbn [app length] in *. rewrite Nat.sub_0_r, app_nil_r. cbn [app].
    now destruct (visit_from fuel k (pre ++ rest) (length pre)).
  - destruct fuel; [cbn in Hf; lia|]. cbn [length Nat.sub app].
    inversion Hs as [|? ? Hu Ha]; subst.
    assert (Hlt : u < 0x10000).
    { inversion Hr; subst. destruct k; cbn in *; try discriminate; assumption. }
    assert (Hcu : holds k u /\ single_unit k u).
    { unfold surrogate in Hu. destruct k; cbn in *; try discriminate;
        unfold scalar, bmp; lia. }
    inversion Hr as [|? ? Hur Hrr]; subst.
    destruct (at_boundary k pre u (a ++ rest) (proj1 Hcu) Hrr) as (D & A & _).
    assert (E1 : encode1 (encoding_of k) u = [u]).
    { destruct k; cbn in *; try discriminate; unfold utf16_of; now rewrite ltb_t. }
    rewrite E1 in D, A. cbn [app] in D, A. specialize (A (proj2 Hcu)).
    cbn [visit_from]. rewrite len_mid0. cbn [length Nat.eqb]. rewrite D, A.
    change (u :: a ++ rest) with ([u] ++ (a ++ rest)). rewrite app_assoc.
    rewrite IH; auto.
    2:{ cbn in Hf. lia. }
    replace ((pre ++ [u]) ++ a) with (pre ++ u :: a) by (rewrite <- app_assoc; reflexivity).
    now destruct (visit_from (fuel - length a) k ((pre ++ u :: a) ++ rest) (length (pre ++ u :: a))).
Qed.
