(** Lemmas about the Unicode model: stepping back, iterator arithmetic, inserting,
    converting, comparing and validating. *)
From Coq Require Import NArith ZArith List Bool Lia ZifyBool ZifyNat ZifyN.
From Verif Require Import Base UnicodeSpec UnicodeModel UnicodeText UnicodeLemmas.
Import ListNotations.
Open Scope N_scope.
Ltac Zify.zify_post_hook ::= Z.div_mod_to_equations.

(* ------------------------------------------------------------- retreating *)

Lemma standalone_lt : forall u, u < 128 -> is_standalone_byte u = true.
Proof. intros. unfold is_standalone_byte, fits_in_7_bits. lia. Qed.
Lemma standalone_ge : forall u, 128 <= u -> is_standalone_byte u = false.
Proof. intros. unfold is_standalone_byte, fits_in_7_bits. lia. Qed.

Lemma retreat8_loop_over : forall pre lead tr post m,
  is_trailing_byte lead = false -> Forall (fun u => is_trailing_byte u = true) tr ->
  (m < length tr)%nat ->
  forall u, nth_error tr m = Some u ->
  retreat8_loop (pre ++ lead :: tr ++ post) u (length pre + 1 + m) = (length pre, Ok tt).
Proof.
  intros pre lead tr post m Hl Ht; induction m as [|m IH]; intros Hm u Hu.
  - assert (T : is_trailing_byte u = true).
    { rewrite Forall_forall in Ht. apply Ht. eapply nth_error_In; eauto. }
    rewrite Nat.add_0_r. rewrite Nat.add_1_r. cbn [retreat8_loop]. rewrite T.
    rewrite nth_mid0. cbn [nth_error]. destruct (length pre); cbn [retreat8_loop]; now rewrite Hl.
  - assert (T : is_trailing_byte u = true).
    { rewrite Forall_forall in Ht. apply Ht. eapply nth_error_In; eauto. }
    replace (length pre + 1 + S m)%nat with (S (length pre + 1 + m)) by lia.
    cbn [retreat8_loop]. rewrite T.
    rewrite <- Nat.add_assoc. rewrite nth_mid. cbn [nth_error Nat.add].
    rewrite nth_error_app1 by lia.
    destruct (nth_error tr m) as [v|] eqn:E.
    + rewrite <- (IH ltac:(lia) v eq_refl).
      replace (length pre + 1 + m)%nat with (length pre + S m)%nat by lia. reflexivity.
    + apply nth_error_None in E. lia.
Qed.

Lemma retreat8_over : forall pre lead tr post,
  is_trailing_byte lead = false -> Forall (fun u => is_trailing_byte u = true) tr ->
  retreat8 (pre ++ lead :: tr ++ post) (length pre + 1 + length tr) = (length pre, Ok tt).
Proof.
  intros pre lead tr post Hl Ht. unfold retreat8.
  destruct tr as [|t0 tr0] eqn:Etr.
  - cbn [length]. rewrite Nat.add_0_r, Nat.add_1_r. cbn [ptr_dec then_].
    rewrite nth_mid0. cbn [nth_error]. destruct (is_standalone_byte lead); [reflexivity|].
    destruct (length pre); cbn [retreat8_loop]; now rewrite Hl.
  - rewrite <- Etr in *. assert (length tr = S (length tr0)) as Hlen by (subst; reflexivity).
    replace (length pre + 1 + length tr)%nat with (S (length pre + 1 + length tr0)) by lia.
    cbn [ptr_dec then_].
    replace (length pre + 1 + length tr0)%nat with (length pre + S (length tr0))%nat by lia.
    rewrite nth_mid. cbn [nth_error]. rewrite nth_error_app1 by lia.
    destruct (nth_error tr (length tr0)) as [u|] eqn:E.
    2:{ apply nth_error_None in E. lia. }
    assert (T : is_trailing_byte u = true).
    { rewrite Forall_forall in Ht. apply Ht. eapply nth_error_In; eauto. }
    rewrite standalone_ge by (apply trailing_iff in T; lia).
    replace (length pre + S (length tr0))%nat with (length pre + 1 + length tr0)%nat by lia.
    now apply retreat8_loop_over; [| |lia|].
Qed.

Lemma loose8_shape : forall bs c, loose8 bs c ->
  exists lead tr, bs = lead :: tr /\ is_trailing_byte lead = false /\
    Forall (fun u => is_trailing_byte u = true) tr.
Proof.
  intros bs c L. inv8 L; do 2 eexists; (split; [reflexivity|]);
    (split; [apply trailing_false; lia|]);
    repeat (apply Forall_cons; [apply trailing_true; lia|]); constructor.
Qed.

Lemma retreat_over : forall k pre bs c post,
  loose (encoding_of k) bs c -> Forall (unit_range k) bs ->
  retreat k (pre ++ bs ++ post) (length (pre ++ bs)) = (length pre, Ok tt).
Proof.
  intros k pre bs c post L R. rewrite app_length. unfold retreat.
  destruct (class_of k) eqn:Ck.
  - assert (exists u, bs = [u]) as [u ->].
    { destruct k; cbn in *; try discriminate; destruct L; eauto. }
    cbn [length]. rewrite Nat.add_1_r. reflexivity.
  - assert (k = K8) as -> by (destruct k; cbn in Ck; try discriminate; reflexivity).
    cbn [encoding_of loose] in L.
    destruct (loose8_shape bs c L) as (lead & tr & -> & Hl & Ht).
    replace (length pre + length (lead :: tr))%nat with (length pre + 1 + length tr)%nat
      by (cbn [length]; lia).
    cbn [app]. now apply retreat8_over.
  - assert (Ee : encoding_of k = UTF16) by (destruct k; cbn in Ck; try discriminate; reflexivity).
    rewrite Ee in L. cbn [loose] in L. unfold retreat16.
    apply loose16_inv in L.
    destruct L as [(x & -> & _ & Hx & Hx')|(a & b & -> & Ha & Hb & _)].
    + cbn [length]. rewrite Nat.add_1_r. cbn [ptr_dec then_].
      rewrite nth_mid0. cbn [app nth_error].
      destruct (is_trailing_surrogate x) eqn:T; [|reflexivity].
      apply trailing_surrogate_iff in T; [lia|assumption].
    + cbn [length]. replace (length pre + 2)%nat with (S (length pre + 1)) by lia.
      cbn [ptr_dec then_]. rewrite nth_mid. cbn [app nth_error].
      rewrite (proj2 (trailing_surrogate_iff b ltac:(lia))) by lia.
      rewrite Nat.add_1_r. reflexivity.
Qed.

Lemma retreat_boundary : forall k pre c post, holds k c ->
  retreat k (pre ++ encode1 (encoding_of k) c ++ post)
    (length (pre ++ encode1 (encoding_of k) c)) = (length pre, Ok tt).
Proof.
  intros. eapply retreat_over; [now apply holds_loose | now apply holds_range].
Qed.

Lemma rderef_boundary : forall k pre c post, holds k c -> Forall (unit_range k) post ->
  rderef k (pre ++ encode1 (encoding_of k) c ++ post)
    (length (pre ++ encode1 (encoding_of k) c)) = Ok c.
Proof.
  intros. unfold rderef. rewrite retreat_boundary by assumption.
  now apply at_boundary.
Qed.

Lemma units_app : forall k a b, units k (a ++ b) = units k a ++ units k b.
Proof. intros. apply encode_app. Qed.
Lemma units_one : forall k c, units k [c] = encode1 (encoding_of k) c.
Proof. intros. unfold units, encode; cbn. apply app_nil_r. Qed.

Lemma rvisit_from_ok : forall k l post fuel,
  Forall (holds k) l -> Forall (unit_range k) post -> (length l < fuel)%nat ->
  rvisit_from fuel k (units k l ++ post) (length (units k l)) = (rev l, Ok tt).
Proof.
  intros k l; induction l as [|c l IH] using rev_ind; intros post fuel Hh Hp Hf.
  - destruct fuel; [lia|]. reflexivity.
  - rewrite app_length in Hf; cbn in Hf. destruct fuel; [lia|]. cbn [rvisit_from].
    apply Forall_app in Hh as [Hl Hc]. inversion Hc as [|? ? Hc' _]; subst.
    rewrite units_app, units_one, <- app_assoc.
    destruct (Nat.eqb_spec (length (units k l ++ encode1 (encoding_of k) c)) 0) as [E|_].
    { rewrite app_length in E. assert (E' : length (encode1 (encoding_of k) c) = O) by lia.
      apply length_zero_iff_nil in E'. now apply encode1_nonempty in E'. }
    rewrite rderef_boundary by assumption. rewrite retreat_boundary by assumption.
    rewrite IH; auto; [|apply Forall_app; split; auto; now apply holds_range|lia].
    now rewrite rev_app_distr.
Qed.

Lemma rvisit_ok : forall k l, Forall (holds k) l -> rvisit k (units k l) = (rev l, Ok tt).
Proof.
  intros. unfold rvisit. pose proof (rvisit_from_ok k l [] (S (length (units k l)))) as P.
  rewrite app_nil_r in P. apply P; auto.
  pose proof (length_units_ge k l). lia.
Qed.

(* ----------------------------------------------------- iterator arithmetic *)

Lemma repeat_advance : forall k b pre post,
  Forall (holds k) b -> Forall (single_unit k) b -> Forall (unit_range k) post ->
  repeat_step (advance k (pre ++ units k b ++ post)) (length b) (length pre)
  = (length (pre ++ units k b), Ok tt).
Proof.
  intros k b; induction b as [|c b IH]; intros pre post Hh Hs Hp.
  - cbn. now rewrite app_nil_r.
  - inversion Hh as [|? ? Hc Hb]; inversion Hs as [|? ? Sc Sb]; subst.
    change (units k (c :: b)) with (encode1 (encoding_of k) c ++ units k b).
    cbn [length repeat_step]. rewrite <- app_assoc.
    destruct (at_boundary k pre c (units k b ++ post) Hc) as (_ & A & _).
    { apply Forall_app; split; auto. now apply units_range. }
    rewrite (A Sc). cbn [then_].
    rewrite (app_assoc pre). rewrite IH by assumption. now rewrite <- app_assoc.
Qed.

Lemma repeat_snoc : forall step n i,
  repeat_step step (n + 1) i = then_ (repeat_step step n i) (fun i' _ => step i').
Proof.
  intros step n; induction n as [|n IH]; intros i; cbn [Nat.add repeat_step then_].
  - destruct (step i) as [j [[]| | | |]]; reflexivity.
  - destruct (step i) as [j [[]| | | |]]; cbn [then_]; auto.
Qed.

Lemma repeat_retreat : forall k b pre post,
  Forall (holds k) b ->
  repeat_step (retreat k (pre ++ units k b ++ post)) (length b) (length (pre ++ units k b))
  = (length pre, Ok tt).
Proof.
  intros k b; induction b as [|c b IH]; intros pre post Hh.
  - cbn. now rewrite app_nil_r.
  - inversion Hh as [|? ? Hc Hb]; subst.
    change (units k (c :: b)) with (encode1 (encoding_of k) c ++ units k b).
    cbn [length]. rewrite <- Nat.add_1_r, repeat_snoc, <- app_assoc.
    rewrite (app_assoc pre), (app_assoc pre). rewrite IH by assumption.
    cbn [then_]. rewrite <- app_assoc. now apply retreat_boundary.
Qed.

Definition offset_in_range (n : nat) : Prop := (Z.of_nat n < 2 ^ 63)%Z.

Lemma repeat_ptr_inc : forall s n i, (i + n <= length s)%nat ->
  repeat_step (ptr_inc s) n i = ((i + n)%nat, Ok tt).
Proof.
  intros s n; induction n as [|n IH]; intros i H; cbn [repeat_step].
  - now rewrite Nat.add_0_r.
  - unfold ptr_inc at 1. destruct (Nat.ltb_spec i (length s)); [|lia].
    cbn [then_]. rewrite IH by lia. f_equal; lia.
Qed.

Lemma advance_by_repeat : forall k s n i, (i + n <= length s)%nat \/ class_of k <> Plain ->
  advance_by k s (Z.of_nat n) i = repeat_step (advance k s) n i.
Proof.
  intros k s n i H. unfold advance_by, advance, count_down, ptr_add.
  destruct (class_of k) eqn:C.
  - destruct H as [H|H]; [|congruence].
    rewrite repeat_ptr_inc by assumption.
    destruct (((0 <=? Z.of_nat i + Z.of_nat n)%Z && (Z.of_nat i + Z.of_nat n <=? Z.of_nat (length s))%Z)%bool) eqn:E.
    + f_equal. lia.
    + lia.
  - destruct (Z.of_nat n =? - 2 ^ 63)%Z eqn:E; [lia|]. now rewrite Nat2Z.id.
  - destruct (Z.of_nat n =? - 2 ^ 63)%Z eqn:E; [lia|]. now rewrite Nat2Z.id.
Qed.

Lemma repeat_ptr_dec : forall n i, (n <= i)%nat -> repeat_step ptr_dec n i = ((i - n)%nat, Ok tt).
Proof.
  induction n as [|n IH]; intros i H; cbn [repeat_step].
  - now rewrite Nat.sub_0_r.
  - destruct i; [lia|]. cbn [ptr_dec then_]. rewrite IH by lia. f_equal.
Qed.

Lemma retreat_by_repeat : forall k s n i, class_of k <> Multi16 ->
  (n <= i <= length s)%nat \/ class_of k <> Plain ->
  retreat_by k s (Z.of_nat n) i = repeat_step (retreat k s) n i.
Proof.
  intros k s n i H16 H. unfold retreat_by, retreat, count_down, ptr_add.
  destruct (class_of k) eqn:C.
  - destruct H as [H|H]; [|congruence].
    change (fun i0 : nat => ptr_dec i0) with ptr_dec.
    rewrite repeat_ptr_dec by lia.
    destruct (((0 <=? Z.of_nat i + - Z.of_nat n)%Z && (Z.of_nat i + - Z.of_nat n <=? Z.of_nat (length s))%Z)%bool) eqn:E.
    + f_equal. lia.
    + lia.
  - destruct (Z.of_nat n =? - 2 ^ 63)%Z eqn:E; [lia|]. now rewrite Nat2Z.id.
  - congruence.
Qed.

Lemma plain_units : forall k l, class_of k = Plain -> units k l = l.
Proof.
  intros k l H. unfold units.
  assert (encoding_of k = UTF32) as -> by (destruct k; cbn in H; try discriminate; reflexivity).
  unfold encode. induction l; cbn; [reflexivity|]. now f_equal.
Qed.

Lemma advance_by_ok : forall k a b c,
  Forall (holds k) (a ++ b ++ c) -> Forall (single_unit k) b ->
  advance_by k (units k (a ++ b ++ c)) (Z.of_nat (length b)) (length (units k a))
  = (length (units k (a ++ b)), Ok tt).
Proof.
  intros k a b c H Sb. apply Forall_app in H as [Ha H]. apply Forall_app in H as [Hb Hc].
  rewrite advance_by_repeat.
  - rewrite !units_app. apply repeat_advance; auto. now apply units_range.
  - destruct (class_of k) eqn:C; [left|right; congruence|right; congruence].
    rewrite !plain_units by assumption. rewrite !app_length. lia.
Qed.

Lemma minus_assign_ok : forall k a b c, class_of k <> Multi16 ->
  Forall (holds k) (a ++ b ++ c) ->
  minus_assign k (units k (a ++ b ++ c)) (Z.of_nat (length b)) (length (units k (a ++ b)))
  = (length (units k a), Ok tt).
Proof.
  intros k a b c H16 H. apply Forall_app in H as [Ha H]. apply Forall_app in H as [Hb Hc].
  unfold minus_assign. rewrite retreat_by_repeat; auto.
  - rewrite !units_app. rewrite repeat_retreat by assumption. reflexivity.
  - destruct (class_of k) eqn:C; [left|right; congruence|right; congruence].
    rewrite !plain_units by assumption. rewrite !app_length. lia.
Qed.

(* ------------------------------------------------------------- insertion *)

Lemma str_insert_ok : forall s i u, (i <= length s)%nat ->
  str_insert s i u = (firstn i s ++ u :: skipn i s, Ok tt).
Proof.
  intros. unfold str_insert. destruct (Nat.ltb_spec (length s) i); [lia|reflexivity].
Qed.
Lemma str_insert_bad : forall s i u, (length s < i)%nat ->
  str_insert s i u = (s, Throw OutOfRange).
Proof.
  intros. unfold str_insert. destruct (Nat.ltb_spec (length s) i); [reflexivity|lia].
Qed.

(** Inserting the units one after the other at a moving index. *)
Lemma str_insert_next : forall s i done u, (i <= length s)%nat ->
  str_insert (firstn i s ++ done ++ skipn i s) (i + length done) u
  = (firstn i s ++ (done ++ [u]) ++ skipn i s, Ok tt).
Proof.
  intros s i done u H.
  assert (Lf : length (firstn i s) = i) by (rewrite firstn_length; lia).
  rewrite str_insert_ok.
  - f_equal. rewrite app_assoc.
    assert (Ld : (i + length done = length (firstn i s ++ done))%nat)
      by (rewrite app_length; lia).
    rewrite Ld. rewrite firstn_app, Nat.sub_diag, firstn_all. cbn [firstn].
    rewrite skipn_app, Nat.sub_diag, skipn_all. cbn [skipn].
    rewrite app_nil_r. cbn [app]. now rewrite <- !app_assoc.
  - rewrite !app_length, Lf. lia.
Qed.

Lemma insert1 : forall s i u, (i <= length s)%nat ->
  str_insert s i u = (firstn i s ++ [u] ++ skipn i s, Ok tt).
Proof. intros. now apply str_insert_ok. Qed.

Ltac ins_next H := cbn [then_];
  match goal with
  | |- context [str_insert (firstn ?i ?s ++ ?d ++ skipn ?i ?s) (?i + ?n) ?u] =>
    change (i + n)%nat with (i + length d)%nat; rewrite (str_insert_next s i d u H)
  end.

Lemma valid_iff : forall c, is_code_point_valid c = true <->
  c <= 0x10FFFF /\ ~ (0xD800 <= c mod 0x10000 <= 0xDFFF).
Proof.
  intro c. unfold is_code_point_valid, is_surrogate, to_char16, maximum_code_point,
    leading_surrogate_minimum_value, trailing_surrogate_maximum_value.
  rewrite andb_true_iff, negb_true_iff, andb_false_iff. lia.
Qed.

Lemma sh : forall a n, N.shiftr a n = a / 2 ^ n.
Proof. intros. apply N.shiftr_div_pow2. Qed.
Lemma lor_hi : forall a h n m, h = m * 2 ^ n -> a < 2 ^ n -> N.lor a h = h + a.
Proof. intros. rewrite (lor_add a h m n) by assumption. lia. Qed.

Lemma insert8_valid : forall s c i, (i <= length s)%nat -> is_code_point_valid c = true ->
  insert_code_point K8 s c i = (firstn i s ++ utf8_of c ++ skipn i s, Ok tt).
Proof.
  intros s c i Hi Hv. cbn [insert_code_point]. rewrite Hv. cbn [negb].
  apply valid_iff in Hv as [Hm _]. unfold utf8_of, fits_in_7_bits.
  rewrite !sh. rewrite !(land_ones_mod _ 63 6) by reflexivity.
  change (2 ^ 6) with 64. change (2 ^ 12) with 4096. change (2 ^ 18) with 262144.
  destruct (c <=? 127) eqn:E1.
  { rewrite (ltb_t c 128) by lia. rewrite insert1 by assumption.
    unfold to_char8. now rewrite N.mod_small by lia. }
  rewrite (ltb_f c 128) by lia.
  assert (T : forall x, x < 64 -> to_char8 (N.lor x 128) = 128 + x).
  { intros x Hx. rewrite (lor_hi x 128 7 1) by (try reflexivity; change (2 ^ 7) with 128; lia).
    unfold to_char8. rewrite N.mod_small; lia. }
  rewrite !T by lia.
  destruct (c <=? 0x7FF) eqn:E2.
  { rewrite (ltb_t c 0x800) by lia.
    rewrite (lor_hi (c / 64) 192 6 3) by (try reflexivity; change (2 ^ 6) with 64; lia).
    unfold to_char8. rewrite N.mod_small by lia.
    rewrite insert1 by assumption. ins_next Hi. reflexivity. }
  rewrite (ltb_f c 0x800) by lia.
  destruct (c <=? 0xFFFF) eqn:E3.
  { rewrite (ltb_t c 0x10000) by lia.
    rewrite (lor_hi (c / 4096) 224 5 7) by (try reflexivity; change (2 ^ 5) with 32; lia).
    unfold to_char8. rewrite N.mod_small by lia.
    rewrite insert1 by assumption. ins_next Hi. ins_next Hi. reflexivity. }
  rewrite (ltb_f c 0x10000) by lia.
  rewrite (lor_hi (c / 262144) 240 4 15) by (try reflexivity; change (2 ^ 4) with 16; lia).
  unfold to_char8. rewrite N.mod_small by lia.
  rewrite insert1 by assumption. ins_next Hi. ins_next Hi. ins_next Hi. reflexivity.
Qed.

Lemma insert8_invalid : forall s c i, is_code_point_valid c = false ->
  insert_code_point K8 s c i = (s, Throw InvalidCodePoint).
Proof. intros s c i H. cbn [insert_code_point]. now rewrite H. Qed.

Lemma low_land : forall m x n h, m = N.ones h - N.ones n -> (n <= h) -> x < 2 ^ h ->
  N.shiftr (N.land m x) n = x / 2 ^ n.
Proof.
  intros m x n h Hm Hn Hx. subst m.
  apply N.bits_inj; intro b. rewrite N.shiftr_spec', N.land_spec.
  rewrite <- N.shiftr_div_pow2, N.shiftr_spec'.
  destruct (N.testbit x (b + n)) eqn:E; [|apply andb_false_r].
  rewrite andb_true_r.
  assert (b + n < h).
  { destruct (N.lt_ge_cases (b + n) h); auto.
    destruct (N.eq_dec x 0) as [->|Hx0]; [now rewrite N.bits_0 in E|].
    rewrite N.bits_above_log2 in E; [discriminate|].
    apply N.log2_lt_pow2 in Hx; lia. }
  replace (N.ones h - N.ones n) with (N.ldiff (N.ones h) (N.ones n)).
  - rewrite N.ldiff_spec, N.ones_spec_low, N.ones_spec_high by lia. reflexivity.
  - rewrite <- N.sub_nocarry_ldiff; [reflexivity|].
    apply N.bits_inj; intro q. rewrite N.ldiff_spec, N.bits_0.
    destruct (N.lt_ge_cases q n).
    + rewrite !N.ones_spec_low by lia. reflexivity.
    + rewrite (N.ones_spec_high n) by lia. reflexivity.
Qed.

Lemma insert16_scalar : forall k s c i, k = K16 \/ k = KW2 -> (i <= length s)%nat -> scalar c ->
  insert_code_point k s c i = (firstn i s ++ utf16_of c ++ skipn i s, Ok tt).
Proof.
  intros k s c i Hk Hi [Hm Hs].
  assert (E : insert_code_point k s c i = insert_code_point K16 s c i)
    by (destruct Hk; subst; reflexivity).
  rewrite E; clear E Hk k. cbn [insert_code_point]. unfold utf16_of, maximum_bmp_code_point.
  destruct (c <? 0x10000) eqn:E1.
  - rewrite (proj2 (N.leb_le c 0xFFFF)) by lia.
    assert (is_surrogate c = false) as ->.
    { destruct (is_surrogate c) eqn:E; auto. apply surrogate_iff in E; lia. }
    cbn [negb andb]. unfold to_char16. rewrite N.mod_small by lia. now apply insert1.
  - assert ((c <=? 0xFFFF) = false) as -> by lia. rewrite andb_false_r.
    assert (to_char32 (c + 0x100000000 - 0x10000) = c - 0x10000) as ->.
    { unfold to_char32. lia. }
    rewrite (low_land 0xFFC00 (c - 0x10000) 10 20)
      by (try reflexivity; change (2 ^ 20) with 0x100000; lia).
    rewrite N.land_comm, (land_ones_mod _ 0x3FF 10) by reflexivity.
    change (2 ^ 10) with 1024.
    unfold to_char16, leading_surrogate_minimum_value, trailing_surrogate_minimum_value.
    rewrite !N.mod_small by lia.
    rewrite insert1 by assumption. ins_next Hi.
    rewrite (N.add_comm _ 0xD800), (N.add_comm _ 0xDC00). reflexivity.
Qed.

Lemma insert32 : forall k s c i, k = K32 \/ k = KW4 -> (i <= length s)%nat ->
  insert_code_point k s c i = (firstn i s ++ [c] ++ skipn i s, Ok tt).
Proof. intros k s c i [->| ->] H; now apply insert1. Qed.

(** What a kind's insertion can write correctly. *)
Definition insertable (k : ukind) (c : N) : Prop :=
  holds k c /\ (k = K8 -> ~ (0xD800 <= c mod 0x10000 <= 0xDFFF)).

Lemma insert_ok : forall k s c i, insertable k c -> (i <= length s)%nat ->
  insert_code_point k s c i
  = (firstn i s ++ encode1 (encoding_of k) c ++ skipn i s, Ok tt).
Proof.
  intros k s c i [H H8] Hi. destruct k as [[]| | | | |]; cbn [holds encoding_of encode1] in *.
  - cbn [insert_code_point]. unfold to_char8. rewrite N.mod_small by lia. now apply insert1.
  - cbn [insert_code_point]. unfold to_char8. rewrite N.mod_small by lia. now apply insert1.
  - apply insert8_valid; auto. apply valid_iff. split; [destruct H; lia|auto].
  - apply insert16_scalar; auto.
  - apply insert32; auto.
  - apply insert16_scalar; auto.
  - apply insert32; auto.
Qed.

Lemma insert_out_of_range : forall k s c i, (length s < i)%nat ->
  (k = K8 -> is_code_point_valid c = true) ->
  insert_code_point k s c i = (s, Throw OutOfRange).
Proof.
  intros k s c i H Hv.
  destruct k; cbn [insert_code_point]; try (now apply str_insert_bad).
  - rewrite Hv by reflexivity. cbn [negb].
    repeat match goal with |- context [if ?b then _ else _] => destruct b end;
      rewrite ?str_insert_bad by assumption; reflexivity.
  - destruct (_ && _); rewrite ?str_insert_bad by assumption; reflexivity.
  - destruct (_ && _); rewrite ?str_insert_bad by assumption; reflexivity.
Qed.

(** Whatever is inserted, the surroundings survive. *)
Lemma insert_preserves : forall k s c i s' r,
  insert_code_point k s c i = (s', r) ->
  (s' = s /\ ((r = Throw OutOfRange /\ (length s < i)%nat) \/
              (r = Throw InvalidCodePoint /\ k = K8 /\ is_code_point_valid c = false)))
  \/ (r = Ok tt /\ (i <= length s)%nat /\
      exists us, us <> [] /\ s' = firstn i s ++ us ++ skipn i s).
Proof.
  intros k s c i s' r E.
  destruct (Nat.le_gt_cases i (length s)) as [Hi|Hi].
  2:{ destruct (is_code_point_valid c) eqn:V.
      - rewrite insert_out_of_range in E by auto. apply pair_equal_spec in E; destruct E as [<- <-]. left. auto.
      - destruct k; try (rewrite insert_out_of_range in E by (auto; discriminate);
                         apply pair_equal_spec in E; destruct E as [<- <-]; left; auto).
        rewrite insert8_invalid in E by assumption. apply pair_equal_spec in E; destruct E as [<- <-]. left; auto. }
  destruct k; cbn [insert_code_point] in E.
  - rewrite insert1 in E by assumption. apply pair_equal_spec in E; destruct E as [<- <-]. right. split; auto. split; auto.
    eexists; split; [|reflexivity]. discriminate.
  - destruct (is_code_point_valid c) eqn:V.
    + pose proof (insert8_valid s c i Hi V) as P. cbn [insert_code_point] in P. rewrite V in P.
      rewrite P in E. apply pair_equal_spec in E; destruct E as [<- <-]. right. split; auto. split; auto.
      eexists; split; [|reflexivity]. apply (encode1_nonempty UTF8).
    + cbn [negb] in E. apply pair_equal_spec in E; destruct E as [<- <-]. left; auto.
  - destruct (_ && _).
    + rewrite insert1 in E by assumption. apply pair_equal_spec in E; destruct E as [<- <-]. right. split; auto. split; auto.
      eexists; split; [|reflexivity]. discriminate.
    + cbv zeta in E. rewrite insert1 in E by assumption. cbn [then_] in E.
      change (i + 1)%nat with
        (i + length [to_char16 (N.shiftr (N.land 0xFFC00 (to_char32 (c + 0x100000000 - 0x10000))) 10
                           + leading_surrogate_minimum_value)])%nat in E.
      rewrite str_insert_next in E by assumption. apply pair_equal_spec in E; destruct E as [<- <-]. right.
      split; auto. split; auto. eexists; split; [|reflexivity]. discriminate.
  - rewrite insert1 in E by assumption. apply pair_equal_spec in E; destruct E as [<- <-]. right. split; auto. split; auto.
    eexists; split; [|reflexivity]. discriminate.
  - destruct (_ && _).
    + rewrite insert1 in E by assumption. apply pair_equal_spec in E; destruct E as [<- <-]. right. split; auto. split; auto.
      eexists; split; [|reflexivity]. discriminate.
    + cbv zeta in E. rewrite insert1 in E by assumption. cbn [then_] in E.
      change (i + 1)%nat with
        (i + length [to_char16 (N.shiftr (N.land 0xFFC00 (to_char32 (c + 0x100000000 - 0x10000))) 10
                           + leading_surrogate_minimum_value)])%nat in E.
      rewrite str_insert_next in E by assumption. apply pair_equal_spec in E; destruct E as [<- <-]. right.
      split; auto. split; auto. eexists; split; [|reflexivity]. discriminate.
  - rewrite insert1 in E by assumption. apply pair_equal_spec in E; destruct E as [<- <-]. right. split; auto. split; auto.
    eexists; split; [|reflexivity]. discriminate.
Qed.

Lemma append_ok : forall k s c, insertable k c ->
  append_code_point k s c = (s ++ encode1 (encoding_of k) c, Ok tt).
Proof.
  intros. unfold append_code_point. rewrite insert_ok by auto.
  now rewrite firstn_all, skipn_all, app_nil_r.
Qed.
Lemma prepend_ok : forall k s c, insertable k c ->
  prepend_code_point k s c = (encode1 (encoding_of k) c ++ s, Ok tt).
Proof.
  intros. unfold prepend_code_point. rewrite insert_ok by (auto; lia). reflexivity.
Qed.

(* ------------------------------------------------------------ conversion *)

(** Appending a list of code points one by one. *)
Fixpoint append_all (ko : ukind) (result : list N) (l : list N) : outcome (list N) :=
  match l with
  | [] => Ok result
  | c :: l' =>
    match append_code_point ko result c with
    | (result', Ok _) => append_all ko result' l'
    | (_, r) => bind r (fun _ => Diverge)
    end
  end.

Lemma convert_visit : forall fuel ko ki s i res,
  convert_from fuel ko ki s i res =
  let '(l, r) := visit_from fuel ki s i in
  bind (append_all ko res l) (fun t => bind r (fun _ => Ok t)).
Proof.
  induction fuel as [|fuel IH]; intros ko ki s i res; cbn [convert_from visit_from]; [reflexivity|].
  destruct (Nat.eqb i (length s)); [reflexivity|].
  destruct (deref ki s i) as [c| | | |]; cbn [bind]; try reflexivity.
  destruct (advance ki s i) as [i' [[]| | | |]].
  - specialize (IH ko ki s i').
    destruct (visit_from fuel ki s i') as [l r]. cbn [append_all].
    destruct (append_code_point ko res c) as [res' [[]| | | |]]; cbn [bind]; try reflexivity.
    apply IH.
  - cbn [append_all].
    destruct (append_code_point ko res c) as [res' [[]| | | |]]; reflexivity.
  - cbn [append_all].
    destruct (append_code_point ko res c) as [res' [[]| | | |]]; reflexivity.
  - cbn [append_all].
    destruct (append_code_point ko res c) as [res' [[]| | | |]]; reflexivity.
  - cbn [append_all].
    destruct (append_code_point ko res c) as [res' [[]| | | |]]; reflexivity.
Qed.

Lemma append_all_ok : forall ko l res, Forall (insertable ko) l ->
  append_all ko res l = Ok (res ++ units ko l).
Proof.
  intros ko l; induction l as [|c l IH]; intros res H; cbn [append_all].
  - cbn. now rewrite app_nil_r.
  - inversion H as [|? ? Hc Hl]; subst. rewrite append_ok by assumption.
    rewrite IH by assumption. rewrite <- app_assoc. reflexivity.
Qed.

Lemma convert_ok : forall ko ki l,
  Forall (holds ki) l -> Forall (single_unit ki) l -> Forall (insertable ko) l ->
  convert_string ko ki (units ki l) = Ok (units ko l).
Proof.
  intros ko ki l Hi Hs Ho. unfold convert_string. rewrite convert_visit.
  fold (visit ki (units ki l)). rewrite visit_ok by assumption.
  rewrite append_all_ok by assumption. reflexivity.
Qed.

(* ------------------------------------------------- starts_with, ends_with *)

Lemma post_inc_boundary : forall k pre c post,
  holds k c -> single_unit k c -> Forall (unit_range k) post ->
  post_inc k (pre ++ encode1 (encoding_of k) c ++ post) (length pre)
  = Ok (c, length (pre ++ encode1 (encoding_of k) c)).
Proof.
  intros k pre c post Hc Sc Hp.
  destruct (at_boundary k pre c post Hc Hp) as (D & A & _).
  unfold post_inc. rewrite (A Sc), D. reflexivity.
Qed.

Lemma unit_cons_ne : forall k (pre : list N) c l,
  Nat.eqb (length pre) (length (pre ++ units k (c :: l))) = false.
Proof.
  intros. rewrite len_mid0. pose proof (length_units_ge k (c :: l)) as P. cbn [length] in P.
  destruct (length (units k (c :: l))); [lia|reflexivity].
Qed.

Fixpoint is_prefix (t s : list N) : bool :=
  match t, s with
  | [], _ => true
  | _ :: _, [] => false
  | a :: t', b :: s' => (b =? a) && is_prefix t' s'
  end.
Lemma is_prefix_iff : forall t s, is_prefix t s = true <-> prefix_of t s.
Proof.
  induction t as [|a t IH]; intros [|b s]; cbn [is_prefix].
  - split; auto. intros _. now exists [].
  - split; auto. intros _. now exists (b :: s).
  - split; [discriminate|]. intros [x E]; discriminate.
  - rewrite andb_true_iff, N.eqb_eq, IH. split.
    + intros [-> [x ->]]. now exists x.
    + intros [x E]. injection E; intros; subst. split; auto. now exists x.
Qed.

Lemma starts_with_from_ok : forall k1 k2 l m pre1 pre2 fuel,
  Forall (holds k1) l -> Forall (single_unit k1) l ->
  Forall (holds k2) m -> Forall (single_unit k2) m -> (length l < fuel)%nat ->
  starts_with_from fuel k1 (pre1 ++ units k1 l) k2 (pre2 ++ units k2 m)
    (length pre1) (length pre2) = Ok (is_prefix m l).
Proof.
  intros k1 k2 l; induction l as [|c l IH]; intros m pre1 pre2 fuel H1 S1 H2 S2 Hf;
    (destruct fuel; [cbn in Hf; lia|]); cbn [starts_with_from].
  - destruct m as [|d m].
    + rewrite len_mid0. reflexivity.
    + rewrite unit_cons_ne, len_mid0. reflexivity.
  - destruct m as [|d m].
    + rewrite len_mid0. reflexivity.
    + rewrite !unit_cons_ne.
      inversion H1 as [|? ? Hc Hl]; inversion S1 as [|? ? Sc Sl];
      inversion H2 as [|? ? Hd Hm]; inversion S2 as [|? ? Sd Sm]; subst.
      change (units k1 (c :: l)) with (encode1 (encoding_of k1) c ++ units k1 l).
      change (units k2 (d :: m)) with (encode1 (encoding_of k2) d ++ units k2 m).
      rewrite !post_inc_boundary by (auto using units_range). cbn [bind].
      rewrite !app_assoc. rewrite IH by (auto; cbn in Hf; lia).
      cbn [is_prefix]. now destruct (c =? d).
Qed.

Lemma starts_with_ok : forall k1 k2 l m,
  Forall (holds k1) l -> Forall (single_unit k1) l ->
  Forall (holds k2) m -> Forall (single_unit k2) m ->
  starts_with k1 (units k1 l) k2 (units k2 m) = Ok (is_prefix m l).
Proof.
  intros. unfold starts_with.
  rewrite (starts_with_from_ok k1 k2 l m [] []) by
    (auto; pose proof (length_units_ge k1 l); lia). reflexivity.
Qed.

Lemma rpost_inc_boundary : forall k pre c post, holds k c -> Forall (unit_range k) post ->
  rpost_inc k (pre ++ encode1 (encoding_of k) c ++ post)
    (length (pre ++ encode1 (encoding_of k) c)) = Ok (c, length pre).
Proof.
  intros. unfold rpost_inc. rewrite retreat_boundary, rderef_boundary by assumption. reflexivity.
Qed.

Lemma units_snoc_ne : forall k c l, Nat.eqb (length (units k (l ++ [c]))) 0 = false.
Proof.
  intros. pose proof (length_units_ge k (l ++ [c])) as P. rewrite app_length in P. cbn in P.
  destruct (length (units k (l ++ [c]))); [lia|reflexivity].
Qed.

Lemma ends_with_from_ok : forall k1 k2 l m post1 post2 fuel,
  Forall (holds k1) l -> Forall (holds k2) m ->
  Forall (unit_range k1) post1 -> Forall (unit_range k2) post2 -> (length l < fuel)%nat ->
  ends_with_from fuel k1 (units k1 l ++ post1) k2 (units k2 m ++ post2)
    (length (units k1 l)) (length (units k2 m)) = Ok (is_prefix (rev m) (rev l)).
Proof.
  intros k1 k2 l; induction l as [|c l IH] using rev_ind; intros m post1 post2 fuel H1 H2 P1 P2 Hf;
    (destruct fuel; [rewrite ?app_length in Hf; cbn in Hf; lia|]); cbn [ends_with_from].
  - destruct m as [|d m _] using rev_ind.
    + reflexivity.
    + rewrite units_snoc_ne. cbn [length units encode flat_map Nat.eqb].
      rewrite rev_app_distr. reflexivity.
  - destruct m as [|d m _] using rev_ind.
    + reflexivity.
    + rewrite !units_snoc_ne.
      apply Forall_app in H1 as [Hl Hc]; apply Forall_app in H2 as [Hm Hd].
      inversion Hc as [|? ? Hc' _]; inversion Hd as [|? ? Hd' _]; subst.
      rewrite !units_app, !units_one, <- !app_assoc.
      rewrite !rpost_inc_boundary by assumption. cbn [bind].
      rewrite app_length in Hf; cbn in Hf.
      rewrite IH; auto; try lia;
        try (apply Forall_app; split; auto; now apply holds_range).
      rewrite !rev_app_distr. cbn [rev app is_prefix]. now destruct (c =? d).
Qed.

Lemma ends_with_ok : forall k1 k2 l m,
  Forall (holds k1) l -> Forall (holds k2) m ->
  ends_with k1 (units k1 l) k2 (units k2 m) = Ok (is_prefix (rev m) (rev l)).
Proof.
  intros k1 k2 l m H1 H2. unfold ends_with.
  pose proof (ends_with_from_ok k1 k2 l m [] [] (S (length (units k1 l)))) as P.
  rewrite !app_nil_r in P. rewrite P; auto.
  pose proof (length_units_ge k1 l). lia.
Qed.

Lemma rev_prefix_suffix : forall m l, is_prefix (rev m) (rev l) = true <-> suffix_of m l.
Proof.
  intros m l. rewrite is_prefix_iff. split.
  - intros [x E]. exists (rev x). apply (f_equal (@rev N)) in E.
    rewrite rev_involutive, rev_app_distr, rev_involutive in E. exact E.
  - intros [x ->]. exists (rev x). apply rev_app_distr.
Qed.

(* ------------------------------------------------------------- validation *)

Lemma validate_from_spec : forall k fuel pre rest,
  class_of k <> Multi16 -> Forall (unit_range k) rest -> (length rest < fuel)%nat ->
  exists s1 s2 l, rest = s1 ++ s2 /\ loose_text (encoding_of k) s1 l /\
    Forall (fun c => widen k c <= 0x10FFFF) l /\
    validate_from fuel k (pre ++ rest) (length pre) = Ok (length (pre ++ s1)) /\
    (s2 = [] \/ s2 <> [] /\ forall bs c post, s2 = bs ++ post ->
        loose (encoding_of k) bs c -> 0x10FFFF < widen k c).
Proof.
  intros k fuel; induction fuel as [|fuel IH]; intros pre rest Hk Hr Hf; [lia|].
  cbn [validate_from]. rewrite len_mid0.
  destruct rest as [|u rest].
  { exists [], [], []. rewrite (app_nil_r pre). split; [reflexivity|].
    split; [constructor|]. split; [constructor|]. split; [reflexivity|]. now left. }
  cbn [length Nat.eqb].
  destruct (step k pre (u :: rest) ltac:(discriminate) Hr)
    as [(bs & c & post & E & L & D & A & _)|(Hno & Hd)].
  - rewrite D. unfold maximum_code_point.
    destruct (0x10FFFF <? widen k c) eqn:Em.
    + exists [], (u :: rest), []. rewrite (app_nil_r pre).
      split; [reflexivity|]. split; [constructor|]. split; [constructor|].
      split; [reflexivity|]. right. split; [discriminate|].
      intros bs' c' post' E' L'. rewrite E' in E.
      destruct (loose_det _ _ _ _ _ _ _ L' L E) as [_ ->]. lia.
    + assert (Sc : single_unit k c) by (destruct k; cbn in *; auto; congruence).
      rewrite (A Sc). rewrite E in Hr |- *. rewrite app_assoc, <- app_length.
      apply Forall_app in Hr as [_ Hpost].
      destruct (IH (pre ++ bs) post Hk Hpost) as (s1 & s2 & l & E2 & L2 & F & V & T).
      { apply (f_equal (@length N)) in E. rewrite app_length in E. cbn in E, Hf.
        pose proof (loose_nonempty _ _ _ L). destruct bs; [congruence|]. cbn in E. lia. }
      rewrite V. exists (bs ++ s1), s2, (c :: l).
      split; [now rewrite <- app_assoc, <- E2|]. split; [now constructor|].
      split; [constructor; auto; lia|]. split; [now rewrite <- app_assoc|]. auto.
  - exists [], (u :: rest), []. rewrite (app_nil_r pre).
    split; [reflexivity|]. split; [constructor|]. split; [constructor|].
    destruct Hd as [[_ Hd]|[_ Hd]]; rewrite Hd; (split; [reflexivity|]); right;
      (split; [discriminate|]); intros bs c post E L; destruct (Hno _ _ _ E L).
Qed.

Lemma validate16_from : forall k fuel pre rest,
  class_of k = Multi16 -> Forall (unit_range k) rest -> (length rest < fuel)%nat ->
  exists i, validate_from fuel k (pre ++ rest) (length pre) = Ok i /\
    (length pre <= i <= length (pre ++ rest))%nat /\
    (i = length (pre ++ rest) <-> Forall (fun u => ~ surrogate u) rest).
Proof.
  intros k fuel; induction fuel as [|fuel IH]; intros pre rest Hk Hr Hf; [lia|].
  cbn [validate_from]. rewrite len_mid0.
  destruct rest as [|u rest].
  { exists (length pre). rewrite app_nil_r. repeat split; auto. }
  cbn [length Nat.eqb].
  assert (Hu : u < 0x10000).
  { inversion Hr; subst. destruct k; cbn in *; try discriminate; assumption. }
  assert (Ha : forall i, (i < length (pre ++ u :: rest))%nat -> surrogate u ->
            i = length (pre ++ u :: rest) <-> Forall (fun u => ~ surrogate u) (u :: rest)).
  { intros i Hi Hsu. split; [lia|]. intros F; inversion F; subst; tauto. }
  assert (Hlt : (length pre < length (pre ++ u :: rest))%nat) by (rewrite app_length; cbn; lia).
  destruct (step k pre (u :: rest) ltac:(discriminate) Hr)
    as [(bs & c & post & E & L & D & A & A')|(Hno & Hd)].
  - rewrite D.
    assert (Ee : encoding_of k = UTF16) by (destruct k; cbn in Hk; try discriminate; reflexivity).
    assert (Es : forall c, single_unit k c = bmp c) by (destruct k; cbn in Hk; try discriminate; reflexivity).
    assert (W : widen k c = c) by (destruct k; cbn in Hk; try discriminate; reflexivity).
    rewrite W. rewrite Ee in L; cbn [loose] in L. rewrite Es in A, A'. unfold bmp in A, A'.
    unfold maximum_code_point.
    apply loose16_inv in L.
    destruct L as [(x & -> & -> & Hx & Hx')|(x & x0 & -> & Hx & Hx0 & ->)].
    + assert ((0x10FFFF <? x) = false) as -> by lia.
      cbn [app] in E; cons_eqs; subst.
      rewrite (A ltac:(lia)). cbn [length]. change (x :: post) with ([x] ++ post).
      rewrite app_assoc. replace (length pre + 1)%nat with (length (pre ++ [x])) by (rewrite app_length; cbn; lia).
      inversion Hr; subst.
      destruct (IH (pre ++ [x]) post Hk) as (i & V & B & C); auto.
      { cbn in Hf; lia. }
      exists i. split; auto. split.
      { rewrite !app_length in *. cbn in *. lia. }
      rewrite C. split; [intro; constructor; auto|intro F; inversion F; auto].
    + match goal with |- context [0x10FFFF <? ?v] => assert ((0x10FFFF <? v) = false) as -> by lia end.
      cbn [app] in E; cons_eqs; subst.
      rewrite (A' ltac:(lia)).
      (* the iterator now stands on the trailing surrogate *)
      replace (length pre + 1)%nat with (length (pre ++ [x])) by (rewrite app_length; cbn; lia).
      change (x :: x0 :: post) with ([x] ++ x0 :: post). rewrite app_assoc.
      destruct fuel as [|fuel']; [cbn in Hf; lia|].
      cbn [validate_from]. rewrite len_mid0; cbn [length Nat.eqb].
      unfold deref. rewrite len_mid0, Hk. cbn [length Nat.eqb].
      unfold ref_decode16. rewrite nth_mid0. cbn [nth_error]. rewrite init16_trail by lia.
      cbn [bind]. exists (length (pre ++ [x])). split; auto.
      rewrite <- app_assoc. cbn [app]. split; [rewrite !app_length; cbn; lia|].
      apply Ha; [rewrite !app_length; cbn; lia|unfold surrogate; lia].
  - assert (Hsu : surrogate u).
    { destruct (N.le_gt_cases 0xD800 u); [|exfalso].
      - destruct (N.le_gt_cases u 0xDFFF); [split; auto|exfalso].
        apply (Hno [u] u rest eq_refl).
        destruct k; cbn in *; try discriminate; constructor; lia.
      - apply (Hno [u] u rest eq_refl).
        destruct k; cbn in *; try discriminate; constructor; lia. }
    exists (length pre).
    destruct Hd as [[_ Hd]|[_ Hd]]; rewrite Hd; (split; [reflexivity|]);
      (split; [lia|]); apply Ha; auto.
Qed.
