From Coq Require Import NArith ZArith List Bool Lia ZifyBool ZifyNat ZifyN.
From Verif Require Import Base UnicodeSpec UnicodeModel UnicodeText.
From Verif Require Import UnicodeLemmas UnicodeLemmas2 UnicodeLemmas3 UnicodeLemmas4 AnySpec AnyText.
Import ListNotations.
Open Scope N_scope.

Lemma trail8_is : forall u, is_trailing_byte u = trail8 u.
Proof. intro u. unfold trail8. destruct (is_trailing_byte u) eqn:E; [apply trailing_iff in E|apply trailing_false_iff in E]; lia. Qed.

Lemma lead16_is : forall u, u < 0x10000 -> is_leading_surrogate u = lead16 u.
Proof. intros u H. unfold is_leading_surrogate, lead16, to_char16, leading_surrogate_minimum_value, leading_surrogate_maximum_value. now rewrite N.mod_small. Qed.
Lemma trail16_is : forall u, u < 0x10000 -> is_trailing_surrogate u = trail16 u.
Proof. intros u H. unfold is_trailing_surrogate, trail16, to_char16, trailing_surrogate_minimum_value, trailing_surrogate_maximum_value. now rewrite N.mod_small. Qed.

Lemma lead8_is : forall u, initialize_utf8_sequence u = match lead8 u with Some (n, v) => Ok (S n, v) | None => Throw InvalidUnicodeEncoding end.
Proof.
  intro u. rewrite init8_eq. unfold init8_table, lead8. destruct (u <? 128); [reflexivity|]. destruct (u <? 192); [reflexivity|].
  destruct (u <? 224); [reflexivity|]. destruct (u <? 240); [reflexivity|]. now destruct (u <? 248).
Qed.

Lemma len_snoc : forall (pre : list N) u, length (pre ++ [u]) = (length pre + 1)%nat.
Proof. intros. rewrite app_length. reflexivity. Qed.

Lemma snoc_mid : forall (pre : list N) u r, pre ++ u :: r = (pre ++ [u]) ++ r.
Proof. intros. now rewrite <- app_assoc. Qed.

(** The units after the first one. *)
Lemma tail8_ref : forall n v pre u r,
  ref_finish8 n v (pre ++ u :: r) (length pre) =
  match tail8 n v r with Char c _ => Ok c | Beyond => Throw IteratedPastEnd | _ => Throw InvalidUnicodeEncoding end.
Proof.
  induction n as [|n IH]; intros v pre u r; cbn [ref_finish8]; [destruct r; reflexivity|].
  rewrite snoc_mid, <- (len_snoc pre u), len_mid0, nth_mid0. destruct r as [|w r]; cbn [length Nat.eqb nth_error tail8]; [reflexivity|].
  rewrite trail8_is. destruct (trail8 w) eqn:T; cbn [negb]; [|reflexivity]. rewrite push6 by (unfold trail8 in T; lia).
  apply IH.
Qed.

Lemma tail8_adv : forall n v pre u r,
  match tail8 n v r with
  | Char _ r' => exists p, pre ++ u :: r = p ++ r' /\ (length pre < length p)%nat /\ adv_finish8 n (pre ++ u :: r) (length pre) = (length p, Ok tt)
  | Beyond => exists i, adv_finish8 n (pre ++ u :: r) (length pre) = (i, UB OutOfBoundsRead)
  | NoChar => exists i, adv_finish8 n (pre ++ u :: r) (length pre) = (i, Throw InvalidUnicodeEncoding)
  | Nothing => False
  end.
Proof.
  induction n as [|n IH]; intros v pre u r; cbn [adv_finish8].
  - assert (E : ptr_inc (pre ++ u :: r) (length pre) = (length (pre ++ [u]), Ok tt)).
    { unfold ptr_inc. rewrite len_snoc, app_length. cbn [length]. destruct (Nat.ltb_spec (length pre) (length pre + S (length r))); [|lia]. f_equal. lia. }
    destruct r; cbn [tail8]; exists (pre ++ [u]); rewrite E, <- snoc_mid, len_snoc; repeat split; try reflexivity; lia.
  - rewrite len_mid0. cbn [length Nat.eqb]. rewrite <- (len_snoc pre u), snoc_mid, nth_mid0.
    destruct r as [|w r]; cbn [nth_error tail8]; [eexists; reflexivity|]. rewrite trail8_is. destruct (trail8 w); cbn [negb]; [|eexists; reflexivity].
    assert (E : ptr_inc ((pre ++ [u]) ++ w :: r) (length pre) = (length (pre ++ [u]), Ok tt)).
    { unfold ptr_inc. rewrite !app_length. cbn [length]. destruct (Nat.ltb_spec (length pre) (length pre + 1 + S (length r))); [|lia]. f_equal. lia. }
    rewrite E. cbn [then_]. specialize (IH (v * 64 + (w - 0x80)) (pre ++ [u]) w r).
    destruct (tail8 n (v * 64 + (w - 0x80)) r); try exact IH. destruct IH as (p & P1 & P2 & P3). exists p. rewrite P3, len_snoc in *. repeat split; [exact P1|lia].
Qed.

Lemma tail8_nothing : forall n v r, tail8 n v r <> Nothing.
Proof. induction n as [|n IH]; intros v r; destruct r; cbn [tail8]; try discriminate. destruct (trail8 n0); [apply IH|discriminate]. Qed.

Lemma post_inc_any : forall k pre r, Forall (unit_range k) r ->
  match front (form_of k) r with
  | Nothing => r = []
  | Char c r' => exists p, pre ++ r = p ++ r' /\ (length pre < length p)%nat /\ post_inc k (pre ++ r) (length pre) = Ok (c, length p)
  | NoChar => exists e, r <> [] /\ post_inc k (pre ++ r) (length pre) = Throw e
  | Beyond => r <> [] /\ post_inc k (pre ++ r) (length pre) = UB OutOfBoundsRead
  end.
Proof.
  intros k pre [|u r] H; [reflexivity|]. cbn [front]. unfold post_inc.
  assert (E : ptr_inc (pre ++ u :: r) (length pre) = (length (pre ++ [u]), Ok tt)).
  { unfold ptr_inc. rewrite len_snoc, app_length. cbn [length]. destruct (Nat.ltb_spec (length pre) (length pre + S (length r))); [|lia]. f_equal. lia. }
  assert (One : forall c, deref k (pre ++ u :: r) (length pre) = Ok c -> advance k (pre ++ u :: r) (length pre) = (length (pre ++ [u]), Ok tt) ->
    exists p, pre ++ u :: r = p ++ r /\ (length pre < length p)%nat /\
      match advance k (pre ++ u :: r) (length pre) with
      | (i', Ok _) => bind (deref k (pre ++ u :: r) (length pre)) (fun c => Ok (c, i'))
      | (_, x) => bind x (fun _ => Diverge) end = Ok (c, length p)).
  { intros c D A. exists (pre ++ [u]). rewrite A, D, <- snoc_mid, len_snoc. repeat split; try reflexivity. lia. }
  assert (Pl : class_of k = Plain -> deref k (pre ++ u :: r) (length pre) = Ok (widen k u) /\ advance k (pre ++ u :: r) (length pre) = (length (pre ++ [u]), Ok tt)).
  { intro C. unfold deref, advance. rewrite C, len_mid0, nth_mid0, E. split; reflexivity. }
  destruct (class_of k) eqn:C.
  - destruct (Pl eq_refl) as [D A]. specialize (One _ D A). destruct k as [[]| | | | |]; try discriminate C; cbn [form_of]; exact One.
  - destruct k as [[]| | | | |]; try discriminate C. cbn [form_of].
    unfold advance, advance8, deref, ref_decode8. cbn [class_of]. rewrite len_mid0, nth_mid0. cbn [length Nat.eqb nth_error]. rewrite lead8_is.
    destruct (lead8 u) as [[n v]|] eqn:L; [|exists InvalidUnicodeEncoding; split; [discriminate|reflexivity]].
    cbn [bind Nat.sub]. rewrite Nat.sub_0_r. pose proof (tail8_adv n v pre u r) as A. pose proof (tail8_ref n v pre u r) as D. rewrite D.
    destruct (tail8 n v r) as [|c r'| |]; [contradiction| | |].
    + destruct A as (p & P1 & P2 & P3). exists p. rewrite P3. repeat split; auto.
    + destruct A as [i A]. rewrite A. cbn [bind]. exists InvalidUnicodeEncoding. split; [discriminate|reflexivity].
    + destruct A as [i A]. rewrite A. cbn [bind]. split; [discriminate|reflexivity].
  - assert (F : form_of k = Form16 /\ unit_range k = fun u => u < 0x10000) by (destruct k as [[]| | | | |]; try discriminate C; split; reflexivity).
    destruct F as [F R]. rewrite F. rewrite R in H. inversion H as [|? ? Hu Hr]; subst. clear Pl.
    unfold advance, advance16, deref, ref_decode16 in *. rewrite C, len_mid0, nth_mid0 in *. cbn [length Nat.eqb nth_error] in *.
    unfold initialize_utf16_sequence in *. rewrite lead16_is, trail16_is in * by exact Hu.
    destruct (lead16 u) eqn:Lu.
    + unfold adv_finish16, ref_finish16 in *. cbn [bind Nat.eqb] in *. rewrite len_mid0 in *. cbn [length Nat.eqb] in *.
      rewrite <- (len_snoc pre u) in *. rewrite (snoc_mid pre u r) in One |- *. rewrite (nth_mid0 (pre ++ [u]) r), (len_mid0 (pre ++ [u]) r) in *.
      destruct r as [|w r]; cbn [nth_error length Nat.eqb] in *; [split; [discriminate|reflexivity]|].
      inversion Hr; subst. rewrite trail16_is in * by assumption. destruct (trail16 w) eqn:T; cbn [negb] in *.
      * rewrite <- (snoc_mid pre u) in *. rewrite E in *.
        refine (One (pair16 u w) _ eq_refl). f_equal. unfold pair16, leading_surrogate_minimum_value. rewrite N.shiftl_mul_pow2. reflexivity.
      * exists InvalidUnicodeEncoding. split; [discriminate|reflexivity].
    + destruct (trail16 u) eqn:T; [exists InvalidUnicodeEncoding; split; [discriminate|reflexivity]|].
      unfold adv_finish16, ref_finish16 in *. cbn [bind Nat.eqb] in *. rewrite E in *. exact (One u eq_refl eq_refl).
Qed.

Lemma starts_any : forall fuel k1 k2 s t pre1 pre2, Forall (unit_range k1) s -> Forall (unit_range k2) t -> (length s < fuel)%nat ->
  answers OutOfBoundsRead (front (form_of k1)) (front (form_of k2)) s t
    (noexcept (starts_with_from fuel k1 (pre1 ++ s) k2 (pre2 ++ t) (length pre1) (length pre2))).
Proof.
  induction fuel as [|fuel IH]; intros k1 k2 s t pre1 pre2 H1 H2 Hf; [lia|]. cbn [starts_with_from]. rewrite !len_mid0.
  pose proof (post_inc_any k1 pre1 s H1) as A. pose proof (post_inc_any k2 pre2 t H2) as B.
  destruct t as [|y t]; cbn [length Nat.eqb]; [now apply AllOfIt|].
  assert (NB : front (form_of k2) (y :: t) <> Nothing) by (intro X; rewrite X in B; discriminate).
  destruct s as [|x s]; cbn [length Nat.eqb]; [now apply TooShort|].
  destruct (front (form_of k1) (x :: s)) as [|c s'| |] eqn:F1; [discriminate| | |].
  - destruct A as (p & P1 & P2 & P3). rewrite P3. cbn [bind].
    destruct (front (form_of k2) (y :: t)) as [|d t'| |] eqn:F2; [discriminate| | |].
    + destruct B as (q & Q1 & Q2 & Q3). rewrite Q3. cbn [bind]. destruct (N.eqb_spec c d) as [<-|Ne]; [|eapply Other; eassumption].
      eapply Same; [eassumption|eassumption|]. rewrite P1, Q1.
      assert (X : exists a, x :: s = a ++ s').
      { apply app_eq_app in P1 as (l & [[-> X]|[-> X]]); [exfalso; rewrite app_length in P2; lia|eauto]. }
      assert (Y : exists b, y :: t = b ++ t').
      { apply app_eq_app in Q1 as (l & [[-> X']|[-> X']]); [exfalso; rewrite app_length in Q2; lia|eauto]. }
      destruct X as [a X], Y as [b Y]. rewrite X in H1. rewrite Y in H2. apply Forall_app in H1 as [_ H1], H2 as [_ H2].
      apply IH; [exact H1|exact H2|]. assert (L := f_equal (@length N) P1). rewrite !app_length in L. lia.
    + destruct B as (e & _ & B). rewrite B. cbn [bind noexcept]. eapply Bad2; eassumption.
    + destruct B as (_ & B). rewrite B. cbn [bind noexcept]. eapply Cut2; eassumption.
  - destruct A as (e & _ & A). rewrite A. cbn [bind noexcept]. now apply Bad1.
  - destruct A as (_ & A). rewrite A. cbn [bind noexcept]. now apply Cut1.
Qed.
