From Coq Require Import NArith ZArith List Bool Lia ZifyBool ZifyNat ZifyN.
From Verif Require Import Base UnicodeSpec UnicodeModel UnicodeText.
From Verif Require Import UnicodeLemmas UnicodeLemmas2 UnicodeLemmas3 UnicodeLemmas4 AnySpec AnyText AnyLemmas.
Import ListNotations.
Open Scope N_scope.

(** A place between characters: what comes next does not go on with what was before. *)
Definition fresh (k : ukind) (post : list N) : Prop :=
  match post with
  | [] => True
  | u :: _ => match class_of k with Plain => True | Multi8 => trail8 u = false | Multi16 => trail16 u = false end
  end.

Lemma tail8_more : forall tr n v post, fresh K8 post ->
  match tail8 n v tr with
  | Char c _ => exists r, tail8 n v (tr ++ post) = Char c r
  | _ => tail8 n v (tr ++ post) = Beyond \/ tail8 n v (tr ++ post) = NoChar
  end.
Proof.
  induction tr as [|w tr IH]; intros n v post F; destruct n; cbn [tail8 app].
  - destruct post; eexists; reflexivity.
  - destruct post as [|u post]; [now left|]. cbn in F. rewrite F. now right.
  - eexists; reflexivity.
  - destruct (trail8 w); [apply IH; exact F|now right].
Qed.

Lemma nth_rev : forall (r0 : list N) u q, nth_error (rev (u :: r0) ++ q) (length r0) = Some u.
Proof. intros. cbn [rev]. rewrite <- app_assoc. cbn [app]. rewrite <- (rev_length r0), nth_mid0. reflexivity. Qed.

Lemma back8_ok : forall r0 u tr post, fresh K8 post -> let s := rev (u :: r0) ++ tr ++ post in
  match back8 tr (u :: r0) with
  | Nothing => False
  | Beyond => exists j, retreat8_loop s u (length r0) = (j, UB PointerArithmetic)
  | NoChar => exists j e, retreat8_loop s u (length r0) = (j, Ok tt) /\ deref K8 s j = Throw e
  | Char c r' => retreat8_loop s u (length r0) = (length r', Ok tt) /\ deref K8 s (length r') = Ok c /\
      exists q, s = rev r' ++ q /\ fresh K8 q /\ (length r' <= length r0)%nat /\ exists a, u :: r0 = a ++ r'
  end.
Proof.
  induction r0 as [|w r0 IH]; intros u tr post F s; cbn [back8].
  - destruct (trail8 u) eqn:T.
    + cbn [length]. unfold retreat8_loop. rewrite trail8_is, T. eexists; reflexivity.
    + assert (L : retreat8_loop s u (length (@nil N)) = (0%nat, Ok tt)) by (cbn [length retreat8_loop]; now rewrite trail8_is, T).
      assert (D : deref K8 s 0 = match lead8 u with Some (n, v) => match tail8 n v (tr ++ post) with Char c _ => Ok c | Beyond => Throw IteratedPastEnd | _ => Throw InvalidUnicodeEncoding end | None => Throw InvalidUnicodeEncoding end).
      { unfold deref, s. cbn [rev app class_of length Nat.eqb]. unfold ref_decode8. cbn [nth_error]. rewrite lead8_is. destruct (lead8 u) as [[n v]|]; [|reflexivity].
        cbn [bind Nat.sub]. rewrite Nat.sub_0_r. exact (tail8_ref n v [] u (tr ++ post)). }
      rewrite L. destruct (lead8 u) as [[n v]|] eqn:E; [|exists 0%nat, InvalidUnicodeEncoding; auto].
      pose proof (tail8_more tr n v post F) as M. pose proof (tail8_nothing n v tr).
      destruct (tail8 n v tr) as [|c x| |]; [congruence| | |];
        try (destruct M as [M|M]; rewrite M in D; [exists 0%nat, IteratedPastEnd|exists 0%nat, InvalidUnicodeEncoding]; auto; fail).
      destruct M as [y M]. rewrite M in D. cbn [length]. split; [reflexivity|]. split; [exact D|]. exists (u :: tr ++ post). repeat split; [exact T|cbn; lia|]. exists [u]. reflexivity.
  - destruct (trail8 u) eqn:T.
    + assert (L : retreat8_loop s u (length (w :: r0)) = retreat8_loop s w (length r0)).
      { cbn [length retreat8_loop]. rewrite trail8_is, T. replace (nth_error s (length r0)) with (Some w); [reflexivity|].
        unfold s. cbn [rev]. rewrite <- !app_assoc. rewrite app_assoc. change (rev r0 ++ [w]) with (rev (w :: r0)). now rewrite nth_rev. }
      rewrite L. specialize (IH w (u :: tr) post F). cbv zeta in IH. cbn [back8] in IH.
      assert (S0 : rev (w :: r0) ++ (u :: tr) ++ post = s) by (unfold s; cbn [rev app]; rewrite <- !app_assoc; reflexivity).
      rewrite S0 in IH. cbn [length].
      match goal with |- match ?x with _ => _ end => destruct x eqn:Ex; try exact IH end.
      destruct IH as (I1 & I2 & q & I3 & I4 & I5 & a & I6). repeat split; [exact I1|exact I2|]. exists q. repeat split; [exact I3|exact I4|lia|].
      exists (u :: a). cbn [app]. now rewrite <- I6.
    + assert (L : retreat8_loop s u (length (w :: r0)) = (length (w :: r0), Ok tt)) by (cbn [length retreat8_loop]; now rewrite trail8_is, T).
      assert (D : deref K8 s (length (w :: r0)) = match lead8 u with Some (n, v) => match tail8 n v (tr ++ post) with Char c _ => Ok c | Beyond => Throw IteratedPastEnd | _ => Throw InvalidUnicodeEncoding end | None => Throw InvalidUnicodeEncoding end).
      { unfold deref, s. change (rev (u :: w :: r0)) with (rev (w :: r0) ++ [u]). rewrite <- (rev_length (w :: r0)). rewrite <- app_assoc. cbn [app].
        rewrite len_mid0. cbn [class_of length Nat.eqb]. unfold ref_decode8. rewrite nth_mid0. cbn [nth_error]. rewrite lead8_is. destruct (lead8 u) as [[n v]|]; [|reflexivity].
        cbn [bind Nat.sub]. rewrite Nat.sub_0_r. apply tail8_ref. }
      rewrite L. destruct (lead8 u) as [[n v]|] eqn:E; [|exists (length (w :: r0)), InvalidUnicodeEncoding; auto].
      pose proof (tail8_more tr n v post F) as M. pose proof (tail8_nothing n v tr).
      destruct (tail8 n v tr) as [|c x| |]; [congruence| | |];
        try (destruct M as [M|M]; rewrite M in D; [exists (length (w :: r0)), IteratedPastEnd|exists (length (w :: r0)), InvalidUnicodeEncoding]; auto; fail).
      destruct M as [y M]. rewrite M in D. split; [reflexivity|]. split; [exact D|]. exists (u :: tr ++ post). split; [|split; [exact T|split; [lia|exists [u]; reflexivity]]].
      unfold s. cbn [rev]. rewrite <- !app_assoc. reflexivity.
Qed.

Lemma deref16_at : forall k p u q, class_of k = Multi16 -> Forall (fun u => u < 0x10000) (u :: q) ->
  deref k (p ++ u :: q) (length p) =
  if lead16 u then match q with [] => Throw IteratedPastEnd | w :: _ => if trail16 w then Ok (pair16 u w) else Throw InvalidUnicodeEncoding end
  else if trail16 u then Throw InvalidUnicodeEncoding else Ok u.
Proof.
  intros k p u q C H. inversion H as [|? ? Hu Hq]; subst. unfold deref, ref_decode16. rewrite C, len_mid0, nth_mid0. cbn [length Nat.eqb nth_error].
  unfold initialize_utf16_sequence. rewrite lead16_is, trail16_is by exact Hu. destruct (lead16 u); [|destruct (trail16 u); reflexivity].
  cbn [bind]. unfold ref_finish16. cbn [Nat.eqb]. rewrite (snoc_mid p u q), <- (len_snoc p u), len_mid0, nth_mid0. destruct q as [|w q]; [reflexivity|].
  cbn [length Nat.eqb nth_error]. inversion Hq; subst. rewrite trail16_is by assumption. destruct (trail16 w); [|reflexivity].
  cbn [negb]. f_equal. unfold pair16, leading_surrogate_minimum_value. rewrite N.shiftl_mul_pow2. reflexivity.
Qed.

Lemma rpost_inc_any : forall k r post, Forall (unit_range k) (rev r ++ post) -> fresh k post -> let s := rev r ++ post in
  match back (form_of k) r with
  | Nothing => r = []
  | Char c r' => rpost_inc k s (length r) = Ok (c, length r') /\ (length r' < length r)%nat /\ exists q, s = rev r' ++ q /\ fresh k q /\ exists a, r = a ++ r'
  | NoChar => exists e, r <> [] /\ rpost_inc k s (length r) = Throw e
  | Beyond => r <> [] /\ rpost_inc k s (length r) = UB PointerArithmetic
  end.
Proof.
  intros k [|u r] post H F s; [reflexivity|]. cbn [back]. unfold rpost_inc, rderef.
  assert (S0 : s = rev r ++ u :: post) by (unfold s; cbn [rev]; rewrite <- app_assoc; reflexivity).
  assert (One : forall c r' q, retreat k s (length (u :: r)) = (length r', Ok tt) -> deref k s (length r') = Ok c -> (length r' < length (u :: r))%nat ->
    s = rev r' ++ q -> fresh k q -> (exists a, u :: r = a ++ r') ->
    match retreat k s (length (u :: r)) with
    | (i', Ok _) => bind (match retreat k s (length (u :: r)) with (j, Ok _) => deref k s j | (_, x) => bind (noexcept x) (fun _ => Diverge) end) (fun c => Ok (c, i'))
    | (_, x) => bind (noexcept x) (fun _ => Diverge) end = Ok (c, length r') /\
    (length r' < length (u :: r))%nat /\ exists q, s = rev r' ++ q /\ fresh k q /\ exists a, u :: r = a ++ r').
  { intros c r' q R D Lt Sq Fq A. rewrite R, D. repeat split; [exact Lt|]. exists q. auto. }
  assert (Bad : forall j e, retreat k s (length (u :: r)) = (j, Ok tt) -> deref k s j = Throw e ->
    exists e, u :: r <> [] /\ match retreat k s (length (u :: r)) with
    | (i', Ok _) => bind (match retreat k s (length (u :: r)) with (j, Ok _) => deref k s j | (_, x) => bind (noexcept x) (fun _ => Diverge) end) (fun c => Ok (c, i'))
    | (_, x) => bind (noexcept x) (fun _ => Diverge) end = Throw e).
  { intros j e R D. exists e. rewrite R, D. split; [discriminate|reflexivity]. }
  assert (Nu : nth_error s (length r) = Some u) by (rewrite S0, <- (rev_length r), nth_mid0; reflexivity).
  destruct (class_of k) eqn:C.
  - assert (D : deref k s (length r) = Ok (widen k u)).
    { unfold deref. rewrite C, Nu. rewrite S0, <- (rev_length r), len_mid0. reflexivity. }
    assert (R : retreat k s (length (u :: r)) = (length r, Ok tt)) by (unfold retreat; rewrite C; reflexivity).
    assert (Fq : fresh k (u :: post)) by (cbn [fresh]; rewrite C; exact I).
    specialize (One _ r (u :: post) R D ltac:(cbn [length]; lia) S0 Fq ltac:(exists [u]; reflexivity)).
    destruct k as [[]| | | | |]; try discriminate C; cbn [form_of]; exact One.
  - destruct k as [[]| | | | |]; try discriminate C. cbn [form_of].
    assert (R : retreat K8 s (length (u :: r)) = retreat8_loop s u (length r)).
    { unfold retreat, retreat8. cbn [class_of length ptr_dec then_]. rewrite Nu. destruct (is_standalone_byte u) eqn:St; [|reflexivity].
      unfold is_standalone_byte, fits_in_7_bits in St. assert (T : trail8 u = false) by (unfold trail8; lia).
      destruct (length r); cbn [retreat8_loop]; now rewrite trail8_is, T. }
    pose proof (back8_ok r u [] post F) as B. cbn [app] in B. cbv zeta in B. fold s in B.
    destruct (back8 [] (u :: r)) as [|c r'| |]; [contradiction| | |].
    + destruct B as (B1 & B2 & q & B3 & B4 & B5 & B6). eapply One; [rewrite R; exact B1|exact B2|cbn [length]; lia|exact B3|exact B4|exact B6].
    + destruct B as (j & e & B1 & B2). eapply Bad; [rewrite R; exact B1|exact B2].
    + destruct B as (j & B). rewrite R, B. split; [discriminate|reflexivity].
  - assert (FF : form_of k = Form16 /\ unit_range k = fun u => u < 0x10000) by (destruct k as [[]| | | | |]; try discriminate C; split; reflexivity).
    destruct FF as [FF Rg]. rewrite FF. rewrite Rg in H. fold s in H. rewrite S0 in H. apply Forall_app in H as [Hr Hp].
    assert (Hu : u < 0x10000) by now inversion Hp.
    assert (D := deref16_at k (rev r) u post C Hp). rewrite <- S0, rev_length in D.
    assert (R : retreat k s (length (u :: r)) = if trail16 u then ptr_dec (length r) else (length r, Ok tt)).
    { unfold retreat, retreat16. rewrite C. cbn [length ptr_dec then_]. rewrite Nu, trail16_is by exact Hu. reflexivity. }
    destruct (trail16 u) eqn:T.
    + destruct r as [|w r]; [cbn [length ptr_dec] in R |- *; rewrite R; split; [discriminate|reflexivity]|].
      cbn [length ptr_dec] in R. cbn [rev] in Hr. assert (S1 : s = rev r ++ w :: u :: post) by (rewrite S0; cbn [rev]; rewrite <- app_assoc; reflexivity).
      assert (Hw : Forall (fun u => u < 0x10000) (w :: u :: post)) by (apply Forall_app in Hr as [_ Hr]; inversion Hr; now constructor).
      assert (D1 := deref16_at k (rev r) w (u :: post) C Hw). rewrite <- S1, rev_length, T in D1.
      destruct (lead16 w) eqn:Lw; [|destruct (trail16 w) eqn:Tw].
      * apply (One (pair16 w u) r (w :: u :: post)); [exact R|exact D1|cbn [length]; lia|exact S1| |exists [u; w]; reflexivity].
        cbn [fresh]. rewrite C. unfold lead16 in Lw. unfold trail16. lia.
      * exact (Bad _ _ R D1).
      * apply (One w r (w :: u :: post)); [exact R|exact D1|cbn [length]; lia|exact S1| |exists [u; w]; reflexivity]. cbn [fresh]. now rewrite C.
    + destruct (lead16 u) eqn:Lu.
      * destruct post as [|x post]; [exact (Bad _ _ R D)|]. cbn [fresh] in F. rewrite C in F. rewrite F in D. exact (Bad _ _ R D).
      * apply (One u r (u :: post)); [exact R|exact D|cbn [length]; lia|exact S0| |exists [u]; reflexivity]. cbn [fresh]. now rewrite C.
Qed.

Lemma ends_any : forall fuel k1 k2 r1 r2 post1 post2, Forall (unit_range k1) (rev r1 ++ post1) -> Forall (unit_range k2) (rev r2 ++ post2) ->
  fresh k1 post1 -> fresh k2 post2 -> (length r1 < fuel)%nat ->
  answers PointerArithmetic (back (form_of k1)) (back (form_of k2)) r1 r2
    (noexcept (ends_with_from fuel k1 (rev r1 ++ post1) k2 (rev r2 ++ post2) (length r1) (length r2))).
Proof.
  induction fuel as [|fuel IH]; intros k1 k2 s t post1 post2 H1 H2 F1 F2 Hf; [lia|]. cbn [ends_with_from].
  pose proof (rpost_inc_any k1 s post1 H1 F1) as A. pose proof (rpost_inc_any k2 t post2 H2 F2) as B. cbv zeta in A, B.
  destruct t as [|y t]; cbn [length Nat.eqb]; [now apply AllOfIt|]. cbn [length] in A, B.
  assert (NB : back (form_of k2) (y :: t) <> Nothing) by (intro X; rewrite X in B; discriminate).
  destruct s as [|x s]; cbn [length Nat.eqb]; [now apply TooShort|]. cbn [length] in A, Hf.
  destruct (back (form_of k1) (x :: s)) as [|c s'| |] eqn:G1; [discriminate| | |].
  - destruct A as (P1 & P2 & p & P3 & P4 & P5). rewrite P1. cbn [bind].
    destruct (back (form_of k2) (y :: t)) as [|d t'| |] eqn:G2; [discriminate| | |].
    + destruct B as (Q1 & Q2 & q & Q3 & Q4 & Q5). rewrite Q1. cbn [bind]. destruct (N.eqb_spec c d) as [<-|Ne]; [|eapply Other; eassumption].
      eapply Same; [eassumption|eassumption|]. rewrite P3, Q3. rewrite P3 in H1. rewrite Q3 in H2. apply IH; auto. lia.
    + destruct B as (e & _ & B). rewrite B. cbn [bind noexcept]. eapply Bad2; eassumption.
    + destruct B as (_ & B). rewrite B. cbn [bind noexcept]. eapply Cut2; eassumption.
  - destruct A as (e & _ & A). rewrite A. cbn [bind noexcept]. now apply Bad1.
  - destruct A as (_ & A). rewrite A. cbn [bind noexcept]. now apply Cut1.
Qed.
