(** Lemmas about the test module. *)
From Coq Require Import NArith ZArith List Bool Lia ZifyBool ZifyNat ZifyN.
From Verif Require Import Base Integers NumeralSpec NumberLemmas CompareModel CompareLemmas TestSpec TestModel.
Import ListNotations.
Open Scope N_scope.
Ltac Zify.zify_post_hook ::= idtac.

(* --------------------------------------------------------------- zero_pad *)

Lemma count_int : forall n, n < 2 ^ 31 ->
  exists ds, canonical 10 ds /\ value 10 ds = n /\ test_count_digits n = Ok (Z.of_nat (length ds)).
Proof.
  intros n H. unfold test_count_digits. change (2 ^ 31) with 2147483648 in H.
  assert (R : in_range I32 (Z.of_N n)) by (unfold in_range; change (min_of I32) with (-2147483648)%Z; change (max_of I32) with 2147483647%Z; lia).
  rewrite convert_id; [|vm_compute; tauto|assumption].
  destruct (count_digits_ok I32 (Z.of_N n) 10) as (ds & A & B & C); try assumption; try lia.
  - vm_compute; tauto.
  - unfold in_range; vm_compute; split; discriminate.
  - change (Z.to_N 10) with 10 in *. exists ds. split; [assumption|]. split; [rewrite B; lia|assumption].
Qed.

Lemma digits_small : forall ds n, canonical 10 ds -> value 10 ds = n -> n < 2 ^ 31 ->
  (1 <= length ds <= 10)%nat.
Proof.
  intros ds n (NE & F & H) V L. split; [destruct ds; [congruence|cbn; lia]|].
  destruct (le_lt_dec (length ds) 1) as [?|G]; [lia|].
  assert (Z : hd_error ds <> Some 0) by (intro Q; specialize (H Q); subst ds; cbn in G; lia).
  pose proof (canonical_length 10 ds ltac:(lia) F NE Z) as C. rewrite V in C.
  destruct (le_lt_dec (length ds) 10) as [?|G2]; [lia|exfalso].
  assert (10 ^ 10 <= 10 ^ (N.of_nat (length ds) - 1)) by (apply N.pow_le_mono_r; lia).
  assert (2 ^ 31 < 10 ^ 10) by reflexivity. lia.
Qed.

Lemma write_at_app : forall a x b c, write_at (a ++ x :: b) (length a) c = Ok (a ++ c :: b).
Proof.
  induction a as [|y a IH]; intros x b c; [reflexivity|]. cbn [app length write_at]. now rewrite IH.
Qed.

Lemma write_char_app : forall a x b c, write_char (a ++ x :: b) (N.of_nat (length a)) c = Ok (a ++ c :: b).
Proof.
  intros. unfold write_char. rewrite app_length. cbn [length].
  replace (N.of_nat (length a) <? N.of_nat (length a + S (length b))) with true by lia.
  rewrite Nat2N.id. apply write_at_app.
Qed.

Lemma write_char_past : forall s i c, N.of_nat (length s) <= i -> write_char s i c = UB OutOfBoundsWrite.
Proof. intros s i c H. unfold write_char. now replace (i <? N.of_nat (length s)) with false by lia. Qed.

Lemma zero_loop_ok : forall d fuel i k, (d < fuel)%nat -> N.of_nat (i + d) < 2 ^ 32 ->
  zero_loop fuel (repeat 48 i ++ repeat 0 (d + k)) (N.of_nat d) (N.of_nat i)
  = Ok (repeat 48 (i + d) ++ repeat 0 k).
Proof.
  induction d as [|d IH]; intros fuel i k F B; (destruct fuel as [|fuel]; [lia|]); cbn [zero_loop].
  - replace (N.of_nat 0 =? 0) with true by lia. now rewrite Nat.add_0_r.
  - replace (N.of_nat (S d) =? 0) with false by lia. cbn [Nat.add repeat].
    replace (N.of_nat i) with (N.of_nat (length (repeat 48 i))) at 1 by now rewrite repeat_length.
    rewrite write_char_app. cbn [bind].
    replace ((N.of_nat i + 1) mod 2 ^ 32) with (N.of_nat (S i)) by (rewrite N.mod_small; lia).
    replace (N.of_nat (S d) - 1) with (N.of_nat d) by lia.
    replace (repeat 48 i ++ 48 :: repeat 0 (d + k)) with (repeat 48 (S i) ++ repeat 0 (d + k)).
    + rewrite IH by lia. f_equal. f_equal. f_equal. lia.
    + replace (S i) with (i + 1)%nat by lia. rewrite repeat_app. cbn [repeat]. now rewrite <- app_assoc.
Qed.

Lemma zero_loop_past : forall k fuel i d, (k < fuel)%nat -> N.of_nat k < d -> N.of_nat (i + k) < 2 ^ 32 ->
  zero_loop fuel (repeat 48 i ++ repeat 0 k) d (N.of_nat i) = UB OutOfBoundsWrite.
Proof.
  induction k as [|k IH]; intros fuel i d F D B; (destruct fuel as [|fuel]; [lia|]); cbn [zero_loop];
  replace (d =? 0) with false by lia.
  - rewrite write_char_past; [reflexivity|]. rewrite app_nil_r, repeat_length. lia.
  - cbn [repeat]. replace (N.of_nat i) with (N.of_nat (length (repeat 48 i))) at 1 by now rewrite repeat_length.
    rewrite write_char_app. cbn [bind].
    replace ((N.of_nat i + 1) mod 2 ^ 32) with (N.of_nat (S i)) by (rewrite N.mod_small; lia).
    replace (repeat 48 i ++ 48 :: repeat 0 k) with (repeat 48 (S i) ++ repeat 0 k).
    + apply IH; lia.
    + replace (S i) with (i + 1)%nat by lia. rewrite repeat_app. cbn [repeat]. now rewrite <- app_assoc.
Qed.

(** The last digit and the others. *)
Lemma last_digit : forall ds n, canonical 10 ds -> value 10 ds = n ->
  (n / 10 = 0 /\ ds = [n mod 10]) \/
  (n / 10 <> 0 /\ exists ds', ds = ds' ++ [n mod 10] /\ canonical 10 ds' /\ value 10 ds' = n / 10).
Proof.
  intros ds n (NE & F & H) V. destruct (exists_last NE) as (ds' & d & ->).
  rewrite value_snoc in V. apply Forall_app in F. destruct F as [F1 F2]. inversion_clear F2 as [|? ? D _].
  assert (Q : n / 10 = value 10 ds') by (symmetry; apply (N.div_unique n 10 _ d); lia).
  assert (M : n mod 10 = d) by (symmetry; apply (N.mod_unique n 10 (value 10 ds')); lia).
  rewrite Q, M. destruct ds' as [|x l]; [left; auto|right].
  assert (X : x <> 0).
  { intro X. subst x. specialize (H eq_refl). destruct l; discriminate. }
  assert (C : canonical 10 (x :: l)).
  { split; [discriminate|]. split; [assumption|]. cbn. congruence. }
  split; [|exists (x :: l); auto].
  destruct (value_pos 10 (x :: l) C ltac:(lia)) as [L|P]; [|lia].
  destruct l; [|discriminate]. cbn. lia.
Qed.

Lemma digit_loop_ok : forall fuel ds n pre suf len k, canonical 10 ds -> value 10 ds = n ->
  (length ds <= fuel)%nat -> len = N.of_nat (length pre + length ds + length suf) -> len < 2 ^ 32 ->
  k = N.of_nat (length suf) + 1 ->
  digit_loop fuel (pre ++ repeat 0 (length ds) ++ suf) len k n = Ok (pre ++ map digit_char ds ++ suf).
Proof.
  induction fuel as [|fuel IH]; intros ds n pre suf len k C V F L B K.
  { destruct C as [NE _]. destruct ds; [congruence|cbn in F; lia]. }
  cbn [digit_loop].
  assert (D1 : (1 <= length ds)%nat) by (destruct C as [NE _]; destruct ds; [congruence|cbn; lia]).
  change (2 ^ 32) with 4294967296 in *.
  assert (P : Z.to_N (convert U32 (Z.of_N len - Z.of_N k)) = N.of_nat (length pre + (length ds - 1))).
  { rewrite convert_id; [lia|vm_compute; tauto|]. unfold in_range. change (min_of U32) with 0%Z.
    change (max_of U32) with 4294967295%Z. lia. }
  rewrite P. clear P.
  assert (S : pre ++ repeat 0 (length ds) ++ suf = (pre ++ repeat 0 (length ds - 1)) ++ 0 :: suf).
  { replace (length ds) with ((length ds - 1) + 1)%nat at 1 by lia. rewrite repeat_app. cbn [repeat].
    rewrite <- !app_assoc. reflexivity. }
  rewrite S.
  replace (N.of_nat (length pre + (length ds - 1))) with (N.of_nat (length (pre ++ repeat 0 (length ds - 1))))
    by (rewrite app_length, repeat_length; reflexivity).
  rewrite write_char_app. cbn [bind].
  assert (M10 : n mod 10 < 10) by (apply N.mod_lt; lia).
  assert (DC : n mod 10 + 48 = digit_char (n mod 10)).
  { unfold digit_char. replace (n mod 10 <? 10) with true by lia. lia. }
  destruct (last_digit ds n C V) as [[Q ->]|(Q & ds' & -> & C' & V')].
  - replace (n / 10 =? 0) with true by lia. cbn [length repeat map Nat.sub]. rewrite app_nil_r, DC. reflexivity.
  - replace (n / 10 =? 0) with false by lia. rewrite app_length in *. cbn [length] in *.
    replace (length ds' + 1 - 1)%nat with (length ds') by lia.
    rewrite <- app_assoc.
    assert (D2 : (1 <= length ds')%nat) by (destruct C' as [NE _]; destruct ds'; [congruence|cbn; lia]).
    replace ((k + 1) mod 4294967296) with (k + 1) by (rewrite N.mod_small; lia).
    rewrite (IH ds' (n / 10) pre (n mod 10 + 48 :: suf)); try assumption; try lia.
    + rewrite map_app, DC. cbn [map]. rewrite <- !app_assoc. reflexivity.
    + cbn [length]. lia.
    + cbn [length]. lia.
Qed.

Lemma zero_pad_ok : forall m n dn dt, n < 2 ^ 31 -> N.of_nat (length (tests m)) < 2 ^ 31 ->
  canonical 10 dn -> value 10 dn = n ->
  canonical 10 dt -> value 10 dt = N.of_nat (length (tests m)) ->
  zero_pad m n = if Nat.leb (length dn) (length dt)
                 then Ok (repeat 48 (length dt - length dn) ++ map digit_char dn)
                 else UB OutOfBoundsWrite.
Proof.
  intros m n dn dt Hn Ht Cn Vn Ct Vt. unfold zero_pad.
  destruct (count_int n Hn) as (dn' & Cn' & Vn' & ->).
  rewrite (canonical_unique 10 dn' dn) in * by (auto || lia || congruence). clear dn' Cn' Vn'.
  destruct (count_int _ Ht) as (dt' & Ct' & Vt' & ->).
  rewrite (canonical_unique 10 dt' dt) in * by (auto || lia || congruence). clear dt' Ct' Vt'.
  pose proof (digits_small dn _ Cn Vn Hn) as Ln. pose proof (digits_small dt _ Ct Vt Ht) as Lt.
  cbn [bind]. set (a := length dn) in *. set (b := length dt) in *.
  replace (Z.to_N (Z.of_nat b)) with (N.of_nat b) by lia. rewrite Nat2N.id.
  destruct (Nat.leb a b) eqn:E.
  - apply Nat.leb_le in E.
    rewrite convert_id; [|vm_compute; tauto|unfold in_range; change (min_of U32) with 0%Z; change (max_of U32) with 4294967295%Z; lia].
    replace (Z.to_N (Z.of_nat b - Z.of_nat a)) with (N.of_nat (b - a)) by lia.
    pose proof (zero_loop_ok (b - a) (b + 2) 0 a ltac:(lia)) as Z0. cbn [repeat app] in Z0.
    replace (b - a + a)%nat with b in Z0 by lia. change (N.of_nat 0) with 0 in Z0.
    change (2 ^ 32) with 4294967296 in *. rewrite Z0 by lia. cbn [bind Nat.add].
    pose proof (digit_loop_ok 11 dn n (repeat 48 (b - a)) [] (N.of_nat b) 1 Cn Vn) as D.
    rewrite !app_nil_r in D. apply D.
    + fold a. lia.
    + rewrite repeat_length. cbn [length]. fold a. lia.
    + change (2 ^ 32) with 4294967296. lia.
    + reflexivity.
  - apply Nat.leb_gt in E.
    assert (Q : Z.to_N (convert U32 (Z.of_nat b - Z.of_nat a)) = N.of_nat b + 4294967296 - N.of_nat a).
    { replace (convert U32 (Z.of_nat b - Z.of_nat a)) with (Z.of_nat b - Z.of_nat a + 4294967296)%Z; [lia|].
      unfold convert. cbn [is_signed andb width U32]. change (2 ^ 32)%Z with 4294967296%Z.
      apply (Z.mod_unique _ _ (-1)); lia. }
    rewrite Q. pose proof (zero_loop_past b (b + 2) 0 (N.of_nat b + 4294967296 - N.of_nat a)) as Z0.
    cbn [repeat app] in Z0. change (N.of_nat 0) with 0 in Z0. rewrite Z0; [reflexivity| | |]; try lia.
Qed.
