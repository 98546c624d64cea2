(** Lemmas for C140: numbers in strings of different types. *)
From Coq Require Import NArith ZArith List Bool Lia.
From Coq Require Import ZifyBool ZifyNat ZifyN.
From Verif Require Import Base Integers NumeralSpec FloatSpec UnicodeSpec UnicodeModel UnicodeText
  UnicodeLemmas UnicodeLemmas2 UnicodeLemmas4 NumberModel NumberText NumberLemmas NumberLemmas2 NumberLemmas4 NumberLemmas5 NumberLemmas6
  FloatModel FloatLemmas FloatLemmas2 FloatLemmas3 FloatLemmas4 AcceptSpec AcceptLemmas.
Import ListNotations.
Open Scope N_scope.

Lemma calm : forall t y, standard t -> (0 <= y)%Z -> (32 < width t -> in_range t y)%Z -> (0 <= convert (with_unsigned t) (convert t y))%Z.
Proof.
  intros t y Ht Hy R. unfold with_unsigned. destruct (Z.leb_spec (width t) 32) as [W|W].
  - pose proof (convert_range U32 (convert t y) ltac:(unfold standard; cbn; lia)) as X. unfold in_range, min_of in X. cbn [is_signed U32] in X. lia.
  - specialize (R W). rewrite (convert_id t y Ht R), (convert_id t y Ht R). exact Hy.
Qed.

Lemma loop_same : forall fuel k k' cs cs' t r sep input counted out, standard t -> 2 <= r <= 36 ->
  (0 <= convert (with_unsigned t) input)%Z ->
  format_loop fuel k cs t r sep input counted out = format_loop fuel k' cs' t r sep input counted out.
Proof.
  intro fuel. induction fuel as [|fuel IH]; intros k k' cs cs' t r sep input counted out Ht Hr Hi; [reflexivity|].
  cbn [format_loop]. destruct (input =? 0)%Z; [reflexivity|]. set (u := with_unsigned t) in *.
  pose proof (standard_u t Ht) as Hu. fold u in Hu.
  assert (Rr : in_range u (Z.of_N r)) by (apply small_range; [assumption|lia]). rewrite (convert_id u (Z.of_N r) Hu Rr).
  pose proof (convert_range u input Hu) as Ri. set (a := convert u input) in *.
  unfold remainder, divide. replace (Z.of_N r =? 0)%Z with false by lia.
  rewrite Z.rem_mod_nonneg, Z.quot_div_nonneg by lia.
  assert (Rm : (0 <= a mod Z.of_N r < Z.of_N r)%Z) by (apply Z.mod_pos_bound; lia).
  assert (Rq : (0 <= a / Z.of_N r <= a)%Z).
  { split; [apply Z.div_pos; lia|]. apply Z.div_le_upper_bound; [lia|]. clear - Hi Hr. nia. }
  assert (Mu : (min_of u <= 0)%Z) by (unfold min_of; destruct (is_signed u); [|lia]; assert (0 <= 2 ^ (width u - 1))%Z by (apply Z.pow_nonneg; lia); lia).
  rewrite !(arith_ok u) by (first [assumption|apply small_range; [assumption|lia]|unfold in_range in *; lia]).
  cbn [bind]. rewrite <- (Z2N.id (a mod Z.of_N r)) by lia. rewrite !digit_character_spec by lia.
  rewrite !prepend_ascii by (apply digit_char_ascii; lia). cbn [bind].
  assert (Next : (0 <= convert u (convert t (a / Z.of_N r)))%Z).
  { apply calm; [assumption|lia|]. intro W. assert (E : u = t) by (unfold u, with_unsigned; destruct (Z.leb_spec (width t) 32); [lia|reflexivity]).
    rewrite E in *. unfold in_range in *. lia. }
  assert (Sep : forall k0 o, prepend_separator k0 sep o = prepend_separator K32 sep o) by (intros; unfold prepend_separator; destruct sep; now rewrite ?prepend_ascii by lia).
  destruct (counted + 1 =? 3); [|now apply IH]. destruct (negb _); [|now apply IH]. rewrite (Sep k), (Sep k').
  destruct (prepend_separator K32 sep _); cbn [bind]; try reflexivity. now apply IH.
Qed.

Lemma format_same : forall fuel k k' cs cs' t x f, standard t -> in_range t x -> 2 <= radix f <= 36 ->
  format_integer_with fuel k cs t x f = format_integer_with fuel k' cs' t x f.
Proof.
  intros fuel k k' cs cs' t x f Ht Rx Hr. unfold format_integer_with. destruct (x =? 0)%Z.
  - change (append_to k [] 48 = append_to k' [] 48). now rewrite !append_ascii by lia.
  - set (c := if (x <? 0)%Z then Some 45 else match sign f with AlwaysShow => Some 43 | OnlyWhenNegative => None end).
    assert (Hc : match c with Some y => y < 128 | None => True end) by (unfold c; destruct (x <? 0)%Z; [lia|]; destruct (sign f); first [exact Logic.I|lia]).
    assert (P : forall y, (0 <= convert (with_unsigned t) y)%Z ->
      bind (format_loop fuel k cs t (radix f) (separator f) y 0 []) (fun out => match c with Some z => prepend_to k out z | None => Ok out end) =
      bind (format_loop fuel k' cs' t (radix f) (separator f) y 0 []) (fun out => match c with Some z => prepend_to k' out z | None => Ok out end)).
    { intros y Y. rewrite (loop_same fuel k k' cs cs' t (radix f) (separator f) y 0 [] Ht Hr Y).
      destruct (format_loop fuel k' cs' t (radix f) (separator f) y 0 []); cbn [bind]; try reflexivity. destruct c; [|reflexivity]. now rewrite !prepend_ascii. }
    destruct (is_signed t) eqn:Sg; cbn [bind].
    + unfold std_abs. destruct (arith (promote t) (Z.abs x)) as [y| | | |] eqn:A; cbn [bind]; try reflexivity. apply P.
      assert (SP : is_signed (promote t) = true) by (unfold promote; destruct (width t <? 32)%Z; [reflexivity|assumption]).
      unfold arith in A. rewrite SP in A. destruct ((min_of (promote t) <=? Z.abs x) && (Z.abs x <=? max_of (promote t)))%Z eqn:B; [|discriminate A].
      injection A as <-. apply calm; [assumption|lia|]. intro W. unfold promote in B. destruct (Z.ltb_spec (width t) 32); [lia|]. unfold in_range. lia.
    + apply P. assert (X : (0 <= x <= max_of t)%Z) by (unfold in_range, min_of in Rx; rewrite Sg in Rx; lia).
      rewrite convert_id; [lia|now apply standard_u|]. now apply nonneg_u.
Qed.

Lemma fraction_same : forall fuel k k' cs cs' t f x n done out, good t -> (2 <= radix (base f) <= 36)%N -> frac t x ->
  fraction_loop fuel k cs t f x (N.of_nat (n mod 3)) done out = fraction_loop fuel k' cs' t f x (N.of_nat (n mod 3)) done out.
Proof.
  intro fuel. induction fuel as [|fuel IH]; intros k k' cs cs' t f x n done out G Hr F; [reflexivity|].
  destruct (Z.eq_dec x 0) as [->|N0]; [reflexivity|]. destruct (limited f && (done =? places f)) eqn:L.
  - cbn [fraction_loop]. replace (x =? 0)%Z with false by lia. set (r := radix (base f)) in *.
    change (round_units (prec t) (x * Z.of_N r)) with (product t r x).
    assert (Hd : (next_digit t r x < r)%N) by (apply next_digit_lt; auto; lia).
    assert (W : whole t (product t r x) = Z.of_N (next_digit t r x)) by (apply next_digit_whole; auto; lia).
    assert (C : forall b, to_char t b (product t r x) = Ok (Z.of_N (next_digit t r x))).
    { intro b. unfold to_char. rewrite W. assert (X : in_range (char_type b) (Z.of_N (next_digit t r x))) by (apply small_range; [destruct b; vm_compute; tauto|lia]).
      unfold in_range in X. replace (_ && _) with true by lia. reflexivity. }
    rewrite !C. cbn [bind]. rewrite L. reflexivity.
  - rewrite !fraction_step by assumption. apply IH; [assumption|assumption|]. apply next_frac_ok; auto; lia.
Qed.

Lemma format_float_same : forall fuel k k' cs cs' t f n, good t -> rep (prec t) (Z.abs n) ->
  format_floating_point_with fuel k cs t (Fin n) f = format_floating_point_with fuel k' cs' t (Fin n) f.
Proof.
  intros fuel k k' cs cs' t f n G R. unfold format_floating_point_with, equivalent_format, new_integer_format.
  destruct ((radix (base f) <? 2) || (36 <? radix (base f))) eqn:B; [reflexivity|]. cbn [bind]. assert (Hr : 2 <= radix (base f) <= 36) by lia.
  unfold to_long_long. destruct ((min_of I64 <=? whole t n) && (whole t n <=? max_of I64))%Z eqn:I; [|reflexivity]. cbn [bind].
  replace (IntegerFormat (radix (base f)) (sign (base f)) (separator (base f))) with (base f) by (now destruct (base f)).
  assert (S64 : standard I64) by (vm_compute; tauto). assert (R64 : in_range I64 (whole t n)) by (clear - I; unfold in_range; lia).
  unfold format_integer. rewrite (format_same format_fuel k k' cs cs' I64 (whole t n) (base f) S64 R64 Hr).
  destruct (format_integer_with format_fuel k' cs' I64 (whole t n) (base f)) as [itext| | | |]; cbn [bind]; try reflexivity.
  replace (if (n <? 0)%Z then (- n)%Z else n) with (Z.abs n) by (destruct (Z.ltb_spec n 0); lia). rewrite sub_whole.
  assert (F : frac t (Z.abs n mod one t)) by now apply mod_frac.
  set (x := (Z.abs n mod one t)%Z) in *. rewrite (rep_round (prec t) x) by (unfold good in G; lia || apply F).
  destruct (x =? 0)%Z; [reflexivity|]. pose proof (fraction_same fuel k k' cs cs' t f x 0 0 [] G Hr F) as E. change (N.of_nat (0 mod 3)) with 0%N in E. rewrite E.
  destruct (fraction_loop fuel k' cs' t f x 0 0 []) as [[s done]| | | |]; cbn [bind]; try reflexivity.
  rewrite !append_zeros_ok, !append_ascii by apply point_ascii. destruct (limit f); cbn [bind]; rewrite ?append_ascii by apply point_ascii; reflexivity.
Qed.

Lemma visit_wide : forall fuel s i, visit_from fuel KW2 s i = visit_from fuel K16 s i.
Proof.
  intro fuel. induction fuel as [|fuel IH]; intros s i; cbn [visit_from]; [reflexivity|].
  change (deref KW2 s i) with (deref K16 s i). change (advance KW2 s i) with (advance K16 s i).
  destruct (Nat.eqb i (length s)); [reflexivity|]. destruct (deref K16 s i); try reflexivity. destruct (advance K16 s i) as [j [| | | |]]; try reflexivity. now rewrite IH.
Qed.

Lemma convert_16_pair : forall k a c b, Forall scalar (a ++ c :: b) -> Forall bmp a -> 0x10000 <= c -> k = K16 \/ k = KW2 ->
  convert_string K32 k (units k (a ++ c :: b)) = Throw InvalidUnicodeEncoding.
Proof.
  intros k a c b H B L K. assert (V : visit k (units k (a ++ c :: b)) = (a ++ [c], Throw InvalidUnicodeEncoding)).
  { destruct K as [->| ->]; [exact (visit16_first_pair a c b H B L)|]. unfold visit. rewrite visit_wide. exact (visit16_first_pair a c b H B L). }
  unfold convert_string. rewrite convert_visit. fold (visit k (units k (a ++ c :: b))). rewrite V. rewrite append_all_ok; [reflexivity|].
  apply Forall_forall. intros x I. split; [|discriminate]. rewrite Forall_forall in H. cbn [holds]. apply H. apply in_or_app. apply in_app_or in I.
  destruct I as [I|[<-|[]]]; [now left|right; now left].
Qed.
