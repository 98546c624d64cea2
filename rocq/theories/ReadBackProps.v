(** C27, C59: exactly what is read back in radix 2, 4, 8, 16 and 32, and of long fractions. *)
From Coq Require Import NArith ZArith List Bool Lia.
From Coq Require Import ZifyBool ZifyNat ZifyN.
From Verif Require Import Base Integers NumeralSpec FloatSpec UnicodeModel NumberModel NumberText
  FloatModel FloatText FloatLemmas FloatLemmas2 FloatLemmas4 FloatLemmas5 FloatProps FloatProps2 ReadBackLemmas.
Import ListNotations.
Open Scope Z_scope.

(* ---------------------------------------------------------------------- C27 *)

(** Every value that is not negative, in radix 2, 4, 8, 16 and 32: it is read back with what
    is below the last power of the radix that the type can hold left out.  That is the
    digits behind place (emax - 1) / b of radix 2^b. *)
Theorem C27_read_back : forall k k' cs t n f b, ieee t -> has_value t n -> 0 <= n -> integral_part_fits t n ->
  Z.of_N (radix (base f)) = 2 ^ b -> 1 <= b <= 5 ->
  separator (base f) = SepNone -> limit f = NoLimit ->
  bind (format_floating_point k cs t (Fin n) f) (fun s => parse_floating_point k' t s f)
  = Ok (Fin (n - n mod 2 ^ (scale t - b * ((emax t - 1) / b)))).
Proof. intros. apply read_back; auto using ieee_fine, has_value_in. Qed.
Print Assumptions C27_read_back.

(** So exactly the multiples of that power are read back as they were. *)
Theorem C27_power_of_two_exact : forall k k' cs t n f b, ieee t -> has_value t n -> 0 <= n -> integral_part_fits t n ->
  Z.of_N (radix (base f)) = 2 ^ b -> 1 <= b <= 5 ->
  separator (base f) = SepNone -> limit f = NoLimit ->
  (bind (format_floating_point k cs t (Fin n) f) (fun s => parse_floating_point k' t s f) = Ok (Fin n)
   <-> (2 ^ (scale t - b * ((emax t - 1) / b)) | n)).
Proof.
  intros k k' cs t n f b Ht Hv H0 Hfit Hb Hb1 Hs Hl. rewrite (C27_read_back k k' cs t n f b) by assumption.
  assert (P : 0 < 2 ^ (scale t - b * ((emax t - 1) / b))).
  { apply pow2_pos. pose proof (ieee_fine t Ht) as F. pose proof (Z.mul_div_le (emax t - 1) b ltac:(lia)). destruct F. unfold scale. lia. }
  rewrite <- Z.mod_divide by lia. set (x := n mod _). split; [intros E; assert (n - x = n) by congruence; lia|intros E; do 2 f_equal; lia].
Qed.
Print Assumptions C27_power_of_two_exact.

(** The smallest value above zero of every type is read back as zero. *)
Theorem C27_denormal_refuted : forall k k' cs t f b, ieee t -> Z.of_N (radix (base f)) = 2 ^ b -> 1 <= b <= 5 ->
  separator (base f) = SepNone -> limit f = NoLimit ->
  has_value t 1 /\ bind (format_floating_point k cs t (Fin 1) f) (fun s => parse_floating_point k' t s f) = Ok (Fin 0).
Proof.
  intros k k' cs t f b Ht Hb Hb1 Hs Hl.
  assert (V : has_value t 1) by (exists 1, 0; destruct Ht as [->|[->|[->| ->]]]; vm_compute; repeat split; congruence).
  assert (I : integral_part_fits t 1) by (unfold integral_part_fits; destruct Ht as [->|[->|[->| ->]]]; vm_compute; split; congruence).
  split; [exact V|]. rewrite (C27_read_back k k' cs t 1 f b) by (assumption || lia). do 2 f_equal.
  assert (2 ^ 1 <= 2 ^ (scale t - b * ((emax t - 1) / b))).
  { apply Z.pow_le_mono_r; [lia|]. pose proof (ieee_fine t Ht) as F. pose proof (Z.mul_div_le (emax t - 1) b ltac:(lia)). destruct F. unfold scale. lia. }
  rewrite Z.mod_small by lia. reflexivity.
Qed.
Print Assumptions C27_denormal_refuted.

(** 13 * 2^-129 has 129 places in radix 2 and is read back as 3 * 2^-127. *)
Example C27_read_back_example :
  let f := FloatFormat (IntegerFormat 2 OnlyWhenNegative SepNone) RadixPeriod NoLimit 0 in
  let n := 13 * 2 ^ (scale F32 - 129) in
  has_value F32 n /\ integral_part_fits F32 n /\ Z.of_N (radix (base f)) = 2 ^ 1 /\
  bind (format_floating_point K8 true F32 (Fin n) f) (fun s => parse_floating_point K8 F32 s f) = Ok (Fin (12 * 2 ^ (scale F32 - 129))) /\
  scale F32 - 1 * ((emax F32 - 1) / 1) = scale F32 - 127.
Proof.
  cbv zeta. split; [exists 13, (scale F32 - 129); vm_compute; repeat split; congruence|].
  split; [split; vm_compute; congruence|]. split; [reflexivity|]. split; [vm_compute; reflexivity|]. vm_compute. reflexivity.
Qed.

(* ---------------------------------------------------------------------- C59 *)

(** In these radixes digits that far behind the point are ignored, in every text, of either
    sign. *)
Theorem C59_late_digits : forall k t f b i itext ds es, ieee t -> Z.of_N (radix (base f)) = 2 ^ b -> 1 <= b <= 5 ->
  - 2 ^ 63 < i < 2 ^ 63 ->
  numeral (radix (base f)) (shows_plus (sign (base f))) (sep_char (separator (base f))) i itext ->
  sep_char (separator (base f)) <> Some (point_char (point f)) ->
  Forall (fun d => (d < radix (base f))%N) (ds ++ es) -> ds <> [] ->
  2 ^ emax t <= Z.of_N (radix (base f)) ^ (Z.of_nat (length ds) + 1) ->
  exists n, has_value t n /\
    parse_floating_point k t (itext ++ point_char (point f) :: map digit_char ds) f = Ok (Fin n) /\
    parse_floating_point k t (itext ++ point_char (point f) :: map digit_char (ds ++ es)) f = Ok (Fin n).
Proof.
  intros k t f b i itext ds es Ht Hb Hb1 Hi Hn Hs Hd Hne Hl.
  assert (Hr : (2 <= radix (base f) <= 36)%N).
  { assert (2 ^ 1 <= 2 ^ b) by (apply Z.pow_le_mono_r; lia). assert (2 ^ b <= 2 ^ 5) by (apply Z.pow_le_mono_r; lia).
    change (2 ^ 1) with 2 in *. change (2 ^ 5) with 32 in *. lia. }
  destruct (parse_near k t f i itext ds Ht Hr Hi Hn Hs (proj1 (proj1 (Forall_app _ _ _) Hd)) Hne) as (n & E & V & _).
  exists n. split; [exact V|]. split; [exact E|]. pose proof (ieee_fine t Ht) as F.
  apply (parse_late k k t f b itext i ds es n); auto using has_value_in; try lia.
  - change (min_of I64) with (- 2 ^ 63). change (max_of I64) with (2 ^ 63 - 1). lia.
  - rewrite (pow_2_pow _ b) in Hl by (assumption || lia). apply Z.pow_le_mono_r_iff in Hl; [exact Hl|lia|].
    apply Z.mul_nonneg_nonneg; lia.
Qed.
Print Assumptions C59_late_digits.

(** A float from a text in radix 32: 25 places count, the 26th does not. *)
Example C59_late_digits_example :
  let f := FloatFormat (IntegerFormat 32 OnlyWhenNegative SepNone) RadixPeriod NoLimit 0 in
  2 ^ emax F32 <= Z.of_N 32 ^ (Z.of_nat 25 + 1) /\ numeral 32 false None 0 [48]%N /\
  parse_floating_point K8 F32 (48 :: 46 :: map digit_char (repeat 0%N 24 ++ [16%N]))%N f = Ok (Fin (2 ^ (scale F32 - 121))) /\
  parse_floating_point K8 F32 (48 :: 46 :: map digit_char (repeat 0%N 24 ++ [16%N; 31%N; 31%N]))%N f = Ok (Fin (2 ^ (scale F32 - 121))).
Proof.
  cbv zeta. split; [vm_compute; discriminate|].
  split; [exists [0%N]; split; [|split; reflexivity]; split; [discriminate|]; split; [repeat constructor|reflexivity]|].
  split; vm_compute; reflexivity.
Qed.
