(** The digits of a fraction. *)
From Coq Require Import NArith ZArith List Bool Lia ZifyBool ZifyNat ZifyN.
From Verif Require Import Base Integers NumeralSpec FloatSpec UnicodeSpec UnicodeModel UnicodeText
  UnicodeLemmas2 NumberModel NumberText NumberLemmas FloatModel FloatLemmas.
Import ListNotations.
Open Scope Z_scope.

Definition good (t : float_type) : Prop := 0 < prec t <= scale t.

Lemma one_pos : forall t, good t -> 0 < one t.
Proof. intros t H. apply pow2_pos. unfold good in H. lia. Qed.

(** A fraction: a representable number of units below one. *)
Definition frac (t : float_type) (f : Z) : Prop := rep (prec t) f /\ 0 <= f < one t.

Definition product (t : float_type) (r : N) (f : Z) : Z := round_units (prec t) (f * Z.of_N r).
Definition next_digit (t : float_type) (r : N) (f : Z) : N := Z.to_N (product t r f / one t).
Definition next_frac (t : float_type) (r : N) (f : Z) : Z := product t r f mod one t.

Lemma product_range : forall t r f, good t -> (2 <= r)%N -> frac t f ->
  0 <= product t r f < Z.of_N r * one t.
Proof.
  intros t r f G Hr [R F]. unfold product, one in *. split.
  - apply round_nonneg. nia.
  - apply product_below; auto. lia.
Qed.

Lemma next_digit_lt : forall t r f, good t -> (2 <= r)%N -> frac t f -> (next_digit t r f < r)%N.
Proof.
  intros t r f G Hr F. pose proof (product_range t r f G Hr F). pose proof (one_pos t G).
  unfold next_digit. assert (product t r f / one t < Z.of_N r) by (apply Z.div_lt_upper_bound; lia).
  assert (0 <= product t r f / one t) by (apply Z.div_pos; lia). lia.
Qed.

Lemma next_digit_whole : forall t r f, good t -> (2 <= r)%N -> frac t f ->
  whole t (product t r f) = Z.of_N (next_digit t r f).
Proof.
  intros t r f G Hr F. pose proof (product_range t r f G Hr F). pose proof (one_pos t G).
  unfold next_digit, whole. assert (0 <= product t r f / one t) by (apply Z.div_pos; lia). lia.
Qed.

Lemma mod_frac : forall t n, good t -> rep (prec t) n -> frac t (n mod one t).
Proof.
  intros t n G R. split.
  - apply rep_mod; [unfold good in G; lia|assumption].
  - apply Z.mod_pos_bound. now apply one_pos.
Qed.

Lemma sub_whole : forall t n, n - whole t n * one t = n mod one t.
Proof.
  intros t n. unfold whole. rewrite Z.mul_comm.
  destruct (Z.eq_dec (one t) 0) as [E|E]; [rewrite E, Zmod_0_r; lia|].
  pose proof (Z.div_mod n (one t) E). lia.
Qed.

Lemma next_frac_ok : forall t r f, good t -> (2 <= r)%N -> frac t f -> frac t (next_frac t r f).
Proof.
  intros t r f G Hr [R F]. apply mod_frac; [assumption|]. apply round_rep; [unfold good in G; lia|]. nia.
Qed.

(** At most k digits, stopping when nothing is left. *)
Fixpoint expand (t : float_type) (r : N) (k : nat) (f : Z) : list N :=
  match k with
  | O => []
  | S k' => if f =? 0 then [] else next_digit t r f :: expand t r k' (next_frac t r f)
  end.

Fixpoint rest (t : float_type) (r : N) (k : nat) (f : Z) : Z :=
  match k with
  | O => f
  | S k' => if f =? 0 then 0 else rest t r k' (next_frac t r f)
  end.

Lemma expand_length : forall t r k f, (length (expand t r k f) <= k)%nat.
Proof.
  intros t r k. induction k as [|k IH]; intro f; cbn; [lia|].
  destruct (f =? 0); cbn; [lia|]. specialize (IH (next_frac t r f)). lia.
Qed.

Lemma expand_full : forall t r k f, rest t r k f <> 0 -> length (expand t r k f) = k.
Proof.
  intros t r k. induction k as [|k IH]; intros f H; cbn in *; [reflexivity|].
  destruct (f =? 0); [congruence|]. cbn. f_equal. now apply IH.
Qed.

Lemma expand_digits : forall t r k f, good t -> (2 <= r)%N -> frac t f ->
  Forall (fun d => (d < r)%N) (expand t r k f).
Proof.
  intros t r k. induction k as [|k IH]; intros f G Hr F; cbn; [constructor|].
  destruct (f =? 0); [constructor|]. constructor; [now apply next_digit_lt|].
  apply IH; auto. now apply next_frac_ok.
Qed.

(* ------------------------------------------------------------- termination *)

Lemma next_frac_div : forall t r f v, good t -> (2 <= r)%N -> frac t f -> N.even r = true ->
  0 <= v -> (2 ^ v | f) -> v < scale t -> (2 ^ (v + 1) | next_frac t r f).
Proof.
  intros t r f v G Hr [R F] Ev Hv [m D] L. unfold next_frac, product.
  assert (H : (2 ^ (v + 1) | round_units (prec t) (f * Z.of_N r))).
  { apply round_div; [nia|lia|].
    apply N.even_spec in Ev as [h Eh]. exists (m * Z.of_N h).
    rewrite Z.pow_add_r by lia. rewrite D, Eh, N2Z.inj_mul. change (Z.of_N 2) with 2. change (2 ^ 1) with 2. ring. }
  destruct H as [q Hq]. rewrite Hq. unfold one. rewrite (pow2_split (v + 1) (scale t)) by lia.
  rewrite (Z.mul_comm (2 ^ (v + 1))). rewrite Z.mul_mod_distr_r.
  - eexists. reflexivity.
  - pose proof (pow2_pos (scale t - (v + 1)) ltac:(lia)). lia.
  - pose proof (pow2_pos (v + 1) ltac:(lia)). lia.
Qed.

Lemma expand_ends : forall t r k f, good t -> (2 <= r)%N -> frac t f -> N.even r = true ->
  (2 ^ (scale t - Z.of_nat k) | f) -> Z.of_nat k <= scale t -> rest t r k f = 0.
Proof.
  intros t r k. induction k as [|k IH]; intros f G Hr F Ev D L.
  - cbn. destruct D as [m D]. destruct F as [_ F]. unfold one in F.
    change (Z.of_nat 0) with 0 in D. rewrite Z.sub_0_r in D.
    unfold good in G. pose proof (pow2_pos (scale t) ltac:(lia)).
    assert (m = 0) by nia. subst m. lia.
  - cbn [rest]. destruct (Z.eqb_spec f 0) as [|N0]; [reflexivity|].
    apply IH; auto; [now apply next_frac_ok| |lia].
    replace (scale t - Z.of_nat k) with (scale t - Z.of_nat (S k) + 1) by lia.
    apply next_frac_div; auto; lia.
Qed.

Lemma expand_ends_even : forall t r f, good t -> (2 <= r)%N -> frac t f -> N.even r = true ->
  rest t r (Z.to_nat (scale t)) f = 0.
Proof.
  intros t r f G Hr F Ev. unfold good in G. apply expand_ends; auto; try lia.
  replace (scale t - Z.of_nat (Z.to_nat (scale t))) with 0 by lia. exists f. change (2 ^ 0) with 1. lia.
Qed.

(** One half in an odd radix comes back after every digit. *)
Lemma half_returns : forall t r, good t -> (2 <= r <= 36)%N -> 7 <= prec t -> N.odd r = true ->
  next_frac t r (one t / 2) = one t / 2 /\ one t / 2 <> 0 /\ frac t (one t / 2).
Proof.
  intros t r G Hr Hp Odd.
  assert (E : one t = 2 * 2 ^ (scale t - 1)).
  { unfold one. unfold good in G. rewrite (pow2_split 1 (scale t)) by lia. reflexivity. }
  assert (P : 0 < 2 ^ (scale t - 1)) by (apply pow2_pos; unfold good in G; lia).
  assert (H2 : one t / 2 = 2 ^ (scale t - 1)) by (rewrite E; rewrite Z.mul_comm, Z.div_mul; lia).
  rewrite H2. apply N.odd_spec in Odd as [h Oh].
  split; [|split; [lia|]].
  - unfold next_frac, product. rewrite rep_round.
    + replace (2 ^ (scale t - 1) * Z.of_N r) with (2 ^ (scale t - 1) + Z.of_N h * one t) by (rewrite E; subst r; nia).
      rewrite Z.mod_add by lia. apply Z.mod_small. lia.
    + unfold good in G. lia.
    + exists (Z.of_N r), (scale t - 1). split; [ring|]. unfold good in G. split; [|lia].
      assert (2 ^ 7 <= 2 ^ prec t) by (apply Z.pow_le_mono_r; lia). change (2 ^ 7) with 128 in *. lia.
  - split; [|lia].
    exists 1, (scale t - 1). split; [lia|]. unfold good in G. split; [|lia].
    pose proof (pow2_pos (prec t) ltac:(lia)). lia.
Qed.

(* -------------------------------------------------------------- the value *)

Lemma value_cons_Z : forall r d ds,
  Z.of_N (value r (d :: ds)) = Z.of_N d * Z.of_N r ^ Z.of_nat (length ds) + Z.of_N (value r ds).
Proof.
  intros. rewrite value_cons. rewrite N2Z.inj_add, N2Z.inj_mul, N2Z.inj_pow. now rewrite nat_N_Z.
Qed.

(** Exact digits, as long as the products are exact. *)
Lemma expand_exact : forall t r (I : Z -> Prop) k f, good t -> (2 <= r)%N -> frac t f ->
  (forall g, I g -> frac t g -> product t r g = g * Z.of_N r /\ I (next_frac t r g)) -> I f ->
  Z.of_N (value r (expand t r k f)) * one t + rest t r k f
  = f * Z.of_N r ^ Z.of_nat (length (expand t r k f)).
Proof.
  intros t r I k. induction k as [|k IH]; intros f G Hr F HI If.
  - cbn. lia.
  - cbn [expand rest]. destruct (Z.eqb_spec f 0) as [->|N0]; [cbn; lia|].
    destruct (HI f If F) as [Ep In]. specialize (IH (next_frac t r f) G Hr (next_frac_ok t r f G Hr F) HI In).
    rewrite value_cons_Z. cbn [length]. set (ds := expand t r k (next_frac t r f)) in *.
    rewrite Nat2Z.inj_succ, Z.pow_succ_r by lia.
    assert (E : Z.of_N (next_digit t r f) * one t + next_frac t r f = f * Z.of_N r).
    { rewrite <- next_digit_whole by auto. unfold next_frac, whole.
      pose proof (Z.div_mod (product t r f) (one t) ltac:(pose proof (one_pos t G); lia)). lia. }
    nia.
Qed.

(** In general: the error bound. *)
Lemma expand_near : forall t r k f, good t -> (2 <= r)%N -> frac t f ->
  let e := 2 ^ (scale t - prec t) * 2 ^ Z.log2 (Z.of_N r) in
  let ds := expand t r k f in
  Z.abs (Z.of_N (value r ds) * one t + rest t r k f - f * Z.of_N r ^ Z.of_nat (length ds)) * (Z.of_N r - 1)
  <= e * (Z.of_N r ^ Z.of_nat (length ds) - 1).
Proof.
  intros t r k. induction k as [|k IH]; intros f G Hr F e ds.
  - unfold ds. cbn. lia.
  - unfold ds. cbn [expand rest]. destruct (Z.eqb_spec f 0) as [->|N0]; [cbn; lia|].
    specialize (IH (next_frac t r f) G Hr (next_frac_ok t r f G Hr F)). cbv zeta in IH.
    rewrite value_cons_Z. cbn [length]. clear ds. set (ds := expand t r k (next_frac t r f)) in *.
    rewrite Nat2Z.inj_succ, Z.pow_succ_r by lia.
    assert (E : Z.of_N (next_digit t r f) * one t + next_frac t r f = product t r f).
    { rewrite <- next_digit_whole by auto. unfold next_frac, whole.
      pose proof (Z.div_mod (product t r f) (one t) ltac:(pose proof (one_pos t G); lia)). lia. }
    assert (Er : Z.abs (product t r f - f * Z.of_N r) <= e).
    { unfold product, e. destruct F as [_ F]. unfold good in G. apply product_error; [lia|lia|]. unfold one in F. lia. }
    fold e in IH. set (R := Z.of_N r ^ Z.of_nat (length ds)) in *.
    assert (HR : 1 <= R) by (unfold R; pose proof (Z.pow_pos_nonneg (Z.of_N r) (Z.of_nat (length ds)) ltac:(lia) ltac:(lia)); lia).
    set (V := Z.of_N (value r ds)) in *. set (rst := rest t r k (next_frac t r f)) in *.
    set (d := Z.of_N (next_digit t r f)) in *. set (g := next_frac t r f) in *. set (P := product t r f) in *.
    replace ((d * R + V) * one t + rst - f * (Z.of_N r * R))
      with ((V * one t + rst - g * R) + (P - f * Z.of_N r) * R) by (rewrite <- E; ring).
    assert (He : 0 <= e) by lia.
    assert (A : Z.abs ((V * one t + rst - g * R) + (P - f * Z.of_N r) * R)
              <= Z.abs (V * one t + rst - g * R) + e * R).
    { pose proof (Z.abs_triangle (V * one t + rst - g * R) ((P - f * Z.of_N r) * R)) as T.
      rewrite (Z.abs_mul _ R), (Z.abs_eq R) in T by lia. nia. }
    nia.
Qed.
