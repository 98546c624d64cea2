(** Lemmas about integer formatting and parsing. *)
From Coq Require Import NArith ZArith List Bool Lia ZifyBool ZifyNat ZifyN Znumtheory.
From Verif Require Import Base Integers NumeralSpec UnicodeSpec UnicodeModel UnicodeText
  UnicodeLemmas UnicodeLemmas2 NumberModel NumberText.
Import ListNotations.
Open Scope N_scope.
Ltac Zify.zify_post_hook ::= Z.div_mod_to_equations.

(* ------------------------------------------------------- integer types *)

(** Enumerate the eight types and compute their bounds. *)
Ltac std_cases t H :=
  destruct t as [w sg]; unfold standard in H; cbn [width] in H;
  destruct H as [H|[H|[H|H]]]; subst w; destruct sg.
Ltac bounds :=
  unfold in_range, min_of, max_of, convert, with_unsigned, with_int, promote, arith, I32, U32 in *;
  cbn [width is_signed andb] in *;
  change (8 <=? 32)%Z with true in *; change (16 <=? 32)%Z with true in *;
  change (32 <=? 32)%Z with true in *; change (64 <=? 32)%Z with false in *;
  change (8 <? 32)%Z with true in *; change (16 <? 32)%Z with true in *;
  change (32 <? 32)%Z with false in *; change (64 <? 32)%Z with false in *;
  cbn [width is_signed andb] in *;
  repeat match goal with
  | |- context [2 ^ ?a] => let v := eval vm_compute in (2 ^ a)%Z in change (2 ^ a)%Z with v
  | H : context [(2 ^ ?a)%Z] |- _ =>
      let v := eval vm_compute in (2 ^ a)%Z in change (2 ^ a)%Z with v in H
  end.

Lemma convert_id : forall t x, standard t -> in_range t x -> convert t x = x.
Proof.
  intros t x H R. std_cases t H; bounds; cbn [width is_signed andb] in *;
  try (rewrite Z.mod_small by lia; reflexivity);
  match goal with |- context [if ?b then _ else _] => destruct b eqn:E end; lia.
Qed.

Lemma convert_range : forall t x, standard t -> in_range t (convert t x).
Proof.
  intros t x H. std_cases t H; bounds; try lia;
  match goal with |- context [if ?b then _ else _] => destruct b eqn:E end; lia.
Qed.

Lemma convert_mod : forall t x, standard t ->
  (convert t x mod 2 ^ width t = x mod 2 ^ width t)%Z.
Proof.
  intros t x H. std_cases t H; bounds; try lia;
  match goal with |- context [if ?b then _ else _] => destruct b eqn:E end; lia.
Qed.

Lemma convert_eq : forall t x y, standard t -> (x mod 2 ^ width t = y mod 2 ^ width t)%Z ->
  convert t x = convert t y.
Proof. intros t x y _ E. unfold convert. now rewrite E. Qed.

Lemma standard_u : forall t, standard t -> standard (with_unsigned t).
Proof. intros t H. std_cases t H; vm_compute; tauto. Qed.
Lemma standard_p : forall t, standard t -> standard (promote t).
Proof. intros t H. std_cases t H; vm_compute; tauto. Qed.

(** Non-negative values of a type are unchanged by the usual conversions. *)
Lemma nonneg_u : forall t x, standard t -> (0 <= x <= max_of t)%Z ->
  in_range (with_unsigned t) x.
Proof. intros t x H R. std_cases t H; bounds; lia. Qed.
Lemma range_p : forall t x, standard t -> in_range t x -> in_range (promote t) x.
Proof. intros t x H R. std_cases t H; bounds; lia. Qed.

Lemma nonneg_t : forall t x, standard t -> (0 <= x <= max_of t)%Z -> in_range t x.
Proof. intros t x H R. std_cases t H; bounds; lia. Qed.

Lemma small_range : forall t x, standard t -> (0 <= x <= 36)%Z -> in_range t x.
Proof. intros t x H R. std_cases t H; bounds; lia. Qed.

Lemma arith_ok : forall t x, standard t -> in_range t x -> arith t x = Ok x.
Proof.
  intros t x H R. unfold arith. destruct (is_signed t) eqn:S.
  - unfold in_range in R. destruct ((min_of t <=? x) && (x <=? max_of t))%Z eqn:E; [reflexivity|lia].
  - now rewrite convert_id.
Qed.

Lemma max_lt_64 : forall t, standard t -> (max_of t < 2 ^ 64)%Z.
Proof. intros t H. std_cases t H; bounds; lia. Qed.
Lemma max_pos : forall t, standard t -> (127 <= max_of t)%Z.
Proof. intros t H. std_cases t H; bounds; lia. Qed.

(* ----------------------------------------------------------- digit lists *)

Lemma value_app : forall r a b,
  value r (a ++ b) = value r a * r ^ N.of_nat (length b) + value r b.
Proof.
  intros r a b. unfold value. rewrite fold_left_app. generalize (fold_left (fun a d => a * r + d) a 0).
  assert (G : forall b x, fold_left (fun a d => a * r + d) b x
     = x * r ^ N.of_nat (length b) + fold_left (fun a d => a * r + d) b 0).
  { clear. induction b as [|d b IH]; intro x; cbn [fold_left length].
    - change (N.of_nat 0) with 0. rewrite N.pow_0_r. lia.
    - rewrite (IH (x * r + d)), (IH (0 * r + d)).
      replace (N.of_nat (S (length b))) with (N.succ (N.of_nat (length b))) by lia.
      rewrite N.pow_succ_r'. nia. }
  intro n. apply G.
Qed.

Lemma value_snoc : forall r a d, value r (a ++ [d]) = value r a * r + d.
Proof. intros. unfold value. now rewrite fold_left_app. Qed.

Lemma value_cons : forall r d a, value r (d :: a) = d * r ^ N.of_nat (length a) + value r a.
Proof.
  intros. change (d :: a) with ([d] ++ a). rewrite value_app. unfold value at 1. cbn. lia.
Qed.

Lemma value_bound : forall r ds, 1 < r -> Forall (fun d => d < r) ds ->
  value r ds < r ^ N.of_nat (length ds).
Proof.
  intros r ds Hr H. induction H as [|d ds Hd H IH].
  - cbn. lia.
  - rewrite value_cons. cbn [length].
    replace (N.of_nat (S (length ds))) with (N.succ (N.of_nat (length ds))) by lia.
    rewrite N.pow_succ_r'. nia.
Qed.

(** Every number has a canonical digit list. *)
Lemma canonical_digits : forall r n, 1 < r -> 0 < n ->
  exists ds, ds <> [] /\ Forall (fun d => d < r) ds /\ value r ds = n /\ hd_error ds <> Some 0.
Proof.
  intros r n Hr. induction n as [n IH] using (well_founded_induction N.lt_wf_0). intro Hn.
  destruct (N.eq_dec (n / r) 0) as [E|E].
  - exists [n]. assert (n < r). { apply N.div_small_iff in E; lia. }
    repeat split; try discriminate; auto. cbn. intro X. injection X as ->. lia.
  - destruct (IH (n / r)) as (ds & H1 & H2 & H3 & H4).
    + apply N.div_lt; lia.
    + now apply N.neq_0_lt_0.
    + exists (ds ++ [n mod r]). repeat split.
      * destruct ds; discriminate.
      * apply Forall_app. split; [assumption|]. apply Forall_cons; [apply N.mod_lt; lia|apply Forall_nil].
      * rewrite value_snoc, H3. rewrite N.mul_comm. symmetry. apply N.div_mod. lia.
      * destruct ds; [congruence|]. exact H4.
Qed.

(** ... and only one. *)
Lemma canonical_length : forall r ds, 1 < r -> Forall (fun d => d < r) ds -> ds <> [] ->
  hd_error ds <> Some 0 -> r ^ N.of_nat (length ds - 1) <= value r ds.
Proof.
  intros r [|d ds] Hr H Hne Hz; [congruence|]. rewrite value_cons. cbn [length hd_error] in *.
  replace (S (length ds) - 1)%nat with (length ds) by lia.
  assert (d <> 0) by congruence. nia.
Qed.

Lemma snoc_inj : forall r a b x y, x < r -> y < r -> a * r + x = b * r + y ->
  x = y /\ a = b.
Proof.
  intros r a b x y Hx Hy E.
  assert (X : x = y).
  { apply (f_equal (fun z => z mod r)) in E. rewrite !(N.add_comm (_ * r)) in E.
    rewrite !N.mod_add in E by lia. now rewrite !N.mod_small in E. }
  split; [assumption|]. subst y. apply N.add_cancel_r in E.
  apply N.mul_cancel_r in E; [assumption|lia].
Qed.

Lemma digits_unique_snoc : forall r a b, 1 < r -> Forall (fun d => d < r) a ->
  Forall (fun d => d < r) b -> length a = length b -> value r a = value r b -> a = b.
Proof.
  intros r a. induction a as [|x a IH] using rev_ind; intros b Hr Ha Hb L V.
  - destruct b; [reflexivity|discriminate].
  - destruct b as [|y b _] using rev_ind; [destruct a; discriminate|].
    rewrite !value_snoc in V. rewrite !app_length in L. cbn in L.
    apply Forall_app in Ha as [Ha Hx]. apply Forall_app in Hb as [Hb Hy].
    inversion Hx; inversion Hy; subst.
    match goal with A : x < r, B : y < r |- _ => destruct (snoc_inj r _ _ _ _ A B V) end.
    f_equal; [apply IH; auto; lia|congruence].
Qed.

Lemma canonical_unique : forall r a b, 1 < r -> canonical r a -> canonical r b ->
  value r a = value r b -> a = b.
Proof.
  intros r a b Hr (Ha & Fa & Za) (Hb & Fb & Zb) V.
  assert (Z0 : forall ds, ds <> [] -> Forall (fun d => d < r) ds ->
     hd_error ds <> Some 0 -> value r ds <> 0).
  { intros ds H1 H2 H3. pose proof (canonical_length r ds Hr H2 H1 H3).
    assert (r ^ N.of_nat (length ds - 1) <> 0) by (apply N.pow_nonzero; lia). lia. }
  assert (D : forall ds, {hd_error ds = Some 0} + {hd_error ds <> Some 0}).
  { intros [|[|p] ds]; [right|left|right]; cbn; congruence. }
  destruct (D a) as [A|A]; destruct (D b) as [B|B].
  - rewrite (Za A), (Zb B). reflexivity.
  - rewrite (Za A) in V. exfalso. apply (Z0 b); auto.
  - rewrite (Zb B) in V. exfalso. apply (Z0 a); auto.
  - apply (digits_unique_snoc r); auto.
    pose proof (canonical_length r a Hr Fa Ha A). pose proof (canonical_length r b Hr Fb Hb B).
    pose proof (value_bound r a Hr Fa). pose proof (value_bound r b Hr Fb).
    assert (L : forall x y, (x < y)%nat -> x <> 0%nat -> r ^ N.of_nat x <= r ^ N.of_nat (y - 1)).
    { intros x y Hxy _. apply N.pow_le_mono_r; lia. }
    assert (length a <> 0%nat) by (destruct a; cbn; congruence).
    assert (length b <> 0%nat) by (destruct b; cbn; congruence).
    destruct (Nat.lt_trichotomy (length a) (length b)) as [Q|[Q|Q]]; [|assumption|].
    + specialize (L _ _ Q). lia.
    + specialize (L _ _ Q). lia.
Qed.

(* ------------------------------------------------------------- formatting *)

Lemma ascii_insertable : forall k c, c < 128 -> insertable k c.
Proof.
  intros k c H. split.
  - destruct k as [[]| | | | |]; cbn [holds]; unfold scalar; lia.
  - intros ->. rewrite N.mod_small; lia.
Qed.

Lemma ascii_encode : forall k c, c < 128 -> encode1 (encoding_of k) c = [c].
Proof.
  intros k c H. destruct k; cbn [encoding_of encode1]; unfold utf8_of, utf16_of, utf32_of;
    rewrite ?ltb_t by lia; reflexivity.
Qed.

Lemma prepend_ascii : forall k s c, c < 128 -> prepend_to k s c = Ok (c :: s).
Proof.
  intros k s c H. unfold prepend_to.
  rewrite prepend_ok by now apply ascii_insertable. now rewrite ascii_encode.
Qed.

Lemma ascii_units : forall k l, Forall (fun c => c < 128) l -> units k l = l.
Proof.
  intros k l H. induction H as [|c l Hc H IH]; [reflexivity|].
  change (units k (c :: l)) with (encode1 (encoding_of k) c ++ units k l).
  rewrite ascii_encode by assumption. cbn. now rewrite IH.
Qed.

Lemma digit_char_ascii : forall d, d < 36 -> digit_char d < 128.
Proof. intros d H. unfold digit_char. destruct (d <? 10); lia. Qed.

Lemma digit_character_spec : forall cs d, d < 36 ->
  char_to_char32 (digit_character cs (Z.of_N d)) = digit_char d.
Proof.
  intros cs d H. unfold digit_character, char_to_char32.
  assert (S : standard (char_type cs)) by (destruct cs; unfold standard; cbn; lia).
  assert (S' : standard U32) by (unfold standard; cbn; lia).
  rewrite (convert_id (char_type cs) (Z.of_N d) S) by (apply small_range; [assumption|lia]).
  unfold digit_char.
  destruct (d <? 10) eqn:E.
  - replace (Z.of_N d <=? 9)%Z with true by lia.
    rewrite (convert_id _ (Z.of_N d + 48) S), (convert_id _ _ S').
    + lia.
    + unfold in_range; cbn; lia.
    + destruct cs; unfold in_range; cbn; lia.
  - replace (Z.of_N d <=? 9)%Z with false by lia.
    rewrite (convert_id _ (Z.of_N d + (65 - 10)) S), (convert_id _ _ S').
    + lia.
    + unfold in_range; cbn; lia.
    + destruct cs; unfold in_range; cbn; lia.
Qed.

Lemma prepend_separator_spec : forall k s out,
  prepend_separator k s out
  = Ok (match sep_char s with Some c => [c] | None => [] end ++ out).
Proof.
  intros k [] out; cbn [prepend_separator sep_char app]; [reflexivity| |];
    apply prepend_ascii; lia.
Qed.

Lemma grouped_before_app : forall sep a b n,
  grouped_before sep (a ++ b) n = grouped_before sep a (length b + n) ++ grouped_before sep b n.
Proof.
  intros sep a b n. induction a as [|c a IH]; [reflexivity|].
  cbn [app grouped_before]. rewrite IH, app_length.
  replace (length a + length b + n)%nat with (length a + (length b + n))%nat by lia.
  now rewrite <- app_assoc.
Qed.

Lemma mod3 : forall m c, c = N.of_nat (m mod 3) ->
  (c + 1 =? 3) = (Nat.eqb (S m mod 3) 0).
Proof. intros m c ->. lia. Qed.

Lemma format_loop_ok : forall k cs t r sep front d fuel m c out,
  standard t -> 2 <= r <= 36 -> Forall (fun x => x < r) (front ++ [d]) ->
  hd_error (front ++ [d]) <> Some 0 ->
  (Z.of_N (value r (front ++ [d])) <= max_of t)%Z ->
  c = N.of_nat (m mod 3) -> (length front + 1 < fuel)%nat ->
  format_loop fuel k cs t r sep (Z.of_N (value r (front ++ [d]))) c out
  = Ok (grouped_before (sep_char sep) (map digit_char front) (m + 1) ++ digit_char d :: out).
Proof.
  intros k cs t r sep front. induction front as [|d2 f2 IH] using rev_ind;
    intros d fuel m c out Ht Hr Hf Hz Hv Hc Hfuel.
  all: destruct fuel as [|fuel]; [lia|].
  all: set (n := value r (_ ++ [d])) in *.
  all: assert (Hn : n <> 0).
  1,3: pose proof (canonical_length r _ ltac:(lia) Hf ltac:(now destruct f2 + discriminate) Hz) as L;
       fold n in L;
       match type of L with ?a <= _ => assert (a <> 0) by (apply N.pow_nonzero; lia) end; lia.
  all: pose proof (standard_u t Ht) as Hu.
  all: assert (Rn : in_range (with_unsigned t) (Z.of_N n)) by (apply nonneg_u; [assumption|lia]).
  all: assert (Rr : in_range (with_unsigned t) (Z.of_N r)) by (apply small_range; [assumption|lia]).
  all: assert (Hd : d < r) by (apply Forall_app in Hf as [_ Hf]; now inversion Hf).
  all: cbn [format_loop].
  all: replace (Z.of_N n =? 0)%Z with false by lia.
  all: rewrite !convert_id by assumption.
  all: unfold remainder, divide.
  all: replace (Z.of_N r =? 0)%Z with false by lia.
  all: rewrite Z.rem_mod_nonneg, Z.quot_div_nonneg by lia.
  all: assert (Em : (Z.of_N n mod Z.of_N r)%Z = Z.of_N d).
  1,3: (unfold n; rewrite value_snoc; rewrite <- N2Z.inj_mod; f_equal;
        rewrite N.add_comm, N.mod_add by lia; now apply N.mod_small).
  all: rewrite Em.
  all: rewrite arith_ok by (first [assumption | apply small_range; [assumption|lia]]).
  all: cbn [bind].
  all: rewrite digit_character_spec by lia.
  all: rewrite prepend_ascii by (apply digit_char_ascii; lia).
  all: cbn [bind].
  - assert (Eq : (Z.of_N n / Z.of_N r)%Z = 0%Z).
    { rewrite <- N2Z.inj_div. unfold n. rewrite value_snoc. cbn [value fold_left].
      change (fold_left (fun a d0 => a * r + d0) [] 0) with 0. rewrite N.div_small; lia. }
    rewrite Eq. rewrite arith_ok by (first [assumption | apply small_range; [assumption|lia]]).
    cbn [bind]. rewrite (convert_id t 0) by (first [assumption | apply small_range; [assumption|lia]]).
    cbn [map grouped_before app].
    destruct fuel; [cbn in Hfuel; lia|]. cbn [format_loop Z.eqb negb].
    destruct (c + 1 =? 3); reflexivity.
  - assert (Eq : (Z.of_N n / Z.of_N r)%Z = Z.of_N (value r (f2 ++ [d2]))).
    { rewrite <- N2Z.inj_div. unfold n. rewrite value_snoc.
      rewrite N.add_comm, N.div_add by lia. rewrite N.div_small by assumption. f_equal. }
    assert (Hle : (Z.of_N (value r (f2 ++ [d2])) <= Z.of_N n)%Z).
    { rewrite <- Eq. apply Z.div_le_upper_bound; nia. }
    assert (Hf' : Forall (fun x => x < r) (f2 ++ [d2])) by now apply Forall_app in Hf as [Hf _].
    assert (Hz' : hd_error (f2 ++ [d2]) <> Some 0) by (destruct f2; exact Hz).
    assert (Hn' : value r (f2 ++ [d2]) <> 0).
    { pose proof (canonical_length r _ ltac:(lia) Hf' ltac:(now destruct f2) Hz') as L.
      match type of L with ?a <= _ => assert (a <> 0) by (apply N.pow_nonzero; lia) end; lia. }
    rewrite Eq. rewrite arith_ok by (first [assumption | apply nonneg_u; [assumption|lia]]).
    cbn [bind]. rewrite (convert_id t) by (first [assumption | apply nonneg_t; [assumption|lia]]).
    replace (Z.of_N (value r (f2 ++ [d2])) =? 0)%Z with false by lia. cbn [negb].
    rewrite (mod3 m c Hc). rewrite prepend_separator_spec. cbn [bind].
    rewrite app_length in Hfuel. cbn [length] in Hfuel.
    rewrite map_app, grouped_before_app. cbn [map grouped_before length].
    rewrite <- app_assoc. cbn [app]. rewrite !app_nil_r.
    replace (0 + (m + 1))%nat with (S m) by lia.
    destruct (Nat.eqb (S m mod 3) 0) eqn:E3.
    + rewrite (IH d2 fuel (S m) 0 _ Ht Hr Hf' Hz'); try lia.
      replace (S m + 1)%nat with (1 + (m + 1))%nat by lia.
      do 3 f_equal. unfold separator_after.
      destruct (sep_char sep); [|reflexivity]. rewrite E3. reflexivity.
    + rewrite (IH d2 fuel (S m) (c + 1) _ Ht Hr Hf' Hz'); try lia.
      replace (S m + 1)%nat with (1 + (m + 1))%nat by lia.
      do 3 f_equal. unfold separator_after.
      destruct (sep_char sep); [|reflexivity]. rewrite E3. reflexivity.
Qed.
