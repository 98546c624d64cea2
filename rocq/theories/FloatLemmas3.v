(** Formatting floating-point numbers: the whole call. *)
From Coq Require Import NArith ZArith List Bool Lia ZifyBool ZifyNat ZifyN.
From Verif Require Import Base Integers NumeralSpec FloatSpec UnicodeSpec UnicodeModel UnicodeText
  UnicodeLemmas2 NumberModel NumberText NumberLemmas NumberLemmas2 FloatModel FloatLemmas FloatLemmas2.
Import ListNotations.
Open Scope Z_scope.
Ltac Zify.zify_post_hook ::= Z.div_mod_to_equations.

Lemma append_ascii : forall k s c, (c < 128)%N -> append_to k s c = Ok (s ++ [c]).
Proof.
  intros k s c H. unfold append_to. rewrite append_ok by now apply ascii_insertable.
  now rewrite ascii_encode.
Qed.

Lemma append_separator_spec : forall k s out,
  append_separator k s out = Ok (out ++ match sep_char s with Some c => [c] | None => [] end).
Proof.
  intros k [] out; cbn [append_separator sep_char].
  - now rewrite app_nil_r.
  - now apply append_ascii.
  - now apply append_ascii.
Qed.

Lemma digit_char_ascii : forall d, (d < 36)%N -> (digit_char d < 128)%N.
Proof. intros d H. unfold digit_char. destruct (N.ltb_spec d 10); lia. Qed.

Definition sep_at (s : thousands_separator) (n : nat) : list N :=
  match sep_char s with Some c => if Nat.eqb (S n mod 3) 0 then [c] else [] | None => [] end.

Lemma fraction_text_cons : forall s n d ds,
  fraction_text (sep_char s) n (d :: ds)
  = digit_char d :: sep_at s n ++ fraction_text (sep_char s) (S n) ds.
Proof. reflexivity. Qed.

(** One iteration that appends a digit. *)
Lemma fraction_step : forall fuel k cs t f x n done out, good t ->
  (2 <= radix (base f) <= 36)%N -> frac t x -> x <> 0 ->
  limited f && (done =? places f)%N = false ->
  fraction_loop (S fuel) k cs t f x (N.of_nat (n mod 3)) done out
  = fraction_loop fuel k cs t f (next_frac t (radix (base f)) x) (N.of_nat (S n mod 3))
      (if limited f then done + 1 else done)%N
      (out ++ digit_char (next_digit t (radix (base f)) x) :: sep_at (separator (base f)) n).
Proof.
  intros fuel k cs t f x n done out G Hr F N0 L.
  set (r := radix (base f)) in *.
  assert (Hd : (next_digit t r x < r)%N) by (apply next_digit_lt; auto; lia).
  assert (W : whole t (product t r x) = Z.of_N (next_digit t r x)) by (apply next_digit_whole; auto; lia).
  cbn [fraction_loop]. fold r. replace (x =? 0) with false by lia.
  change (round_units (prec t) (x * Z.of_N r)) with (product t r x).
  assert (C : to_char t cs (product t r x) = Ok (Z.of_N (next_digit t r x))).
  { unfold to_char. rewrite W.
    assert (in_range (char_type cs) (Z.of_N (next_digit t r x))).
    { apply small_range; [destruct cs; vm_compute; tauto|lia]. }
    unfold in_range in H. replace (_ && _) with true by lia. reflexivity. }
  rewrite C. cbn [bind]. rewrite L. rewrite digit_character_spec by lia.
  rewrite append_ascii by (apply digit_char_ascii; lia). cbn [bind].
  rewrite sub_whole. change (product t r x mod one t) with (next_frac t r x).
  rewrite (rep_round (prec t) (next_frac t r x)).
  2: unfold good in G; lia.
  2: apply next_frac_ok; auto; lia.
  unfold sep_at.
  destruct (N.eqb_spec (N.of_nat (n mod 3) + 1) 3) as [E|E].
  - rewrite append_separator_spec. cbn [bind].
    assert (Sn : (S n mod 3 = 0)%nat) by lia. rewrite Sn. cbn [Nat.eqb N.of_nat].
    rewrite <- app_assoc. cbn [app]. destruct (sep_char (separator (base f))); reflexivity.
  - assert (Sn : (S n mod 3 = n mod 3 + 1)%nat) by lia. rewrite Sn.
    replace ((n mod 3 + 1) =? 0)%nat with false by lia.
    replace (N.of_nat (n mod 3 + 1)) with (N.of_nat (n mod 3) + 1)%N by lia.
    destruct (sep_char (separator (base f))); reflexivity.
Qed.

Lemma fraction_loop_none : forall fuel k cs t f m x n done out, good t ->
  (2 <= radix (base f) <= 36)%N -> limit f = NoLimit -> frac t x ->
  rest t (radix (base f)) m x = 0 -> (m < fuel)%nat ->
  fraction_loop fuel k cs t f x (N.of_nat (n mod 3)) done out
  = Ok (out ++ fraction_text (sep_char (separator (base f))) n (expand t (radix (base f)) m x), done).
Proof.
  induction fuel as [|fuel IH]; intros k cs t f m x n done out G Hr Hl F R L; [lia|].
  destruct (Z.eq_dec x 0) as [->|N0].
  - destruct m; cbn; now rewrite app_nil_r.
  - destruct m as [|m]; [cbn in R; congruence|].
    rewrite fraction_step; auto.
    2: unfold limited; now rewrite Hl.
    cbn [expand rest] in *. replace (x =? 0) with false in * by lia.
    rewrite (IH k cs t f m); auto; try lia.
    + rewrite fraction_text_cons, <- app_assoc. unfold limited. now rewrite Hl.
    + apply next_frac_ok; auto; lia.
Qed.

Lemma fraction_loop_limited : forall fuel k cs t f x n done out, good t ->
  (2 <= radix (base f) <= 36)%N -> limited f = true -> frac t x ->
  (done <= places f)%N -> (N.to_nat (places f - done) < fuel)%nat ->
  let ds := expand t (radix (base f)) (N.to_nat (places f - done)) x in
  exists done', fraction_loop fuel k cs t f x (N.of_nat (n mod 3)) done out
  = Ok (out ++ fraction_text (sep_char (separator (base f))) n ds, done') /\
  N.to_nat (places f - done') = (N.to_nat (places f - done) - length ds)%nat.
Proof.
  induction fuel as [|fuel IH]; intros k cs t f x n done out G Hr Hl F Hd L ds; [lia|].
  destruct (Z.eq_dec x 0) as [->|N0].
  - exists done. unfold ds. destruct (N.to_nat (places f - done)) eqn:E; cbn; rewrite app_nil_r; split; auto; lia.
  - destruct (N.eq_dec done (places f)) as [->|Hne].
    + exists (places f + 1)%N. unfold ds. replace (N.to_nat (places f - places f)) with O by lia.
      cbn [expand fraction_text length]. rewrite app_nil_r. split; [|lia].
      cbn [fraction_loop]. replace (x =? 0) with false by lia.
      set (r := radix (base f)) in *.
      change (round_units (prec t) (x * Z.of_N r)) with (product t r x).
      assert (Hdg : (next_digit t r x < r)%N) by (apply next_digit_lt; auto; lia).
      assert (W : whole t (product t r x) = Z.of_N (next_digit t r x)) by (apply next_digit_whole; auto; lia).
      assert (C : to_char t cs (product t r x) = Ok (Z.of_N (next_digit t r x))).
      { unfold to_char. rewrite W.
        assert (in_range (char_type cs) (Z.of_N (next_digit t r x))).
        { apply small_range; [destruct cs; vm_compute; tauto|lia]. }
        unfold in_range in H. replace (_ && _) with true by lia. reflexivity. }
      rewrite C. cbn [bind]. rewrite Hl, N.eqb_refl. reflexivity.
    + rewrite fraction_step; auto.
      2: rewrite Hl; cbn; lia.
      rewrite Hl.
      destruct (IH k cs t f (next_frac t (radix (base f)) x) (S n) (done + 1)%N
                  (out ++ digit_char (next_digit t (radix (base f)) x) :: sep_at (separator (base f)) n))
        as (done' & E & D); auto; try lia.
      { apply next_frac_ok; auto; lia. }
      exists done'. rewrite E. unfold ds.
      replace (N.to_nat (places f - done)) with (S (N.to_nat (places f - (done + 1)))) in * by lia.
      cbn [expand]. replace (x =? 0) with false by lia. rewrite fraction_text_cons.
      cbn [length]. rewrite <- app_assoc. split; [reflexivity|lia].
Qed.

Lemma append_zeros_ok : forall n k out, append_zeros n k out = Ok (out ++ repeat 48%N n).
Proof.
  induction n as [|n IH]; intros k out; cbn [append_zeros repeat].
  - now rewrite app_nil_r.
  - rewrite append_ascii by lia. cbn [bind]. rewrite IH, <- app_assoc. reflexivity.
Qed.

Lemma point_ascii : forall p, (point_char p < 128)%N.
Proof. intros []; cbn; lia. Qed.

(** The digits shown: with no limit all of them, otherwise the first ones. *)
Definition shown (t : float_type) (f : float_format) : nat :=
  if limited f then N.to_nat (places f) else Z.to_nat (scale t).

Definition padding (f : float_format) (ds : list N) : nat :=
  match limit f with ExactlyEqual => N.to_nat (places f) - length ds | _ => O end.

(** The whole call on a value with a fraction; [x] is its absolute value modulo
    one. *)
Lemma format_float_ok : forall fuel k cs t f n, good t -> rep (prec t) (Z.abs n) ->
  (2 <= radix (base f) <= 36)%N ->
  (min_of I64 < whole t n <= max_of I64) ->
  (limited f = false -> rest t (radix (base f)) (Z.to_nat (scale t)) (Z.abs n mod one t) = 0) ->
  (fraction_fuel t f <= fuel)%nat ->
  exists itext,
    format_integer k cs I64 (whole t n) (base f) = Ok itext /\
    numeral (radix (base f)) (shows_plus (sign (base f))) (sep_char (separator (base f))) (whole t n) itext /\
    format_floating_point_with fuel k cs t (Fin n) f
    = Ok (itext ++
        if Z.abs n mod one t =? 0 then []
        else let ds := expand t (radix (base f)) (shown t f) (Z.abs n mod one t) in
             point_char (point f) :: fraction_text (sep_char (separator (base f))) 0 ds
               ++ repeat 48%N (padding f ds)).
Proof.
  intros fuel k cs t f n G R Hr I Hrest Hf.
  assert (I64s : standard I64) by (vm_compute; tauto).
  destruct (format_integer_ok k cs I64 (whole t n) (base f) I64s ltac:(unfold in_range; lia) Hr ltac:(lia))
    as (itext & E & Hn).
  exists itext. split; [assumption|]. split; [assumption|].
  unfold format_floating_point_with, equivalent_format, new_integer_format.
  replace ((radix (base f) <? 2) || (36 <? radix (base f)))%N with false by lia. cbn [bind].
  unfold to_long_long. replace (_ && _) with true by lia. cbn [bind].
  replace (IntegerFormat (radix (base f)) (sign (base f)) (separator (base f))) with (base f) by (now destruct (base f)).
  rewrite E. cbn [bind].
  replace (if n <? 0 then - n else n) with (Z.abs n) by (destruct (Z.ltb_spec n 0); lia).
  rewrite sub_whole.
  assert (F : frac t (Z.abs n mod one t)) by now apply mod_frac.
  set (x := Z.abs n mod one t) in *.
  rewrite (rep_round (prec t) x) by (unfold good in G; lia || apply F).
  destruct (Z.eqb_spec x 0) as [X|X]; [now rewrite app_nil_r|].
  cbv zeta. unfold shown, padding. unfold fraction_fuel in Hf.
  destruct (limited f) eqn:L.
  - destruct (fraction_loop_limited fuel k cs t f x 0 0%N [] G Hr L F ltac:(lia) ltac:(lia)) as (done' & El & D).
    change (N.of_nat (0 mod 3)) with 0%N in El. rewrite El. cbn [bind app]. rewrite N.sub_0_r in *.
    destruct (limit f) eqn:Lm; [unfold limited in L; rewrite Lm in L; discriminate| |].
    + rewrite append_zeros_ok. cbn [bind]. rewrite append_ascii by apply point_ascii. cbn [bind].
      rewrite D, <- app_assoc. reflexivity.
    + cbn [bind]. rewrite append_ascii by apply point_ascii. cbn [bind repeat].
      rewrite app_nil_r, <- app_assoc. reflexivity.
  - assert (Lm : limit f = NoLimit) by (unfold limited in L; destruct (limit f); congruence).
    pose proof (fraction_loop_none fuel k cs t f (Z.to_nat (scale t)) x 0 0%N [] G Hr Lm F (Hrest eq_refl) ltac:(lia)) as El.
    change (N.of_nat (0 mod 3)) with 0%N in El. rewrite El. cbn [bind app]. rewrite Lm. cbn [bind].
    rewrite append_ascii by apply point_ascii. cbn [bind repeat].
    rewrite app_nil_r, <- app_assoc. reflexivity.
Qed.

(** Non-termination: the fraction never becomes zero. *)
Lemma fraction_loop_diverges : forall (P : Z -> Prop) k cs t f, good t ->
  (2 <= radix (base f) <= 36)%N -> limit f = NoLimit ->
  (forall x, P x -> frac t x /\ x <> 0 /\ P (next_frac t (radix (base f)) x)) ->
  forall fuel x n done out, P x -> fraction_loop fuel k cs t f x (N.of_nat (n mod 3)) done out = Diverge.
Proof.
  intros P k cs t f G Hr Hl HP. induction fuel as [|fuel IH]; intros x n done out Px; [reflexivity|].
  destruct (HP x Px) as (F & N0 & Pn). rewrite fraction_step; auto. unfold limited. now rewrite Hl.
Qed.
