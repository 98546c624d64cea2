(** Lemmas for C160 and C54: the order of encoded texts. *)
From Coq Require Import NArith ZArith List Bool Lia.
From Coq Require Import ZifyBool ZifyNat ZifyN.
From Verif Require Import NumeralSpec SortSpec UnicodeSpec NumberLemmas.
Import ListNotations.
Open Scope N_scope.
Ltac Zify.zify_post_hook ::= Z.div_mod_to_equations.

(** Two code points that differ first in the units x and y. *)
Definition decided (a b : list N) : Prop := exists p x y s t, a = p ++ x :: s /\ b = p ++ y :: t /\ x < y.

Lemma sorts_prefix : forall p a b, sorts_before a b -> sorts_before (p ++ a) (p ++ b).
Proof. induction p as [|x p IH]; intros a b H; cbn [app]; [exact H|]. apply Same. auto. Qed.

Lemma decided_sorts : forall a b u v, decided a b -> sorts_before (a ++ u) (b ++ v).
Proof.
  intros a b u v (p & x & y & s & t & -> & -> & L). rewrite <- !app_assoc. apply sorts_prefix. cbn [app]. now apply Smaller.
Qed.

Lemma decided_at : forall p x y s t, x < y -> decided (p ++ x :: s) (p ++ y :: t).
Proof. intros p x y s t H. exists p, x, y, s, t. auto. Qed.

Lemma utf8_decided : forall c d, c < d -> d <= 0x10FFFF -> decided (utf8_of c) (utf8_of d).
Proof.
  intros c d L M. unfold utf8_of.
  destruct (N.ltb_spec c 0x80) as [A1|A1]; [|destruct (N.ltb_spec c 0x800) as [A2|A2]; [|destruct (N.ltb_spec c 0x10000) as [A3|A3]]];
  (destruct (N.ltb_spec d 0x80) as [B1|B1]; [|destruct (N.ltb_spec d 0x800) as [B2|B2]; [|destruct (N.ltb_spec d 0x10000) as [B3|B3]]]); try lia;
  try (apply (decided_at []); lia).
  - destruct (N.eq_dec (c / 64) (d / 64)) as [E|E]; [|apply (decided_at []); lia].
    rewrite E. apply (decided_at [_]). lia.
  - destruct (N.eq_dec (c / 4096) (d / 4096)) as [E|E]; [|apply (decided_at []); lia].
    rewrite E. destruct (N.eq_dec (c / 64) (d / 64)) as [E'|E']; [rewrite E'; apply (decided_at [_; _])|apply (decided_at [_])]; lia.
  - destruct (N.eq_dec (c / 262144) (d / 262144)) as [E|E]; [|apply (decided_at []); lia].
    rewrite E. destruct (N.eq_dec (c / 4096) (d / 4096)) as [E'|E']; [|apply (decided_at [_]); lia].
    rewrite E'. destruct (N.eq_dec (c / 64) (d / 64)) as [E''|E'']; [rewrite E''; apply (decided_at [_; _; _])|apply (decided_at [_; _])]; lia.
Qed.

Lemma utf16_decided : forall c d, scalar c -> scalar d -> place16 c < place16 d -> decided (utf16_of c) (utf16_of d).
Proof.
  intros c d Sc Sd L. unfold scalar in *. unfold place16 in L. unfold utf16_of.
  destruct (N.leb_spec 0xE000 c), (N.ltb_spec c 0x10000), (N.leb_spec 0xE000 d), (N.ltb_spec d 0x10000); cbn [andb] in L; try lia;
    try (apply (decided_at []); lia).
  destruct (N.eq_dec ((c - 0x10000) / 1024) ((d - 0x10000) / 1024)) as [E|E]; [rewrite E; apply (decided_at [_])|apply (decided_at [])]; lia.
Qed.

(** The order of the encodings is the order of the places of the code points. *)
Lemma encoded_sorts : forall (enc : N -> list N) (place : N -> N) (ok : N -> Prop),
  (forall c d, ok c -> ok d -> place c < place d -> decided (enc c) (enc d)) -> (forall c, enc c <> []) ->
  (forall c d, ok c -> ok d -> place c = place d -> c = d) ->
  forall a b, Forall ok a -> Forall ok b -> sorts_before (map place a) (map place b) ->
  sorts_before (flat_map enc a) (flat_map enc b).
Proof.
  intros enc place ok D Ne Inj. induction a as [|c a IH]; intros b A B H.
  - destruct b as [|d b]; [inversion H|]. cbn [flat_map]. specialize (Ne d). destruct (enc d); [congruence|]. apply Shorter.
  - destruct b as [|d b]; [inversion H|]. apply Forall_cons_iff in A as [A1 A2]. apply Forall_cons_iff in B as [B1 B2].
    cbn [map] in H. inversion H as [|x y u v L|x u v S]; subst; cbn [flat_map].
    + apply decided_sorts. auto.
    + replace d with c by auto. apply sorts_prefix. auto.
Qed.

Lemma sorts_irreflexive : forall a, ~ sorts_before a a.
Proof. induction a as [|x a IH]; intros H; inversion H; subst; [lia|auto]. Qed.

Lemma sorts_asymmetric : forall a b, sorts_before a b -> ~ sorts_before b a.
Proof. induction 1 as [x b|x y a b L|x a b H IH]; intros K; inversion K; subst; auto; lia. Qed.

Lemma sorts_total : forall a b, sorts_before a b \/ a = b \/ sorts_before b a.
Proof.
  induction a as [|x a IH]; intros [|y b]; [auto|left; constructor|right; right; constructor|].
  destruct (N.lt_trichotomy x y) as [L|[->|L]]; [left; now apply Smaller| |right; right; now apply Smaller].
  destruct (IH b) as [H|[->|H]]; [left; now apply Same|auto|right; right; now apply Same].
Qed.

Lemma encoded_sorts_iff : forall (enc : N -> list N) (place : N -> N) (ok : N -> Prop),
  (forall c d, ok c -> ok d -> place c < place d -> decided (enc c) (enc d)) -> (forall c, enc c <> []) ->
  (forall c d, ok c -> ok d -> place c = place d -> c = d) ->
  forall a b, Forall ok a -> Forall ok b ->
  (sorts_before (flat_map enc a) (flat_map enc b) <-> sorts_before (map place a) (map place b)).
Proof.
  intros enc place ok D Ne Inj a b A B. split; [|now apply (encoded_sorts enc place ok)].
  intros H. destruct (sorts_total (map place a) (map place b)) as [X|[X|X]]; [exact X| |].
  - exfalso. replace b with a in H; [now apply sorts_irreflexive in H|]. clear - Inj A B X. revert b B X.
    induction A as [|c a Hc A IH]; intros [|d b] B X; cbn [map] in X; try discriminate; [reflexivity|].
    apply Forall_cons_iff in B as [B1 B2]. injection X as X1 X2. f_equal; auto.
  - exfalso. apply (encoded_sorts enc place ok D Ne Inj) in X; auto. now apply sorts_asymmetric in X.
Qed.

Lemma place16_injective : forall c d, scalar c -> scalar d -> place16 c = place16 d -> c = d.
Proof.
  intros c d Sc Sd. unfold place16, scalar in *. destruct (N.leb_spec 0xE000 c), (N.ltb_spec c 0x10000), (N.leb_spec 0xE000 d), (N.ltb_spec d 0x10000); cbn [andb]; lia.
Qed.

Lemma encode_sorts : forall e a b, Forall scalar a -> Forall scalar b ->
  (sorts_before (encode e a) (encode e b) <->
   match e with UTF16 => sorts_before (map place16 a) (map place16 b) | _ => sorts_before a b end).
Proof.
  intros e a b A B. unfold encode. destruct e; cbn [encode1].
  - rewrite (encoded_sorts_iff utf8_of (fun c => c) scalar); auto; [now rewrite !map_id| |].
    + intros c d _ [Hd _] L. apply utf8_decided; assumption.
    + intros c. unfold utf8_of. repeat destruct (_ <? _); discriminate.
  - apply (encoded_sorts_iff utf16_of place16 scalar); auto using utf16_decided, place16_injective.
    intros c. unfold utf16_of. destruct (_ <? _); discriminate.
  - rewrite (encoded_sorts_iff utf32_of (fun c => c) scalar); auto; [now rewrite !map_id| |].
    + intros c d _ _ L. apply (decided_at []). exact L.
    + discriminate.
Qed.

(** Without the code points behind the surrogates, or without supplementary ones, the places
    are in the order of the code points. *)
Lemma place16_order : forall a b, Forall (fun c => c < 0x10000) (a ++ b) \/ Forall (fun c => ~ (0xE000 <= c < 0x10000)) (a ++ b) ->
  (sorts_before (map place16 a) (map place16 b) <-> sorts_before a b).
Proof.
  intros a b H.
  assert (M : forall c d, In c (a ++ b) -> In d (a ++ b) -> (place16 c < place16 d <-> c < d) /\ (place16 c = place16 d -> c = d)).
  { intros c d C D. unfold place16. destruct H as [H|H]; rewrite Forall_forall in H; specialize (H c C) as Hc; specialize (H d D) as Hd; cbn beta in *;
      destruct (N.leb_spec 0xE000 c), (N.ltb_spec c 0x10000), (N.leb_spec 0xE000 d), (N.ltb_spec d 0x10000); cbn [andb]; lia. }
  clear H. revert b M. induction a as [|c a IH]; intros [|d b] M; cbn [map].
  - split; intros X; inversion X.
  - split; intros _; constructor.
  - split; intros X; inversion X.
  - destruct (M c d) as [M1 M2]; [now left|apply in_or_app; right; now left|].
    assert (IHb : sorts_before (map place16 a) (map place16 b) <-> sorts_before a b).
    { apply IH. intros x y X Y. apply M; [right|right]; apply in_or_app; apply in_app_or in X; apply in_app_or in Y; cbn [In] in *; tauto. }
    split; intros X; inversion X; subst.
    + apply Smaller. now apply M1.
    + replace d with c by auto. apply Same. now apply IHb.
    + apply Smaller. now apply M1.
    + apply Same. now apply IHb.
Qed.

(** Digits with zeros in front: numbers of the same width are in the order of their digits. *)
Lemma digits_sort : forall a b, length a = length b -> Forall (fun d => d < 10) a -> Forall (fun d => d < 10) b ->
  value 10 a < value 10 b -> sorts_before (map digit_char a) (map digit_char b).
Proof.
  induction a as [|x a IH]; intros [|y b] L A B V; cbn [length] in L; try discriminate.
  apply Forall_cons_iff in A as [A1 A2]. apply Forall_cons_iff in B as [B1 B2].
  change (x :: a) with ([x] ++ a) in V. change (y :: b) with ([y] ++ b) in V. rewrite !value_app in V.
  replace (length b) with (length a) in V by lia. pose proof (value_bound 10 a ltac:(lia) A2) as Ba. pose proof (value_bound 10 b ltac:(lia) B2) as Bb.
  replace (length b) with (length a) in Bb by lia. set (p := 10 ^ N.of_nat (length a)) in *.
  replace (value 10 [x]) with x in V by reflexivity. replace (value 10 [y]) with y in V by reflexivity. cbn [map].
  unfold digit_char at 1 3. apply N.ltb_lt in A1 as A1'. apply N.ltb_lt in B1 as B1'. rewrite A1', B1'. clear A1' B1'.
  destruct (N.lt_trichotomy x y) as [X|[->|X]]; [apply Smaller; lia| |].
  - apply Same. apply IH; auto; lia.
  - exfalso. clearbody p. assert ((y + 1) * p <= x * p) by (apply N.mul_le_mono_r; lia). lia.
Qed.
