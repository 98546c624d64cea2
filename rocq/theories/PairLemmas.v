From Coq Require Import NArith ZArith List Bool Lia ZifyBool ZifyNat ZifyN.
From Verif Require Import Base UnicodeSpec UnicodeModel UnicodeText.
From Verif Require Import UnicodeLemmas UnicodeLemmas2 UnicodeLemmas3 UnicodeLemmas4 PairSpec PairText.
Import ListNotations.
Open Scope N_scope.
Ltac Zify.zify_post_hook ::= Z.div_mod_to_equations.


Lemma single_iff : forall k c, single_unit k c <-> is16 k && paired c = false.
Proof. intros k c. unfold paired. destruct k; cbn [single_unit is16 andb]; unfold bmp; split; intro; try easy; lia. Qed.

(** A pair, and the iterator in the middle of it. *)
Lemma pair_units : forall k c, is16 k = true -> paired c = true -> holds k c ->
  exists hi lo, encode1 (encoding_of k) c = [hi; lo] /\ 0xDC00 <= lo <= 0xDFFF.
Proof.
  intros k c K P H. unfold paired in P. exists (0xD800 + (c - 0x10000) / 1024), (0xDC00 + (c - 0x10000) mod 1024).
  split; [|lia]. destruct k; try discriminate; cbn [encoding_of encode1]; unfold utf16_of; (replace (c <? 0x10000) with false by lia); reflexivity.
Qed.

Lemma post_inc_trail : forall k pre u rest, is16 k = true -> 0xDC00 <= u <= 0xDFFF ->
  post_inc k (pre ++ u :: rest) (length pre) = Throw InvalidUnicodeEncoding.
Proof.
  intros k pre u rest K U. unfold post_inc, advance. assert (C : class_of k = Multi16) by (destruct k; try discriminate; reflexivity).
  rewrite C. unfold advance16. rewrite nth_mid0. cbn [nth_error]. now rewrite init16_trail.
Qed.

Lemma post_inc_pair : forall k pre c post, holds k c -> ~ single_unit k c -> Forall (unit_range k) post ->
  post_inc k (pre ++ encode1 (encoding_of k) c ++ post) (length pre) = Ok (c, (length pre + 1)%nat).
Proof.
  intros k pre c post Hc Sc Hp. destruct (at_boundary k pre c post Hc Hp) as (D & _ & A).
  unfold post_inc. rewrite (A Sc), D. reflexivity.
Qed.

Lemma starts_exact_from : forall k1 k2 l m pre1 pre2 fuel,
  Forall (holds k1) l -> Forall (holds k2) m -> (length (units k1 l) < fuel)%nat ->
  noexcept (starts_with_from fuel k1 (pre1 ++ units k1 l) k2 (pre2 ++ units k2 m) (length pre1) (length pre2)) =
  compared (is16 k1) (is16 k2) l m.
Proof.
  intros k1 k2 l; induction l as [|c l IH]; intros m pre1 pre2 fuel H1 H2 Hf;
    (destruct fuel; [cbn in Hf; lia|]); cbn [starts_with_from].
  - destruct m as [|d m]; [now rewrite len_mid0|]. rewrite unit_cons_ne, len_mid0. reflexivity.
  - destruct m as [|d m]; [now rewrite len_mid0|]. rewrite !unit_cons_ne.
    inversion H1 as [|? ? Hc Hl]; inversion H2 as [|? ? Hd Hm]; subst.
    change (units k1 (c :: l)) with (encode1 (encoding_of k1) c ++ units k1 l) in *.
    change (units k2 (d :: m)) with (encode1 (encoding_of k2) d ++ units k2 m).
    assert (P1 : exists i, post_inc k1 (pre1 ++ encode1 (encoding_of k1) c ++ units k1 l) (length pre1) = Ok (c, i) /\
      (is16 k1 && paired c = false -> i = length (pre1 ++ encode1 (encoding_of k1) c)) /\ (is16 k1 && paired c = true -> i = (length pre1 + 1)%nat)).
    { destruct (is16 k1 && paired c) eqn:E.
      - exists (length pre1 + 1)%nat. split; [|split; [discriminate|reflexivity]]. apply post_inc_pair; auto using units_range. rewrite single_iff. congruence.
      - eexists. split; [apply post_inc_boundary; auto using units_range; now apply single_iff|]. split; [reflexivity|discriminate]. }
    assert (P2 : exists j, post_inc k2 (pre2 ++ encode1 (encoding_of k2) d ++ units k2 m) (length pre2) = Ok (d, j) /\
      (is16 k2 && paired d = false -> j = length (pre2 ++ encode1 (encoding_of k2) d)) /\ (is16 k2 && paired d = true -> j = (length pre2 + 1)%nat)).
    { destruct (is16 k2 && paired d) eqn:E.
      - exists (length pre2 + 1)%nat. split; [|split; [discriminate|reflexivity]]. apply post_inc_pair; auto using units_range. rewrite single_iff. congruence.
      - eexists. split; [apply post_inc_boundary; auto using units_range; now apply single_iff|]. split; [reflexivity|discriminate]. }
    destruct P1 as (i & E1 & I1 & I2). destruct P2 as (j & E2 & J1 & J2). rewrite E1, E2. cbn [bind compared].
    destruct (c =? d) eqn:Ecd; cbn [negb]; [|reflexivity]. apply N.eqb_eq in Ecd. subst d.
    assert (Hf' : (length (units k1 l) < fuel)%nat).
    { rewrite app_length in Hf. pose proof (encode1_nonempty (encoding_of k1) c). destruct (encode1 (encoding_of k1) c); [congruence|]. cbn [length] in Hf. lia. }
    assert (Go : i = length (pre1 ++ encode1 (encoding_of k1) c) -> j = length (pre2 ++ encode1 (encoding_of k2) c) ->
      noexcept (starts_with_from fuel k1 (pre1 ++ encode1 (encoding_of k1) c ++ units k1 l) k2 (pre2 ++ encode1 (encoding_of k2) c ++ units k2 m) i j) =
      compared (is16 k1) (is16 k2) l m).
    { intros -> ->. rewrite !app_assoc. now apply IH. }
    destruct (paired c) eqn:Pc; [|apply Go; [apply I1|apply J1]; now rewrite andb_false_r].
    rewrite !andb_true_r in *.
    destruct fuel as [|fuel]; [lia|].
    destruct (is16 k1) eqn:K1, (is16 k2) eqn:K2.
    + specialize (I2 eq_refl). specialize (J2 eq_refl). subst i j.
      destruct (pair_units k1 c K1 Pc Hc) as (h1 & lo1 & U1 & B1). destruct (pair_units k2 c K2 Pc Hd) as (h2 & lo2 & U2 & B2).
      rewrite U1, U2. cbn [starts_with_from app].
      replace (Nat.eqb (length pre2 + 1) (length (pre2 ++ h2 :: lo2 :: units k2 m))) with false by (rewrite app_length; cbn [length]; symmetry; apply Nat.eqb_neq; lia).
      replace (Nat.eqb (length pre1 + 1) (length (pre1 ++ h1 :: lo1 :: units k1 l))) with false by (rewrite app_length; cbn [length]; symmetry; apply Nat.eqb_neq; lia).
      replace (length pre1 + 1)%nat with (length (pre1 ++ [h1])) by (rewrite app_length; reflexivity).
      replace (pre1 ++ h1 :: lo1 :: units k1 l) with ((pre1 ++ [h1]) ++ lo1 :: units k1 l) by now rewrite <- app_assoc.
      now rewrite post_inc_trail.
    + specialize (I2 eq_refl). specialize (J1 eq_refl). subst i j.
      destruct (pair_units k1 c K1 Pc Hc) as (h1 & lo1 & U1 & B1). rewrite U1. cbn [starts_with_from app].
      rewrite (app_assoc pre2). destruct m as [|d m]; [now rewrite len_mid0|]. rewrite unit_cons_ne.
      replace (Nat.eqb (length pre1 + 1) (length (pre1 ++ h1 :: lo1 :: units k1 l))) with false by (rewrite app_length; cbn [length]; symmetry; apply Nat.eqb_neq; lia).
      replace (length pre1 + 1)%nat with (length (pre1 ++ [h1])) by (rewrite app_length; reflexivity).
      replace (pre1 ++ h1 :: lo1 :: units k1 l) with ((pre1 ++ [h1]) ++ lo1 :: units k1 l) by now rewrite <- app_assoc.
      now rewrite post_inc_trail.
    + specialize (I1 eq_refl). specialize (J2 eq_refl). subst i j.
      destruct (pair_units k2 c K2 Pc Hd) as (h2 & lo2 & U2 & B2). rewrite U2. cbn [starts_with_from app].
      replace (Nat.eqb (length pre2 + 1) (length (pre2 ++ h2 :: lo2 :: units k2 m))) with false by (rewrite app_length; cbn [length]; symmetry; apply Nat.eqb_neq; lia).
      rewrite (app_assoc pre1). destruct l as [|e l]; [now rewrite len_mid0|]. rewrite unit_cons_ne.
      inversion Hl as [|? ? He Hl']; subst. change (units k1 (e :: l)) with (encode1 (encoding_of k1) e ++ units k1 l).
      rewrite post_inc_boundary; [|exact He|apply single_iff; now rewrite K1|auto using units_range]. cbn [bind].
      replace (length pre2 + 1)%nat with (length (pre2 ++ [h2])) by (rewrite app_length; reflexivity).
      replace (pre2 ++ h2 :: lo2 :: units k2 m) with ((pre2 ++ [h2]) ++ lo2 :: units k2 m) by now rewrite <- app_assoc.
      now rewrite post_inc_trail.
    + apply Go; auto.
Qed.

(** Iteration. *)
Fixpoint seen (p : bool) (l : list N) : list N * outcome unit :=
  match l with
  | [] => ([], Ok tt)
  | c :: l => if p && paired c then ([c], Throw InvalidUnicodeEncoding) else let '(a, r) := seen p l in (c :: a, r)
  end.

Lemma visit_exact_from : forall k l pre fuel, Forall (holds k) l -> (length (units k l) < fuel)%nat ->
  visit_from fuel k (pre ++ units k l) (length pre) = seen (is16 k) l.
Proof.
  intros k l; induction l as [|c l IH]; intros pre fuel Hh Hf.
  - destruct fuel; [lia|]. cbn [visit_from]. rewrite len_mid0. reflexivity.
  - destruct fuel; [cbn in Hf; lia|]. cbn [visit_from seen]. inversion Hh as [|? ? Hc Hl]; subst. rewrite unit_cons_ne.
    change (units k (c :: l)) with (encode1 (encoding_of k) c ++ units k l) in *.
    destruct (at_boundary k pre c (units k l) Hc (units_range k l Hl)) as (D & A1 & A2). rewrite D.
    destruct (is16 k && paired c) eqn:E.
    + rewrite A2 by (rewrite single_iff; congruence). apply andb_prop in E as [K Pc].
      destruct (pair_units k c K Pc Hc) as (hi & lo & U & B). rewrite U in *. cbn [app length] in *.
      destruct fuel as [|fuel]; [lia|].
      replace (length pre + 1)%nat with (length (pre ++ [hi])) by (rewrite app_length; reflexivity).
      replace (pre ++ hi :: lo :: units k l) with ((pre ++ [hi]) ++ lo :: units k l) by now rewrite <- app_assoc.
      rewrite visit16_lone_trail; [reflexivity|destruct k; try discriminate; reflexivity|exact B|].
      assert (Rg : Forall (unit_range k) (units k (c :: l))) by now apply units_range.
      change (units k (c :: l)) with (encode1 (encoding_of k) c ++ units k l) in Rg. rewrite U in Rg. cbn [app] in Rg. now inversion Rg.
    + rewrite A1 by now apply single_iff. rewrite app_assoc, IH; [reflexivity|assumption|].
      rewrite app_length in Hf. pose proof (encode1_nonempty (encoding_of k) c). destruct (encode1 (encoding_of k) c); [congruence|]. cbn [length] in Hf. lia.
Qed.


Lemma append_mistaken : forall s c, mistaken c = true -> append_code_point K8 s c = (s, Throw InvalidCodePoint).
Proof.
  intros s c M. unfold append_code_point, insert_code_point. unfold mistaken in M.
  assert (V : is_code_point_valid c = false).
  { unfold is_code_point_valid, is_surrogate, to_char16, leading_surrogate_minimum_value, trailing_surrogate_maximum_value.
    rewrite M. apply andb_false_r. }
  now rewrite V.
Qed.

Lemma append_good : forall ko s c, holds ko c -> is8 ko && mistaken c = false -> append_code_point ko s c = (s ++ encode1 (encoding_of ko) c, Ok tt).
Proof.
  intros ko s c H M. apply append_ok. split; [exact H|]. intros ->. cbn [is8 andb] in M. unfold mistaken in M. lia.
Qed.

Lemma convert_exact : forall ko p l res, Forall (holds ko) l ->
  (let '(v, r) := seen p l in bind (append_all ko res v) (fun t => bind r (fun _ => Ok t))) =
  match failure p (is8 ko) l with None => Ok (res ++ units ko l) | Some e => Throw e end.
Proof.
  intros ko p. induction l as [|c l IH]; intros res H.
  - cbn. now rewrite app_nil_r.
  - inversion H as [|? ? Hc Hl]; subst. cbn [seen failure].
    destruct (is8 ko && mistaken c) eqn:M.
    + apply andb_prop in M as [K M]. destruct ko; try discriminate. destruct (p && paired c); cbn [append_all].
      * now rewrite append_mistaken.
      * destruct (seen p l) as [v r]. cbn [append_all]. now rewrite append_mistaken.
    + destruct (p && paired c); cbn [append_all].
      * now rewrite append_good.
      * specialize (IH (res ++ encode1 (encoding_of ko) c) Hl). destruct (seen p l) as [v r]. cbn [append_all].
        rewrite append_good by assumption. rewrite IH.
        change (units ko (c :: l)) with (encode1 (encoding_of ko) c ++ units ko l). now rewrite app_assoc.
Qed.
