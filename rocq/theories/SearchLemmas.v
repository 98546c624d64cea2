(** Lemmas for C161: places in encoded texts. *)
From Coq Require Import NArith ZArith List Bool Lia.
From Coq Require Import ZifyBool ZifyNat ZifyN.
From Verif Require Import SortSpec UnicodeSpec SearchSpec SortLemmas.
Import ListNotations.
Open Scope N_scope.
Ltac Zify.zify_post_hook ::= Z.div_mod_to_equations.

(** The units that a code point begins with. *)
Definition begins (e : encoding) (x : N) : Prop :=
  match e with
  | UTF8 => ~ (128 <= x < 192)
  | UTF16 => ~ (0xDC00 <= x < 0xE000)
  | UTF32 => True
  end.

Lemma first_unit : forall e c, scalar c ->
  exists x t, encode1 e c = x :: t /\ begins e x /\ Forall (fun u => ~ begins e u) t.
Proof.
  intros e c [M S]. destruct e; cbn [encode1 begins].
  - unfold utf8_of. destruct (N.ltb_spec c 0x80); [|destruct (N.ltb_spec c 0x800); [|destruct (N.ltb_spec c 0x10000)]]; eexists; eexists; (split; [reflexivity|]); (split; [lia|]); repeat constructor; lia.
  - unfold utf16_of. destruct (N.ltb_spec c 0x10000); eexists; eexists; (split; [reflexivity|]); (split; [lia|]); repeat constructor; lia.
  - unfold utf32_of. eexists; eexists. split; [reflexivity|]. split; [exact I|constructor].
Qed.

(** No code point begins with another one. *)
Lemma code_point_unique : forall e c d u v, scalar c -> scalar d -> encode1 e c ++ u = encode1 e d ++ v -> c = d /\ u = v.
Proof.
  intros e c d u v C D H.
  assert (E : c = d).
  { assert (X : forall c d u v, scalar c -> scalar d -> (match e with UTF16 => place16 c < place16 d | _ => c < d end) ->
      encode1 e c ++ u <> encode1 e d ++ v).
    { clear. intros c d u v C D L H. assert (X : decided (encode1 e c) (encode1 e d)).
      { destruct e; cbn [encode1]; [apply utf8_decided; [exact L|apply D]|now apply utf16_decided|now apply (decided_at [])]. }
      apply (decided_sorts _ _ u v) in X. rewrite H in X. now apply sorts_irreflexive in X. }
    destruct e.
    - destruct (N.lt_trichotomy c d) as [L|[->|L]]; [destruct (X c d u v C D L H)|reflexivity|destruct (X d c v u D C L (eq_sym H))].
    - destruct (N.lt_trichotomy (place16 c) (place16 d)) as [L|[L|L]];
        [destruct (X c d u v C D L H)|now apply place16_injective|destruct (X d c v u D C L (eq_sym H))].
    - destruct (N.lt_trichotomy c d) as [L|[->|L]]; [destruct (X c d u v C D L H)|reflexivity|destruct (X d c v u D C L (eq_sym H))]. }
  subst d. split; [reflexivity|]. now apply app_inv_head in H.
Qed.

Lemma encode_prefix : forall e a b s, Forall scalar a -> Forall scalar b -> encode e b = encode e a ++ s ->
  exists b', b = a ++ b' /\ s = encode e b'.
Proof.
  intros e. induction a as [|c a IH]; intros b s A B H.
  - exists b. split; [reflexivity|]. now rewrite H.
  - apply Forall_cons_iff in A as [C A]. unfold encode in H. cbn [flat_map] in H. rewrite <- app_assoc in H.
    destruct b as [|d b].
    + cbn [flat_map] in H. destruct (first_unit e c C) as (x & t & E & _). rewrite E in H. discriminate.
    + apply Forall_cons_iff in B as [D B]. cbn [flat_map] in H. apply code_point_unique in H as [-> H]; auto.
      destruct (IH b s A B H) as (b' & -> & ->). now exists b'.
Qed.

(** What stands in an encoded text stands in the text. *)
Lemma encode_found : forall e d a b p s, Forall scalar (d :: a) -> Forall scalar b ->
  encode e b = p ++ encode e (d :: a) ++ s ->
  exists b1 b2, b = b1 ++ (d :: a) ++ b2 /\ p = encode e b1 /\ s = encode e b2.
Proof.
  intros e d a. induction b as [|c b IH]; intros p s A B H.
  - apply Forall_cons_iff in A as [D A]. destruct (first_unit e d D) as (x & t & E & _).
    unfold encode in H. cbn [flat_map] in H. rewrite E in H. destruct p; discriminate.
  - destruct p as [|u p].
    + cbn [app] in H. apply encode_prefix in H as (b' & Hb & ->); auto. exists [], b'. rewrite Hb. auto.
    + apply Forall_cons_iff in B as [C B]. assert (A' := A). apply Forall_cons_iff in A' as [D A'].
      destruct (first_unit e c C) as (x & t & E & _ & T). destruct (first_unit e d D) as (y & t' & E' & Y & _).
      assert (L : (length t <= length p)%nat).
      { destruct (Nat.le_gt_cases (length t) (length p)) as [L|L]; [exact L|exfalso].
        unfold encode in H. cbn [flat_map] in H. rewrite E, E' in H. cbn [app] in H. injection H as -> H.
        apply (f_equal (fun l => nth_error l (length p))) in H. rewrite nth_error_app1 in H by assumption.
        rewrite nth_error_app2 in H by lia. rewrite Nat.sub_diag in H. cbn [nth_error] in H.
        apply nth_error_In in H. rewrite Forall_forall in T. now apply (T y). }
      assert (exists p', u :: p = encode1 e c ++ p') as [p' Hp].
      { exists (skipn (length t) p). unfold encode in H. cbn [flat_map] in H. rewrite E in *. cbn [app] in *. injection H as -> H. f_equal.
        apply (f_equal (firstn (length t))) in H. rewrite firstn_app, firstn_all, Nat.sub_diag, firstn_O, app_nil_r in H.
        rewrite firstn_app in H. replace (length t - length p)%nat with 0%nat in H by lia. rewrite firstn_O, app_nil_r in H.
        rewrite H at 1. symmetry. apply firstn_skipn. }
      rewrite Hp in H. unfold encode in H at 1. cbn [flat_map] in H. rewrite <- app_assoc in H. apply app_inv_head in H.
      destruct (IH p' s A B H) as (b1 & b2 & -> & -> & ->). exists (c :: b1), b2. split; [reflexivity|]. split; [|reflexivity].
      rewrite Hp. reflexivity.
Qed.

Lemma encode_app : forall e a b, encode e (a ++ b) = encode e a ++ encode e b.
Proof. intros. apply flat_map_app. Qed.

Lemma pieces_not_nil : forall sep l, pieces sep l <> [].
Proof. intros sep l. destruct l as [|c l]; cbn [pieces]; [discriminate|]. destruct (c =? sep); [discriminate|]. destruct (pieces sep l); discriminate. Qed.

(** Units without the separator go to the first piece. *)
Lemma pieces_front : forall sep u w p ps, Forall (fun x => x <> sep) u -> pieces sep w = p :: ps ->
  pieces sep (u ++ w) = (u ++ p) :: ps.
Proof.
  intros sep u w p ps F H. induction F as [|x u X F IH]; cbn [app pieces]; [exact H|].
  destruct (N.eqb_spec x sep); [contradiction|]. now rewrite IH.
Qed.

Lemma encode_pieces : forall e sep l, scalar sep -> encode1 e sep = [sep] -> Forall scalar l ->
  pieces sep (encode e l) = map (encode e) (pieces sep l).
Proof.
  intros e sep l S1 S2 F. assert (Y : begins e sep).
  { destruct (first_unit e sep S1) as (y & t & E & Y & _). rewrite S2 in E. injection E as -> _. exact Y. }
  induction F as [|c l C F IH]; [reflexivity|].
  unfold encode at 1. cbn [flat_map]. fold (encode e l). cbn [pieces]. destruct (N.eqb_spec c sep) as [->|N].
  - rewrite S2. cbn [app pieces]. rewrite N.eqb_refl. cbn [map]. now rewrite IH.
  - destruct (first_unit e c C) as (x & t & E & X & T).
    assert (O : Forall (fun u => u <> sep) (encode1 e c)).
    { rewrite E. constructor.
      - intros ->. apply N. assert (E' : encode1 e c ++ [] = encode1 e sep ++ t) by (rewrite E, S2, app_nil_r; reflexivity).
        now apply code_point_unique in E' as [-> _].
      - eapply Forall_impl; [|exact T]. cbn beta. intros u U ->. contradiction. }
    destruct (pieces sep l) as [|p ps] eqn:P; [now apply pieces_not_nil in P|].
    rewrite (pieces_front sep _ _ _ _ O IH). reflexivity.
Qed.
