(** Lemmas for C169: writers without a buffer. *)
From Coq Require Import NArith ZArith List Bool Lia ZifyBool ZifyNat ZifyN.
From Verif Require Import Base Integers UnicodeSpec UnicodeModel UnicodeText UnicodeLemmas UnicodeLemmas2 UnicodeLemmas3 ResourceSpec ResourceModel ResourceText
  StreamSpec StreamModel StreamText FileModel FileText TextFileSpec TextFileModel TextFileText.
From Verif Require Import ResourceLemmas ResourceLemmas2.
From Verif Require Import StreamLemmas StreamLemmas2 StreamLemmas3 TextFileLemmas TextFileLemmas2 TextFileLemmas3 TextFileLemmas5.
From Verif Require Import RecoverSpec RecoverModel RecoverLemmas RecoverLemmas2 FollowText FollowLemmas RelaySpec RelayText RelayLemmas EarlySpec EarlyText EarlyLemmas.
From Verif Require Import PassLemmas PassLemmas2 LateText LateLemmas LateLemmas2.
Import ListNotations.
Open Scope Z_scope.

Lemma unbuffered_file : forall pl rcap q mw mr w own g d, in_file pl 0 rcap q mw mr w own g d -> own = w.
Proof.
  intros pl rcap q mw mr w own g d (F & _). destruct F as [T _ _ _ _]. destruct T as [_ _ _ _ P _ W].
  assert (Z0 : bpos (buf (res (in_world (system d) (first_file d)))) = 0) by lia.
  rewrite Z0, take_0, app_nil_r in W. congruence.
Qed.

Section Prompt.
Context {R : Type} (native : byte_order) (cs : bool) (e : encoding) (o : byte_order) (src : source R) (snk : sink R)
  (biggest most total : Z) (holds : list N -> list N -> Z -> R -> Prop) (Pg : passage src snk biggest most total holds)
  (Roomy : Z.of_nat (unit_width e) <= biggest) (All : forall w own g r, holds w own g r -> own = w).

Definition small_action (a : action) : Prop :=
  match a with Enters ps => Forall (fun '(p, k) => forall t, entry_text p t -> len (text_bytes e o t) <= most) ps | _ => True end.

Lemma late_at_once : forall actions deeds P U s inp out, Forall2 says actions deeds ->
  Forall (can_say native e o) actions -> Forall small_action actions -> Forall whole_deed deeds ->
  Forall scalar (P ++ U) -> whole_lines (P ++ U) ->
  len (text_bytes e o (P ++ U ++ said deeds)) < total ->
  on_the_way e o holds P U U s inp out ->
  exists s' events rest g, run_late (order_of native) cs src snk s inp out actions = Ok (s', events) /\
    patient (length (lf_text U)) (lf_text U) (at_once deeds) events rest /\
    holds (text_bytes e o (P ++ U ++ said deeds)) (text_bytes e o (P ++ U ++ said deeds)) g s'.
Proof.
  induction actions as [|a actions IH]; intros deeds P U s inp out T C Sm Wd Sc W L H; inversion T as [|? d ? deeds' T1 T2]; subst.
  - destruct H as [Hp _ _ _]. exists s, [], (lf_text U), (len (text_bytes e o P)). cbn [said flat_map]. rewrite app_nil_r.
    split; [reflexivity|]. split; [constructor|exact Hp].
  - pose proof (Forall_inv C) as C1. apply Forall_inv_tail in C. pose proof (Forall_inv Wd) as W1. apply Forall_inv_tail in Wd.
    pose proof (Forall_inv Sm) as S1. apply Forall_inv_tail in Sm.
    assert (Wu : whole_lines U) by exact (whole_suffix _ _ W).
    destruct H as [Hp _ Hi Hout].
    destruct T1 as [ps l Tx| |]; cbn [said flat_map app can_say whole_deed] in *.
    + fold (said deeds') in *. rewrite (app_assoc U), (app_assoc P) in L.
      assert (L1 : len (text_bytes e o (P ++ U) ++ text_bytes e o l) < total).
      { rewrite <- text_bytes_app, <- app_assoc. rewrite text_bytes_app, len_app in L.
        pose proof (len_nonneg (text_bytes e o (said deeds'))). lia. }
      destruct (entries_ok native cs src snk _ _ _ _ (widening_pipeline _ _ _ _ _ _ _ [] Pg) e o
        (len (text_bytes e o P)) ps l (text_bytes e o (P ++ U)) (with_res out s) Tx) as (out' & E & (own & Hp' & _ & _ & _) & Hoo); [| |exact L1|].
      { cbn [small_action] in S1. rewrite Forall_forall in *. intros [p k] X. split; [exact (C1 _ X)|]. right. exact (S1 _ X). }
      { split; [|exact Hout]. exists (text_bytes e o (P ++ U)). split; [exact Hp|]. split; [reflexivity|].
        split; [exists []; now rewrite app_nil_r|]. now exists (text_bytes e o (P ++ U)). }
      rewrite (All _ _ _ _ Hp') in Hp'. rewrite <- text_bytes_app, <- app_assoc in Hp'.
      assert (W2 : whole_lines (P ++ U ++ l)) by (rewrite app_assoc; exact (whole_app _ _ W W1)).
      destruct (IH deeds' P (U ++ l) (out_res out') inp out' T2 C Sm Wd) as (s' & events & rest & g & E' & H' & Hh); try assumption.
      * rewrite app_assoc. apply Forall_app. split; [exact Sc|exact (entries_scalar native e o ps l Tx C1)].
      * rewrite app_assoc. exact L.
      * constructor; try assumption. exists []. now rewrite app_nil_r.
      * exists s', events, rest, g. cbn [run_late]. rewrite E. cbn [bind]. split; [exact E'|].
        rewrite <- (app_assoc U) in Hh. split; [|exact Hh].
        cbn [at_once flat_map app]. constructor. constructor. rewrite <- (lf_app _ _ Wu W1). exact H'.
    + destruct (pg_flush _ _ _ _ _ _ Pg _ _ _ _ Hp) as (s1 & E1 & V1).
      destruct (IH deeds' P U s1 inp (with_res out s1) T2 C Sm Wd Sc W L) as (s' & events & rest & g & E' & H' & Hh).
      { constructor; try assumption. exists []. now rewrite app_nil_r. }
      exists s', events, rest, g. cbn [run_late]. unfold text_flush. cbn [with_res out_res]. rewrite E1. cbn [bind].
      split; [exact E'|]. split; [|exact Hh]. cbn [at_once flat_map app]. now constructor.
    + fold (said deeds') in *.
      assert (Bf : @before R (fun rest r => exists g, holds (text_bytes e o (P ++ U)) (text_bytes e o (P ++ U)) g r /\ rest = drop g (text_bytes e o (P ++ U)))
        e o (text_bytes e o U) (TextInput s (in_order_ inp) (in_form inp))).
      { split; [|exact Hi]. exists (len (text_bytes e o P)). split; [exact Hp|].
        rewrite text_bytes_app. now rewrite drop_app_exact. }
      pose proof (pg_source _ _ _ _ _ _ Pg (text_bytes e o (P ++ U)) (text_bytes e o (P ++ U))) as Gs.
      destruct U as [|u0 U0].
      * destruct (attempt_nothing native _ _ _ Gs e o Roomy _ Bf) as (inp' & E1 & (g' & V1 & D1) & I1).
        assert (G' : g' = len (text_bytes e o P)).
        { pose proof (pg_at _ _ _ _ _ _ Pg _ _ _ _ V1) as A. apply (f_equal len) in D1. rewrite len_drop in D1 by lia.
          rewrite app_nil_r in *. change (len []) with 0 in D1. lia. }
        subst g'.
        destruct (IH deeds' P [] (in_res inp') inp' out T2 C Sm Wd Sc W L) as (s' & events & rest & g & E' & H' & Hh).
        -- constructor; try assumption. now exists [].
        -- exists s', (Failed ReadPastEnd :: events), rest, g. cbn [run_late]. rewrite E1, E'. split; [reflexivity|]. split; [|exact Hh].
           cbn [at_once flat_map app]. exact (PatientFails _ _ _ _ H').
      * set (U := u0 :: U0) in *.
        assert (Sv : Forall scalar U) by (apply Forall_app in Sc; tauto).
        destruct (attempt_character native _ _ _ Gs e o Roomy U _ Sv Wu ltac:(discriminate) Bf)
          as (inp' & c & a & b & E1 & ((g' & V1 & D1) & I1) & Ev & Lv).
        assert (G' : g' = len (text_bytes e o (P ++ a))).
        { pose proof (pg_at _ _ _ _ _ _ Pg _ _ _ _ V1) as A. apply (f_equal len) in D1. rewrite len_drop in D1 by lia.
          rewrite Ev, !text_bytes_app, !len_app in *. lia. }
        subst g'. clearbody U. subst U. rewrite <- !app_assoc in *.
        assert (X : forall z, P ++ a ++ z = (P ++ a) ++ z) by (intro z; apply app_assoc).
        rewrite X in W, Sc, L, V1 |- *.
        destruct (IH deeds' (P ++ a) b (in_res inp') inp' out T2 C Sm Wd) as (s' & events & rest & g & E' & H' & Hh); try assumption.
        -- constructor; try assumption. exists []. now rewrite app_nil_r.
        -- exists s', (Got c :: events), rest, g. cbn [run_late]. rewrite E1, E'. split; [reflexivity|]. split; [|exact Hh].
           rewrite Lv. cbn [at_once flat_map app length]. constructor. now replace (S (length (lf_text b)) - 1)%nat with (length (lf_text b)) by lia.
Qed.
End Prompt.
