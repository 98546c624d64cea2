(** Lemmas for C169: the program of C166 through anything that is a passage (PassLemmas.v). *)
From Coq Require Import NArith ZArith List Bool Lia ZifyBool ZifyNat ZifyN.
From Verif Require Import Base Integers UnicodeSpec UnicodeModel UnicodeText UnicodeLemmas UnicodeLemmas2 UnicodeLemmas3 ResourceSpec ResourceModel ResourceText
  StreamSpec StreamModel StreamText TextFileSpec TextFileModel TextFileText.
From Verif Require Import ResourceLemmas ResourceLemmas2.
From Verif Require Import StreamLemmas StreamLemmas2 StreamLemmas3 TextFileLemmas TextFileLemmas2 TextFileLemmas3 TextFileLemmas5.
From Verif Require Import RecoverSpec RecoverModel RecoverLemmas RecoverLemmas2 RelaySpec RelayText RelayLemmas EarlySpec EarlyText EarlyLemmas.
From Verif Require Import PassLemmas LateText.
Import ListNotations.
Open Scope Z_scope.

Lemma plain_lf : forall l, Forall (fun c => c <> 13%N) l -> lf_text l = l.
Proof.
  intros l K. rewrite <- (whole_filtered l (no_return l K)).
  induction K as [|c l Hc K IH]; [reflexivity|]. rewrite StreamLemmas3.filtered_other by exact Hc. now rewrite IH.
Qed.

Section Late.
Context {R : Type} (native : byte_order) (cs : bool) (e : encoding) (o : byte_order) (src : source R) (snk : sink R)
  (biggest most total : Z) (holds : list N -> list N -> Z -> R -> Prop) (Pg : passage src snk biggest most total holds)
  (Roomy : Z.of_nat (unit_width e) <= biggest).

(** P was read, U is still to be read, V of it can be read now. *)
Record on_the_way (P U V : list N) (s : R) (inp : text_input R) (out : text_output R) : Prop := {
  ow_holds : holds (text_bytes e o (P ++ U)) (text_bytes e o (P ++ V)) (len (text_bytes e o P)) s;
  ow_part : exists B, U = V ++ B;
  ow_in : in_order_ inp = order_of o /\ in_form inp = form_of e;
  ow_out : out_order out = order_of o /\ out_form out = form_of e }.

Definition fits_well (a : action) : Prop :=
  match a with
  | Enters ps => Forall (fun '(p, k) => in_one_piece native e o p k /\ forall t, entry_text p t -> len (text_bytes e o t) <= most) ps
  | _ => True
  end.

Lemma enters_late : forall ps l P U V s inp out, fits_well (Enters ps) -> entries_text (map fst ps) l -> can_say native e o (Enters ps) ->
  len (text_bytes e o ((P ++ U) ++ l)) < total -> on_the_way P U V s inp out ->
  exists out' x, make_entries (order_of native) cs snk (with_res out s) ps = Ok out' /\
    on_the_way P (U ++ l) (V ++ x) (out_res out') inp out'.
Proof.
  intros ps. induction ps as [|[p k] ps IH]; intros l P U V s inp out Ft Tx C1 L1 H0;
    cbn [map fst] in Tx; inversion Tx as [|? t ? l' T1 T2]; subst.
  - exists (with_res out s), []. rewrite !app_nil_r. split; [reflexivity|]. destruct H0. constructor; assumption.
  - cbn [fits_well can_say] in *. pose proof (Forall_inv Ft) as F1. apply Forall_inv_tail in Ft.
    pose proof (Forall_inv C1) as Cp. apply Forall_inv_tail in C1. cbn beta iota in F1, Cp. destruct F1 as [F1 Sm].
    destruct H0 as [Hp [B Hb] Hi [Oo Of]]. rewrite (app_assoc (P ++ U)) in L1.
    assert (L2 : len (text_bytes e o (P ++ U)) + len (text_bytes e o t) < total).
    { rewrite <- len_app, <- text_bytes_app. rewrite text_bytes_app, len_app in L1. pose proof (len_nonneg (text_bytes e o l')). lia. }
    destruct (pg_put _ _ _ _ _ _ Pg _ _ _ _ (text_bytes e o t) Hp (Sm t T1) L2) as (s1 & k1 & own & E1 & V1 & Cases).
    rewrite <- !text_bytes_app, <- !app_assoc in V1, Cases.
    assert (exists x, on_the_way P (U ++ t) (V ++ x) s1 inp (with_res (with_res out s) s1)) as [x H1].
    { assert (Sub : forall x D, U ++ t = V ++ x ++ D -> own = text_bytes e o (P ++ V ++ x) ->
        on_the_way P (U ++ t) (V ++ x) s1 inp (with_res (with_res out s) s1)).
      { intros x D Ex Ow. constructor; try assumption.
        - now rewrite <- Ow.
        - exists D. rewrite <- app_assoc. exact Ex.
        - split; assumption. }
      destruct Cases as [Cs|[Cs|Cs]].
      - exists []. apply (Sub [] (B ++ t)); [rewrite Hb; now rewrite <- app_assoc|]. rewrite app_nil_r. congruence.
      - exists B. apply (Sub B t); [rewrite Hb; now rewrite <- app_assoc|]. rewrite <- Hb. exact Cs.
      - exists (B ++ t). apply (Sub (B ++ t) []); [rewrite Hb, app_nil_r; now rewrite <- app_assoc|]. rewrite (app_assoc V), <- Hb. exact Cs. }
    assert (E2 : make_entry (order_of native) cs snk (with_res out s) p k = Ok (with_res (with_res out s) s1)).
    { rewrite (one_piece _ _ native cs e o p k t) by assumption. unfold text_write, stream_write. cbn [with_res out_res].
      rewrite E1. reflexivity. }
    destruct (IH l' P (U ++ t) (V ++ x) s1 inp (with_res (with_res out s) s1)) as (out' & y & E3 & H3); try assumption.
    + rewrite <- (app_assoc P U t) in L1. exact L1.
    + exists out', (x ++ y). cbn [make_entries]. rewrite E2. cbn [bind]. split; [exact E3|]. rewrite <- app_assoc in H3. rewrite <- app_assoc in H3. exact H3.
Qed.

(** What the entries of an action leave in the file is whole characters. *)
Definition goes_well (fit : action -> Prop) (ok : N -> Prop) : Prop :=
  forall ps l P U V s inp out, fit (Enters ps) -> entries_text (map fst ps) l -> can_say native e o (Enters ps) ->
  Forall ok (P ++ U ++ l) -> len (text_bytes e o ((P ++ U) ++ l)) < total -> on_the_way P U V s inp out ->
  exists out' x, make_entries (order_of native) cs snk (with_res out s) ps = Ok out' /\
    on_the_way P (U ++ l) (V ++ x) (out_res out') inp out'.

Lemma pieces_go_well : goes_well fits_well (fun _ => True).
Proof. intros ps l P U V s inp out Ft Tx C1 _ L1 H0. exact (enters_late ps l P U V s inp out Ft Tx C1 L1 H0). Qed.

Context (fit : action -> Prop) (ok : N -> Prop) (Well : goes_well fit ok).

Lemma late_runs : forall actions deeds P U V s inp out sure, Forall2 says actions deeds ->
  Forall (can_say native e o) actions -> Forall fit actions ->
  Forall scalar (P ++ U) -> Forall (fun c => c <> 13%N) (P ++ U ++ said deeds) -> Forall ok (P ++ U ++ said deeds) ->
  len (text_bytes e o (P ++ U ++ said deeds)) < total ->
  on_the_way P U V s inp out -> (sure <= length V)%nat ->
  exists s' events P' U' V' inp' out', run_late (order_of native) cs src snk s inp out actions = Ok (s', events) /\
    patient sure U deeds events U' /\ on_the_way P' U' V' s' inp' out' /\ P' ++ U' = P ++ U ++ said deeds.
Proof.
  induction actions as [|a actions IH]; intros deeds P U V s inp out sure T C Ft Sc K Ok L H Su; inversion T as [|? d ? deeds' T1 T2]; subst.
  - exists s, [], P, U, V, inp, out. cbn [said flat_map]. rewrite app_nil_r.
    split; [reflexivity|]. split; [constructor|]. split; [exact H|reflexivity].
  - pose proof (Forall_inv C) as C1. apply Forall_inv_tail in C. pose proof (Forall_inv Ft) as F1. apply Forall_inv_tail in Ft.
    assert (K0 : Forall (fun c => c <> 13%N) (P ++ U)) by (rewrite app_assoc in K; apply Forall_app in K; tauto).
    assert (H0 := H). destruct H as [Hp [B Hb] Hi Hout].
    assert (Ku : Forall (fun c => c <> 13%N) U) by (apply Forall_app in K0; tauto).
    destruct T1 as [ps l Tx| |]; cbn [said flat_map app can_say] in *.
    + fold (said deeds') in *. rewrite (app_assoc U), (app_assoc P) in K, Ok, L |- *.
      assert (L1 : len (text_bytes e o ((P ++ U) ++ l)) < total).
      { rewrite <- app_assoc. rewrite text_bytes_app, len_app in L. pose proof (len_nonneg (text_bytes e o (said deeds'))). lia. }
      assert (Kl : Forall (fun c => c <> 13%N) l) by (apply Forall_app in K; destruct K as [K _]; apply Forall_app in K; destruct K as [_ K]; apply Forall_app in K; tauto).
      assert (Ol : Forall ok (P ++ U ++ l)) by (apply Forall_app in Ok; tauto).
      destruct (Well ps l P U V s inp out F1 Tx C1 Ol L1 H0) as (out1 & x & E & H1).
      rewrite <- (app_assoc P) in K, Ok, L |- *.
      destruct (IH deeds' P (U ++ l) (V ++ x) (out_res out1) inp out1 sure T2 C Ft) as (s' & events & P' & U' & V' & inp' & out' & E' & H' & H2); try assumption.
      * rewrite app_assoc. apply Forall_app. split; [exact Sc|exact (entries_scalar native e o ps l Tx C1)].
      * rewrite app_length. lia.
      * exists s', events, P', U', V', inp', out'. cbn [run_late]. rewrite E. cbn [bind]. split; [exact E'|]. split; [|exact H2]. constructor.
        rewrite (plain_lf l Kl). exact H'.
    + destruct (pg_flush _ _ _ _ _ _ Pg _ _ _ _ Hp) as (s1 & E1 & V1).
      destruct (IH deeds' P U U s1 inp (with_res out s1) (length U) T2 C Ft) as (s' & events & P' & U' & V' & inp' & out' & E' & H' & H2); try assumption; [|lia|].
      * constructor; try assumption. exists []. now rewrite app_nil_r.
      * exists s', events, P', U', V', inp', out'. cbn [run_late]. unfold text_flush. cbn [with_res out_res]. rewrite E1. cbn [bind].
        split; [exact E'|]. split; [now constructor|exact H2].
    + fold (said deeds') in *.
      assert (Wv : whole_lines V) by (apply no_return; rewrite Hb in Ku; apply Forall_app in Ku; tauto).
      assert (Bf : @before R (fun rest r => exists g, holds (text_bytes e o (P ++ U)) (text_bytes e o (P ++ V)) g r /\ rest = drop g (text_bytes e o (P ++ V)))
        e o (text_bytes e o V) (TextInput s (in_order_ inp) (in_form inp))).
      { split; [|exact Hi]. exists (len (text_bytes e o P)). split; [exact Hp|].
        rewrite text_bytes_app. now rewrite drop_app_exact. }
      pose proof (pg_source _ _ _ _ _ _ Pg (text_bytes e o (P ++ U)) (text_bytes e o (P ++ V))) as Gs.
      destruct V as [|v0 V0].
      * destruct (attempt_nothing native _ _ _ Gs e o Roomy _ Bf) as (inp1 & E1 & (g' & V1 & D1) & I1).
        assert (G' : g' = len (text_bytes e o P)).
        { pose proof (pg_at _ _ _ _ _ _ Pg _ _ _ _ V1) as A. apply (f_equal len) in D1. rewrite len_drop in D1 by lia.
          rewrite app_nil_r in *. change (len []) with 0 in D1. lia. }
        subst g'. cbn [length] in Su. assert (sure = 0%nat) by lia. subst sure.
        destruct (IH deeds' P U [] (in_res inp1) inp1 out 0%nat T2 C Ft) as (s' & events & P' & U' & V' & inp' & out' & E' & H' & H2); try assumption.
        -- constructor; try assumption. now exists B.
        -- exists s', (Failed ReadPastEnd :: events), P', U', V', inp', out'. cbn [run_late]. rewrite E1, E'.
           split; [reflexivity|]. split; [now constructor|exact H2].
      * set (V := v0 :: V0) in *.
        assert (Sv : Forall scalar V) by (rewrite Hb in Sc; apply Forall_app in Sc; destruct Sc as [_ Sc]; apply Forall_app in Sc; tauto).
        assert (Kv : Forall (fun c => c <> 13%N) V) by (rewrite Hb in Ku; apply Forall_app in Ku; tauto).
        destruct (attempt_character native _ _ _ Gs e o Roomy V _ Sv Wv ltac:(discriminate) Bf)
          as (inp1 & c & a & b & E1 & ((g' & V1 & D1) & I1) & Ev & Lv).
        assert (Kb : Forall (fun c => c <> 13%N) b) by (rewrite Ev in Kv; apply Forall_app in Kv; tauto).
        rewrite (plain_lf V Kv), (plain_lf b Kb) in Lv.
        assert (Ea : a = [c]). { rewrite Lv in Ev. change (c :: b) with ([c] ++ b) in Ev. symmetry. now apply app_inv_tail in Ev. }
        subst a.
        assert (G' : g' = len (text_bytes e o (P ++ [c]))).
        { pose proof (pg_at _ _ _ _ _ _ Pg _ _ _ _ V1) as A. apply (f_equal len) in D1. rewrite len_drop in D1 by lia.
          rewrite Ev, !text_bytes_app, !len_app in *. lia. }
        subst g'. clearbody V. subst V U. rewrite <- !app_assoc in *.
        assert (X : forall z, P ++ [c] ++ z = (P ++ [c]) ++ z) by (intro z; apply app_assoc).
        rewrite X in Sc, K, Ok, L |- *. rewrite (X (b ++ B)), (X b) in V1.
        destruct (IH deeds' (P ++ [c]) (b ++ B) b (in_res inp1) inp1 out (sure - 1)%nat T2 C Ft)
          as (s' & events & P' & U' & V' & inp' & out' & E' & H' & H2);
          try assumption; try (rewrite <- (app_assoc b); assumption).
        -- constructor; try assumption. now exists B.
        -- cbn [app length] in Su. lia.
        -- exists s', (Got c :: events), P', U', V', inp', out'. cbn [run_late]. rewrite E1, E'. split; [reflexivity|].
           split; [cbn [app]; now constructor|]. rewrite <- (app_assoc b) in H2. exact H2.
Qed.
End Late.
