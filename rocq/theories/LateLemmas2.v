(** Lemmas for C169: ASCII text. *)
From Coq Require Import NArith ZArith List Bool Lia ZifyBool ZifyNat ZifyN.
From Verif Require Import Base Integers UnicodeSpec UnicodeModel UnicodeText UnicodeLemmas UnicodeLemmas2 UnicodeLemmas3 ResourceSpec ResourceModel ResourceText
  StreamSpec StreamModel StreamText TextFileSpec TextFileModel TextFileText.
From Verif Require Import ResourceLemmas ResourceLemmas2.
From Verif Require Import StreamLemmas StreamLemmas2 StreamLemmas3 TextFileLemmas TextFileLemmas2 TextFileLemmas3 TextFileLemmas5.
From Verif Require Import RecoverSpec RecoverModel RecoverLemmas RecoverLemmas2 RelaySpec RelayText RelayLemmas EarlySpec EarlyText EarlyLemmas.
From Verif Require Import PassLemmas LateText LateLemmas.
Import ListNotations.
Open Scope Z_scope.

(** What can be read is the beginning of what was written, and begins with first. *)
Definition widening {R : Type} (holds : list N -> list N -> Z -> R -> Prop) (first : list N) (w : list N) (g : Z) (full : bool) (r : R)
  : Prop :=
  exists own, holds w own g r /\ (full = true -> own = w) /\ (exists x, w = own ++ x) /\ (exists y, own = first ++ y).

Lemma widening_pipeline : forall (R : Type) (src : source R) (snk : sink R) biggest most total holds first,
  passage src snk biggest most total holds -> pipeline src snk biggest most total (widening holds first).
Proof.
  intros R src snk biggest most total holds first Pg. split.
  - intros w g full r d (own & H & _ & (x & Hx) & (y & Hy)) B L. rewrite len_app in L.
    destruct (pg_put _ _ _ _ _ _ Pg _ _ _ _ d H B L) as (r' & k & own' & E & H' & C).
    exists r', k. split; [exact E|]. exists own'. split; [exact H'|]. split; [discriminate|].
    destruct C as [-> |[-> | ->]].
    + split; [exists (x ++ d); rewrite Hx; now rewrite <- app_assoc|now exists y].
    + split; [now exists d|]. exists (y ++ x). rewrite Hx, Hy. now rewrite <- app_assoc.
    + split; [exists []; now rewrite app_nil_r|]. exists (y ++ x ++ d). rewrite Hx, Hy. now rewrite <- !app_assoc.
  - intros w g full r (own & H & _ & (x & Hx) & (y & Hy)). destruct (pg_flush _ _ _ _ _ _ Pg _ _ _ _ H) as (r' & E & H').
    exists r'. split; [exact E|]. exists w. split; [exact H'|]. split; [auto|]. split; [exists []; now rewrite app_nil_r|].
    exists (y ++ x). rewrite Hx, Hy. now rewrite <- app_assoc.
  - intros w g r (own & H & _ & Hr). exists own. split; [exact H|]. split; [discriminate|exact Hr].
  - intros w g full r (own & H & _ & (x & ->) & _). pose proof (pg_at _ _ _ _ _ _ Pg _ _ _ _ H). rewrite len_app.
    pose proof (len_nonneg x). lia.
  - intro w. destruct (list_eq_dec N.eq_dec w (first ++ drop (len first) w)) as [Hw|Hw].
    + apply (same_source _ _ _ _ _ (pg_source _ _ _ _ _ _ Pg w w)). intros rest r. split.
      * intros (g & H & E). exists g. split; [|exact E]. exists w. split; [exact H|]. split; [auto|].
        split; [exists []; now rewrite app_nil_r|now exists (drop (len first) w)].
      * intros (g & (own & H & O & _) & E). rewrite (O eq_refl) in H. now exists g.
    + assert (No : forall g r, ~ widening holds first w g true r).
      { intros g r (own & _ & O & _ & (y & Hy)). rewrite (O eq_refl) in Hy. apply Hw. rewrite Hy. now rewrite drop_app_exact. }
      split.
      * intros rest r block m (g & H & _). destruct (No g r H).
      * intros rest r (g & H & _). destruct (No g r H).
Qed.

Section Ascii.
Context {R : Type} (native : byte_order) (cs : bool) (o : byte_order) (src : source R) (snk : sink R)
  (biggest most total : Z) (holds : list N -> list N -> Z -> R -> Prop) (Pg : passage src snk biggest most total holds).

Definition small_entries (a : action) : Prop :=
  match a with Enters ps => Forall (fun '(p, k) => forall t, entry_text p t -> len (text_bytes UTF8 o t) <= most) ps | _ => True end.

Lemma ascii_goes_well : goes_well native cs UTF8 o snk total holds small_entries (fun c => (c < 128)%N).
Proof.
  intros ps l P U V s inp out Ft Tx C1 K1 L1 [Hp [B Hb] Hi Hout]. rewrite text_bytes_app in L1.
  destruct (entries_ok native cs src snk _ _ _ _ (widening_pipeline _ _ _ _ _ _ _ (text_bytes UTF8 o (P ++ V)) Pg) UTF8 o
    (len (text_bytes UTF8 o P)) ps l (text_bytes UTF8 o (P ++ U)) (with_res out s) Tx)
    as (out' & E & (own & Hp' & _ & (x & Hx) & (y & Hy)) & Hoo); [| |exact L1|].
  { cbn [can_say small_entries] in *. rewrite Forall_forall in *. intros [p k] X. split; [exact (C1 _ X)|]. right. exact (Ft _ X). }
  { split; [|exact Hout]. exists (text_bytes UTF8 o (P ++ V)). split; [exact Hp|]. split; [discriminate|].
    split; [exists (text_bytes UTF8 o B); rewrite Hb, <- text_bytes_app; now rewrite <- app_assoc|].
    exists []. now rewrite app_nil_r. }
  rewrite <- text_bytes_app, <- app_assoc in Hp', Hx.
  rewrite (ascii_bytes o _ K1) in Hx.
  assert (Kp : Forall (fun c => c < 128)%N (P ++ V)).
  { rewrite Hb, <- !app_assoc, (app_assoc P) in K1. apply Forall_app in K1. tauto. }
  rewrite (ascii_bytes o _ Kp) in Hy. rewrite Hx in K1. apply Forall_app in K1. destruct K1 as [Ko Kx].
  exists out', y. split; [exact E|]. constructor; [|exists x|exact Hi|exact Hoo].
  - replace (text_bytes UTF8 o (P ++ V ++ y)) with own; [exact Hp'|]. rewrite app_assoc, <- Hy. symmetry. exact (ascii_bytes o _ Ko).
  - rewrite Hy, <- !app_assoc in Hx. apply app_inv_head in Hx. rewrite <- app_assoc. exact Hx.
Qed.
End Ascii.
