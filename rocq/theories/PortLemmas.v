(** The two implementations of files do the same: lemmas. *)
From Coq Require Import NArith ZArith List Bool Lia.
From Coq Require Import ZifyBool ZifyNat.
From Verif Require Import Base Integers ResourceSpec ResourceModel ResourceText FileSpec FileModel FileText FileLemmas FileLemmas4.
Import ListNotations.
Open Scope Z_scope.

(* ------------------------------------------------------------------- blocks *)

Lemma blit_size : forall m off d m', blit m off d = Ok m' ->
  size_of m' = size_of m /\ 0 <= off /\ off + size_of d <= size_of m.
Proof.
  intros m off d m' H. unfold blit in H. destruct ((0 <=? off) && (off + size_of d <=? size_of m)) eqn:B; [|discriminate].
  injection H as <-. unfold size_of in *. rewrite !app_length, firstn_length, skipn_length. lia.
Qed.

Lemma blit_nothing : forall m off, 0 <= off <= size_of m -> blit m off [] = Ok m.
Proof.
  intros m off H. unfold blit. change (size_of []) with 0. rewrite !Z.add_0_r.
  replace ((0 <=? off) && (off <=? size_of m)) with true by lia. cbn [app]. now rewrite firstn_skipn.
Qed.

Lemma slice_size : forall m off n d, slice m off n = Ok d -> size_of d = n /\ 0 <= off /\ 0 <= n /\ off + n <= size_of m.
Proof.
  intros m off n d H. unfold slice in H. destruct ((0 <=? off) && (0 <=? n) && (off + n <=? size_of m)) eqn:B; [|discriminate].
  injection H as <-. unfold size_of in *. rewrite firstn_length, skipn_length. lia.
Qed.

Lemma buffer_read_size : forall b dst off n b' dst' k, buffer_read b dst off n = Ok (b', dst', k) ->
  size_of dst' = size_of dst /\ (capacity b' = capacity b /\ filled b' = filled b) /\ 0 <= off /\ 0 <= k /\ off + k <= size_of dst /\
  k = (if filled b <? bpos b + n then as_size (n - (bpos b + n - filled b)) else n) /\ bpos b + k <= capacity b /\ 0 <= bpos b.
Proof.
  intros b dst off n b' dst' k H. unfold buffer_read in H. cbv zeta in H.
  set (m := if filled b <? bpos b + n then as_size (n - (bpos b + n - filled b)) else n) in *.
  unfold memcpy in H. destruct (slice (mem b) (bpos b) m) as [d| | | |] eqn:X; cbn [bind] in H; try discriminate.
  destruct (blit dst off d) as [d1| | | |] eqn:Y; cbn [bind] in H; try discriminate. injection H as <- <- <-.
  apply blit_size in Y. apply slice_size in X. unfold capacity. cbn [mem filled]. lia.
Qed.

Lemma buffer_write_size : forall b d b', buffer_write b d = Ok b' -> capacity b' = capacity b /\ filled b' = filled b.
Proof.
  intros b d b' H. unfold buffer_write in H. destruct (blit (mem b) (bpos b) d) as [m| | | |] eqn:X; cbn [bind] in H; try discriminate.
  injection H as <-. apply blit_size in X. unfold capacity. cbn [set_write_dirty mem filled]. tauto.
Qed.

(* ---------------------------------- resources whose raw operations do the same *)

Section Same.
Context {S : Type} (A B : raw S) (Good : S -> Prop) (M : Z).
Hypothesis same_read : forall s dst off n rr, Good s -> 0 <= off <= size_of dst -> n <= M ->
  raw_read A s dst off n rr = raw_read B s dst off n rr.
Hypothesis good_read : forall s dst off n rr s' dst' k, Good s -> raw_read A s dst off n rr = Ok (s', dst', k) ->
  Good s' /\ size_of dst' = size_of dst /\ 0 <= k.
Hypothesis bounded : M < 2 ^ 64.
Hypothesis same_write : forall s d, Good s -> size_of d <= M -> raw_write A s d = raw_write B s d.
Hypothesis good_write : forall s d s' k, Good s -> raw_write A s d = Ok (s', k) -> Good s'.

Definition fit (r : resource S) : Prop := Good (inner r) /\ capacity (buf r) <= M /\ 0 <= filled (buf r).

Lemma fill_same : forall r, fit r -> fill A r = fill B r.
Proof.
  intros r (G & C & Z). unfold fill. rewrite same_read; [reflexivity|assumption|unfold size_of; lia|assumption].
Qed.

Lemma fill_fit : forall r r' k, fit r -> fill A r = Ok (r', k) -> fit r'.
Proof.
  intros r r' k (G & C & Z) H. unfold fill in H.
  destruct (raw_read A (inner r) (mem (buf r)) 0 (capacity (buf r)) FillBuffer) as [[[s1 m1] n1]| | | |] eqn:E; cbn [bind] in H; try discriminate.
  injection H as <- _. apply good_read in E; [|assumption]. destruct E as (E1 & E2 & E3). split; [exact E1|].
  unfold capacity in *. cbn [buf mem filled]. lia.
Qed.

Lemma bind_same : forall (X Y : Type) (a b : outcome X) (f g : X -> outcome Y), a = b ->
  (forall x, a = Ok x -> f x = g x) -> bind a f = bind b g.
Proof. intros X Y a b f g <- H. destruct a; cbn [bind]; auto. Qed.

Lemma read_same : forall r dst n, fit r -> 0 <= n <= M -> read A r dst n = read B r dst n.
Proof.
  intros r dst n F L. unfold read. destruct (0 <? capacity (buf r)).
  2:{ destruct F as (G & C & Z). rewrite same_read; [reflexivity|assumption|unfold size_of; lia|lia]. }
  unfold read_buffered. apply bind_same.
  { destruct (read_dirty (buf r)); [now rewrite fill_same|reflexivity]. }
  intros r1 E1. assert (F1 : fit r1).
  { destruct (read_dirty (buf r)); [|now injection E1 as <-].
    destruct (fill A r) as [[r2 k2]| | | |] eqn:E; cbn [bind] in E1; try discriminate. injection E1 as <-.
    now apply fill_fit in E. }
  clear E1 F r. pose proof F1 as (_ & _ & Z1). destruct (filled (buf r1) <? bpos (buf r1) + n) eqn:Q; [|reflexivity].
  apply bind_same; [reflexivity|]. intros [[[r2 d2] k2] n2] E2.
  assert (T : fit r2 /\ 0 <= k2 <= size_of d2 /\ n2 <= M).
  { destruct (0 <? as_size (filled (buf r1) - bpos (buf r1))) eqn:P.
    - destruct (buffer_read (buf r1) dst 0 (as_size (filled (buf r1) - bpos (buf r1)))) as [[[b1 d1] k1]| | | |] eqn:E; cbn [bind] in E2; try discriminate.
      injection E2 as <- <- <- <-. apply buffer_read_size in E. destruct E as (E3 & E4 & _ & E5 & E6 & E7 & E8 & E9). destruct F1 as (G & C & Z).
      split; [split; [exact G|cbn [buf]; lia]|]. split; [lia|]. revert P Q E7. unfold as_size.
      repeat match goal with |- context [if ?b then _ else _] => destruct b eqn:? end; lia.
    - injection E2 as <- <- <- <-. split; [assumption|]. unfold size_of. lia. }
  clear E2. destruct T as (F2 & K2 & N2). destruct (capacity (buf r2) <? n2).
  - apply bind_same; [|reflexivity]. apply same_read; [apply F2|assumption|assumption].
  - now rewrite fill_same.
Qed.

Lemma read_fit : forall r dst n r' dst' k, fit r -> read A r dst n = Ok (r', dst', k) -> fit r'.
Proof.
  intros r dst n r' dst' k F H. unfold read in H. destruct (0 <? capacity (buf r)).
  2:{ destruct (raw_read A (inner r) dst 0 n LeanRetrieval) as [[[s1 d1] k1]| | | |] eqn:E; cbn [bind] in H; try discriminate.
      injection H as <- _ _. destruct F as (G & C & Z). apply good_read in E; [|assumption]. split; [apply E|now split]. }
  unfold read_buffered in H.
  match type of H with bind ?x _ = _ => assert (T : forall r1, x = Ok r1 -> fit r1); [|destruct x as [r1| | | |]; cbn [bind] in H; try discriminate] end.
  { intros r1 E1. destruct (read_dirty (buf r)); [|now injection E1 as <-].
    destruct (fill A r) as [[r2 k2]| | | |] eqn:E; cbn [bind] in E1; try discriminate. injection E1 as <-.
    now apply fill_fit in E. }
  specialize (T r1 eq_refl). clear F r. destruct (filled (buf r1) <? bpos (buf r1) + n).
  - match type of H with bind ?x _ = _ => assert (T1 : forall r2 a b c, x = Ok (r2, a, b, c) -> fit r2); [|destruct x as [[[[r2 a] b] c]| | | |]; cbn [bind] in H; try discriminate] end.
    { intros r2 a b c. match goal with |- (if ?x then _ else _) = _ -> _ => destruct x end; [|intro X; now injection X as <- _ _ _].
      match goal with |- bind ?x _ = _ -> _ => destruct x as [[[b1 d1] k1]| | | |] eqn:E end; cbn [bind]; try discriminate.
      intro X. injection X as <- _ _ _. apply buffer_read_size in E. destruct T as (G & C & Z). split; [exact G|]. cbn [buf]. lia. }
    specialize (T1 r2 a b c eq_refl). destruct (capacity (buf r2) <? c).
    + destruct (raw_read A (inner r2) a b c LeanRetrieval) as [[[s1 d1] k1]| | | |] eqn:E; cbn [bind] in H; try discriminate.
      injection H as <- _ _. destruct T1 as (G & C & Z). apply good_read in E; [|assumption]. split; [apply E|now split].
    + destruct (fill A r2) as [[r3 k3]| | | |] eqn:E; cbn [bind] in H; try discriminate. apply fill_fit in E; [|assumption].
      match type of H with bind ?x _ = _ => destruct x as [[[b1 d1] k1]| | | |] eqn:X end; cbn [bind] in H; try discriminate.
      injection H as <- _ _. apply buffer_read_size in X. destruct E as (G & C & Z). split; [exact G|]. cbn [buf]. lia.
  - destruct (buffer_read (buf r1) dst 0 n) as [[[b1 d1] k1]| | | |] eqn:X; cbn [bind] in H; try discriminate.
    injection H as <- _ _. apply buffer_read_size in X. destruct T as (G & C & Z). split; [exact G|]. cbn [buf]. lia.
Qed.

Lemma flush_same : forall r, fit r -> flush A r = flush B r.
Proof.
  intros r (G & C & Z). unfold flush. destruct (write_dirty (buf r)); [|reflexivity]. apply bind_same; [reflexivity|].
  intros d E. apply slice_size in E. rewrite same_write; [reflexivity|assumption|]. unfold capacity in C. lia.
Qed.

Lemma flush_fit : forall r r', fit r -> flush A r = Ok r' -> fit r'.
Proof.
  intros r r' (G & C & Z) H. unfold flush in H. destruct (write_dirty (buf r)); [|injection H as <-; now split].
  destruct (slice (mem (buf r)) 0 (bpos (buf r))) as [d| | | |]; cbn [bind] in H; try discriminate.
  destruct (raw_write A (inner r) d) as [[s1 k1]| | | |] eqn:E; cbn [bind] in H; try discriminate.
  injection H as <-. apply good_write in E; [|assumption]. split; [exact E|now split].
Qed.

Lemma write_same : forall r d, fit r -> size_of d <= M -> write A r d = write B r d.
Proof.
  intros r d F L. unfold write. destruct (0 <? capacity (buf r)).
  2:{ destruct F as (G & C & Z). now rewrite same_write. }
  unfold write_buffered. cbv zeta. apply bind_same.
  { destruct (capacity (buf r) <? bpos (buf r) + size_of d); [now apply flush_same|reflexivity]. }
  intros r1 E1. assert (F1 : fit r1).
  { destruct (capacity (buf r) <? bpos (buf r) + size_of d); [|now injection E1 as <-]. now apply flush_fit in E1. }
  match goal with |- (if ?b then _ else _) = _ => destruct b end; [|reflexivity].
  destruct F1 as (G & C & Z). now rewrite same_write.
Qed.

Lemma write_fit : forall r d r' k, fit r -> write A r d = Ok (r', k) -> fit r'.
Proof.
  intros r d r' k F H. unfold write in H. destruct (0 <? capacity (buf r)).
  2:{ destruct (raw_write A (inner r) d) as [[s1 k1]| | | |] eqn:E; cbn [bind] in H; try discriminate.
      injection H as <- _. destruct F as (G & C & Z). apply good_write in E; [|assumption]. split; [apply E|now split]. }
  unfold write_buffered in H. cbv zeta in H.
  match type of H with bind ?x _ = _ => assert (T : forall r1, x = Ok r1 -> fit r1); [|destruct x as [r1| | | |]; cbn [bind] in H; try discriminate] end.
  { intros r1. match goal with |- (if ?x then _ else _) = _ -> _ => destruct x end; [now apply flush_fit|]. intro X. now injection X as <-. }
  specialize (T r1 eq_refl). destruct T as (G & C & Z).
  match type of H with (if ?x then _ else _) = _ => destruct x end.
  - destruct (raw_write A (inner r1) d) as [[s1 k1]| | | |] eqn:E; cbn [bind] in H; try discriminate.
    injection H as <- _. apply good_write in E; [|assumption]. split; [apply E|now split].
  - destruct (buffer_write (buf r1) d) as [b1| | | |] eqn:E; cbn [bind] in H; try discriminate.
    injection H as <- _. apply buffer_write_size in E. split; [exact G|]. cbn [buf]. lia.
Qed.
End Same.
