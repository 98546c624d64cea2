(** Lemmas for C149. *)
From Coq Require Import NArith ZArith List Bool Lia.
From Coq Require Import ZifyBool ZifyNat ZifyN.
From Verif Require Import Base Integers ResourceSpec ResourceModel ResourceText FileSpec FileModel FileText.
From Verif Require Import ResourceLemmas ResourceLemmas2 FileLemmas FileLemmas2 FileLemmas3 FileLemmas4 FileLemmas5 FileLemmas6.
From Verif Require Import ThriftSpec ThriftText.
Import ListNotations.
Open Scope Z_scope.

Lemma used_same : forall w, used w w = 0.
Proof. intros. unfold used. lia. Qed.

Lemma used_trans : forall a b c, used a c = used a b + used b c.
Proof. intros. unfold used. lia. Qed.

Lemma used_set : forall w w' n h, used w (set_handle w' n h) = used w w'.
Proof. reflexivity. Qed.

Lemma used_content : forall w w' n h, used w (set_content w' n h) = used w w'.
Proof. reflexivity. Qed.

Lemma respond_used : forall w r w', respond w = (r, w') -> 0 <= used w w' <= 1.
Proof.
  intros w r w' H. unfold respond in H. destruct (script w) as [|x l] eqn:E; injection H as <- <-.
  - rewrite used_same. lia.
  - unfold used. rewrite E. cbn [script length]. lia.
Qed.

(* ---------------------------------------------------------------------- writes *)

Lemma sys_write_used : forall w fd d w' r, sys_write w fd d = (w', r) -> 0 <= used w w' <= 1.
Proof.
  intros w fd d w' r H. unfold sys_write in H. destruct (lookup w fd) as [[n h]|]; [|injection H as <- <-; rewrite used_same; lia].
  destruct (writable h); [|injection H as <- <-; rewrite used_same; lia].
  destruct (respond w) as [a w1] eqn:E. assert (U := respond_used _ _ _ E).
  destruct a; injection H as <- <-; rewrite ?used_set, ?used_content; exact U.
Qed.

Lemma raw_write_used : forall pl s d s' k, len d <= chunk_max pl -> file_write_raw pl s d = Ok (s', k) ->
  0 <= used (os s) (os s') <= (if 0 <? len d then 1 else 0).
Proof.
  intros pl s d s' k L H. unfold file_write_raw in H. change size_of with len in H. pose proof (len_nonneg d).
  destruct (write_blocks pl (chunk_count pl (len d)) (os s) (descriptor s) d (len d) 0) as [[w t]| | | |] eqn:E; cbn [bind] in H; try discriminate.
  injection H as <- <-. cbn [os]. destruct (chunk_count_pos pl (len d) ltac:(lia)) as [f F]. rewrite F in E. cbn [write_blocks] in E.
  destruct (len d <=? 0) eqn:Z.
  - injection E as <- <-. rewrite used_same. destruct (0 <? len d); lia.
  - replace (0 <? len d) with true by lia. rewrite Z.min_l in E by lia.
    destruct (sys_write (os s) (descriptor s) (firstn (Z.to_nat (len d)) d)) as [w1 r] eqn:W. assert (U := sys_write_used _ _ _ _ _ W).
    destruct ((match r with Some k => k | None => 0 end) =? len d).
    + destruct f; cbn [write_blocks] in E; replace (len d - len d <=? 0) with true in E by lia; injection E as <- <-; exact U.
    + injection E as <- <-. exact U.
Qed.

(** The state of a buffer used for output. *)
Definition holding (cap : Z) (r : resource sys) : Prop :=
  capacity (buf r) = cap /\ 0 <= bpos (buf r) <= cap /\ (write_dirty (buf r) = false -> bpos (buf r) = 0).

Definition waits (r : resource sys) : Z := if 0 <? bpos (buf r) then 1 else 0.

Lemma flush_used : forall pl cap r r', holding cap r -> cap <= chunk_max pl -> flush (file_ops pl) r = Ok r' ->
  holding cap r' /\ bpos (buf r') = 0 /\ 0 <= used (os (inner r)) (os (inner r')) <= waits r.
Proof.
  intros pl cap r r' (K & B & Cl) M H. unfold flush in H. unfold waits. destruct (write_dirty (buf r)) eqn:D.
  - assert (LM : len (mem (buf r)) = cap) by (rewrite <- K; reflexivity). rewrite slice_ok in H by lia. cbn [bind] in H. rewrite drop_0 in H.
    unfold file_ops in H. cbn [raw_write] in H.
    destruct (file_write_raw pl (inner r) (take (bpos (buf r)) (mem (buf r)))) as [[s k]| | | |] eqn:E; cbn [bind] in H; try discriminate.
    injection H as <-. assert (LT : len (take (bpos (buf r)) (mem (buf r))) = bpos (buf r)) by (rewrite len_take by lia; lia).
    assert (LC : len (take (bpos (buf r)) (mem (buf r))) <= chunk_max pl) by lia.
    assert (U := raw_write_used _ _ _ _ _ LC E). rewrite LT in U. cbn [inner buf].
    split; [|split; [reflexivity|exact U]]. repeat split; cbn [buf set_write_dirty bpos]; try lia. exact K.
  - injection H as <-. rewrite (Cl eq_refl) in *. rewrite used_same. split; [|split; [reflexivity|destruct (0 <? 0); lia]].
    split; [exact K|]. split; [lia|]. intros _. exact (Cl eq_refl).
Qed.

Lemma write_used : forall pl cap r d r' k, holding cap r -> cap <= chunk_max pl -> len d <= chunk_max pl ->
  write (file_ops pl) r d = Ok (r', k) ->
  holding cap r' /\
  used (os (inner r)) (os (inner r')) + waits r' <= waits r + (if 0 <? len d then 1 else 0) /\
  used (os (inner r)) (os (inner r')) * cap + bpos (buf r') <= 2 * len d + bpos (buf r) /\
  0 <= used (os (inner r)) (os (inner r')).
Proof.
  intros pl cap r d r' k Ho M L H. assert (Ho' := Ho). destruct Ho' as (K & B & Cl). pose proof (len_nonneg d).
  unfold write in H. rewrite K in H. destruct (0 <? cap) eqn:Z.
  - unfold write_buffered in H. change size_of with len in H. rewrite K in H.
    destruct (cap <? bpos (buf r) + len d) eqn:Full; cbn [andb] in H.
    + destruct (flush (file_ops pl) r) as [r1| | | |] eqn:F; cbn [bind] in H; try discriminate.
      destruct (flush_used _ _ _ _ Ho M F) as (H1 & P1 & U1). assert (H1' := H1). destruct H1' as (K1 & B1 & Cl1).
      assert (LM : len (mem (buf r1)) = cap) by (rewrite <- K1; reflexivity).
      assert (0 < len d) by lia. replace (0 <? len d) with true by lia. unfold waits in *.
      destruct (cap <? len d) eqn:Big.
      * unfold file_ops in H. cbn [raw_write] in H. destruct (file_write_raw pl (inner r1) d) as [[s j]| | | |] eqn:E; cbn [bind] in H; try discriminate.
        injection H as <- <-. cbn [inner buf]. assert (U := raw_write_used _ _ _ _ _ L E). replace (0 <? len d) with true in U by lia.
        rewrite (used_trans _ (os (inner r1))). rewrite P1. split; [exact H1|]. change (0 <? 0) with false. cbn iota.
        destruct (0 <? bpos (buf r)) eqn:Pb; (split; [lia|]); (split; [|lia]); nia.
      * unfold buffer_write in H. rewrite blit_ok in H by lia. cbn [bind] in H. injection H as <- <-. cbn [inner buf set_write_dirty bpos].
        change size_of with len. rewrite P1, Z.add_0_l. replace (0 <? len d) with true by lia.
        split.
        { split; [|split; [cbn [buf set_write_dirty bpos]; change size_of with len; lia|discriminate]].
          unfold capacity. cbn [buf set_write_dirty mem]. change size_of with len. rewrite len_overwrite by lia. lia. }
        destruct (0 <? bpos (buf r)) eqn:Pb; (split; [lia|]); (split; [|lia]); nia.
    + assert (LM : len (mem (buf r)) = cap) by (rewrite <- K; reflexivity).
      cbn [bind] in H. unfold buffer_write in H. rewrite blit_ok in H by lia. cbn [bind] in H. injection H as <- <-. cbn [inner buf set_write_dirty bpos].
      change size_of with len. unfold waits. cbn [buf set_write_dirty bpos]. rewrite used_same. split.
      { split; [|split; [cbn [buf set_write_dirty bpos]; change size_of with len; lia|discriminate]].
        unfold capacity. cbn [buf set_write_dirty mem]. change size_of with len. rewrite len_overwrite by lia. lia. }
      split; [|lia]. destruct (0 <? bpos (buf r) + len d) eqn:P1, (0 <? bpos (buf r)) eqn:P2, (0 <? len d) eqn:P3; lia.
  - unfold file_ops in H. cbn [raw_write] in H. destruct (file_write_raw pl (inner r) d) as [[s j]| | | |] eqn:E; cbn [bind] in H; try discriminate.
    injection H as <- <-. cbn [inner buf]. assert (U := raw_write_used _ _ _ _ _ L E). unfold waits. cbn [buf].
    assert (cap = 0) by (unfold capacity in K; lia). subst cap. replace (bpos (buf r)) with 0 in * by lia.
    split; [exact Ho|]. destruct (0 <? len d); lia.
Qed.

Lemma output_used : forall pl cap cs f f' l, holding cap (res f) -> cap <= chunk_max pl ->
  Forall output_only cs -> Forall (fun c => match c with Write d => len d <= chunk_max pl | _ => True end) cs ->
  run_file pl f cs = Ok (f', l) ->
  holding cap (res f') /\
  used (os (inner (res f))) (os (inner (res f'))) + waits (res f') <= waits (res f) + writes_of cs /\
  used (os (inner (res f))) (os (inner (res f'))) * cap + bpos (buf (res f')) <= 2 * amount cs + flushes_of cs * cap + bpos (buf (res f)) /\
  0 <= used (os (inner (res f))) (os (inner (res f'))).
Proof.
  intros pl cap. induction cs as [|c cs IH]; intros f f' l Ho M Oo Sz R.
  - cbn [run_file] in R. injection R as <- <-. rewrite used_same. unfold writes_of, amount, flushes_of. cbn. repeat split; try apply Ho; lia.
  - inversion Oo as [|? ? O1 O2]; subst. inversion Sz as [|? ? S1 S2]; subst. cbn [run_file] in R.
    destruct (call_file pl f c) as [[f1 a]| | | |] eqn:E; cbn [bind] in R; try discriminate.
    destruct (run_file pl f1 cs) as [[f2 l2]| | | |] eqn:E2; cbn [bind] in R; try discriminate. injection R as <- <-.
    destruct c as [| d | | | | ]; cbn [output_only] in O1; try contradiction; cbn [call_file] in E.
    + assert (WO : writes_of (Write d :: cs) = (if 0 <? len d then 1 else 0) + writes_of cs).
      { unfold writes_of. cbn [filter]. destruct d as [|x d]; [reflexivity|]. replace (0 <? len (x :: d)) with true by (unfold len; cbn [length]; lia).
        cbn [length]. lia. }
      assert (AM : amount (Write d :: cs) = len d + amount cs) by (unfold amount; cbn [flat_map]; now rewrite len_app).
      assert (FL : flushes_of (Write d :: cs) = flushes_of cs) by reflexivity.
      rewrite WO, AM, FL. unfold file_write in E. destruct (mode f).
      * cbn [bind] in E. injection E as <- <-. destruct (IH f f2 l2 Ho M O2 S2 E2) as (X1 & X2 & X3 & X4).
        pose proof (len_nonneg d). split; [exact X1|]. split; [destruct (0 <? len d); lia|]. split; lia.
      * destruct (write (file_ops pl) (res f) d) as [[r k]| | | |] eqn:W; cbn [bind answered] in E; try discriminate. injection E as <- <-.
        destruct (write_used _ _ _ _ _ _ Ho M S1 W) as (Y1 & Y2 & Y3 & Y4).
        pose proof (fun Y => IH _ f2 l2 Y M O2 S2 E2) as Q; cbn [res] in Q; destruct (Q Y1) as (X1 & X2 & X3 & X4); clear Q. cbn [res] in *. rewrite (used_trans _ (os (inner r))).
        split; [exact X1|]. split; [lia|]. split; lia.
      * destruct (write (file_ops pl) (res f) d) as [[r k]| | | |] eqn:W; cbn [bind answered] in E; try discriminate. injection E as <- <-.
        destruct (write_used _ _ _ _ _ _ Ho M S1 W) as (Y1 & Y2 & Y3 & Y4).
        pose proof (fun Y => IH _ f2 l2 Y M O2 S2 E2) as Q; cbn [res] in Q; destruct (Q Y1) as (X1 & X2 & X3 & X4); clear Q. cbn [res] in *. rewrite (used_trans _ (os (inner r))).
        split; [exact X1|]. split; [lia|]. split; lia.
    + unfold file_flush in E. destruct (flush (file_ops pl) (res f)) as [r| | | |] eqn:W; cbn [bind] in E; try discriminate. injection E as <- <-.
      destruct (flush_used _ _ _ _ Ho M W) as (Y1 & Y2 & Y3).
      pose proof (fun Y => IH _ f2 l2 Y M O2 S2 E2) as Q; cbn [res] in Q; destruct (Q Y1) as (X1 & X2 & X3 & X4); clear Q. cbn [res] in *. rewrite (used_trans _ (os (inner r))).
      assert (FL : flushes_of (Flush :: cs) = 1 + flushes_of cs) by (unfold flushes_of; cbn [filter length]; lia).
      assert (WO : writes_of (Flush :: cs) = writes_of cs) by reflexivity. assert (AM : amount (Flush :: cs) = amount cs) by reflexivity.
      rewrite FL, WO, AM. unfold waits in *. rewrite Y2 in *. change (0 <? 0) with false in X2. cbn iota in X2.
      destruct Ho as (K & B & _). split; [exact X1|]. split; [lia|]. split; [|lia].
      destruct (0 <? bpos (buf (res f))); nia.
Qed.

Lemma close_used : forall pl cap f f', holding cap (res f) -> cap <= chunk_max pl -> file_close pl f = Ok f' ->
  0 <= used (os (inner (res f))) (os (inner (res f'))) <= waits (res f).
Proof.
  intros pl cap f f' Ho M H. unfold file_close, file_flush in H.
  destruct (flush (file_ops pl) (res f)) as [r| | | |] eqn:W; cbn [bind noexcept] in H; try discriminate. injection H as <-.
  destruct (flush_used _ _ _ _ Ho M W) as (_ & _ & Y). cbn [res inner with_sys os].
  unfold sys_close. destruct (descriptor (inner r)); exact Y.
Qed.

(* ------------------------------------------------- all of these calls return *)

Lemma raw_write_total : forall pl s d, len d <= chunk_max pl -> exists s' k, file_write_raw pl s d = Ok (s', k).
Proof.
  intros pl s d L. unfold file_write_raw. change size_of with len. pose proof (len_nonneg d).
  destruct (chunk_count_pos pl (len d) ltac:(lia)) as [f F]. rewrite F. cbn [write_blocks].
  destruct (len d <=? 0) eqn:Z; [cbn [bind]; eauto|]. rewrite Z.min_l by lia.
  destruct (sys_write (os s) (descriptor s) (firstn (Z.to_nat (len d)) d)) as [w1 r].
  destruct ((match r with Some k => k | None => 0 end) =? len d); [|cbn [bind]; eauto].
  destruct f; cbn [write_blocks]; replace (len d - len d <=? 0) with true by lia; cbn [bind]; eauto.
Qed.

Lemma flush_total : forall pl cap r, holding cap r -> cap <= chunk_max pl -> exists r', flush (file_ops pl) r = Ok r'.
Proof.
  intros pl cap r (K & B & Cl) M. unfold flush. destruct (write_dirty (buf r)); [|eauto].
  assert (LM : len (mem (buf r)) = cap) by (rewrite <- K; reflexivity). rewrite slice_ok by lia. cbn [bind]. rewrite drop_0.
  assert (LC : len (take (bpos (buf r)) (mem (buf r))) <= chunk_max pl) by (rewrite len_take by lia; lia).
  unfold file_ops. cbn [raw_write]. destruct (raw_write_total pl (inner r) _ LC) as (s' & k & ->). cbn [bind]. eauto.
Qed.

Lemma write_total : forall pl cap r d, holding cap r -> cap <= chunk_max pl -> len d <= chunk_max pl ->
  exists r' k, write (file_ops pl) r d = Ok (r', k).
Proof.
  intros pl cap r d Ho M L. assert (Ho' := Ho). destruct Ho' as (K & B & Cl). pose proof (len_nonneg d).
  unfold write. rewrite K. destruct (0 <? cap) eqn:Z.
  - unfold write_buffered. change size_of with len. rewrite K. destruct (cap <? bpos (buf r) + len d) eqn:Full; cbn [andb].
    + destruct (flush_total _ _ _ Ho M) as (r1 & F). rewrite F. cbn [bind].
      destruct (flush_used _ _ _ _ Ho M F) as (H1 & P1 & _). destruct H1 as (K1 & B1 & _).
      assert (LM : len (mem (buf r1)) = cap) by (rewrite <- K1; reflexivity). destruct (cap <? len d) eqn:Big.
      * unfold file_ops. cbn [raw_write]. destruct (raw_write_total pl (inner r1) d L) as (s' & k & ->). cbn [bind]. eauto.
      * unfold buffer_write. rewrite blit_ok by lia. cbn [bind]. eauto.
    + assert (LM : len (mem (buf r)) = cap) by (rewrite <- K; reflexivity). cbn [bind]. unfold buffer_write. rewrite blit_ok by lia. cbn [bind]. eauto.
  - unfold file_ops. cbn [raw_write]. destruct (raw_write_total pl (inner r) d L) as (s' & k & ->). cbn [bind]. eauto.
Qed.

Lemma output_total : forall pl cap cs f, holding cap (res f) -> cap <= chunk_max pl ->
  Forall output_only cs -> Forall (fun c => match c with Write d => len d <= chunk_max pl | _ => True end) cs ->
  exists f' l f'', run_file pl f cs = Ok (f', l) /\ file_close pl f' = Ok f''.
Proof.
  intros pl cap. induction cs as [|c cs IH]; intros f Ho M Oo Sz.
  - exists f, []. unfold file_close, file_flush. destruct (flush_total _ _ _ Ho M) as (r & ->). cbn [bind noexcept]. eexists. split; reflexivity.
  - inversion Oo as [|? ? O1 O2]; subst. inversion Sz as [|? ? S1 S2]; subst.
    assert (X : exists f1 a, call_file pl f c = Ok (f1, a) /\ holding cap (res f1)).
    { destruct c as [| d | | | | ]; cbn [output_only] in O1; try contradiction; cbn [call_file].
      - unfold file_write. destruct (mode f); [cbn [bind]; eauto| |];
          (destruct (write_total _ _ _ _ Ho M S1) as (r & k & E); rewrite E; cbn [bind];
           destruct (write_used _ _ _ _ _ _ Ho M S1 E) as (Y & _); eauto).
      - unfold file_flush. destruct (flush_total _ _ _ Ho M) as (r & E). rewrite E. cbn [bind].
        destruct (flush_used _ _ _ _ Ho M E) as (Y & _); eauto. }
    destruct X as (f1 & a & E & Ho1). destruct (IH f1 Ho1 M O2 S2) as (f' & l & f'' & E1 & E2).
    exists f', (a :: l), f''. cbn [run_file]. rewrite E. cbn [bind]. rewrite E1. cbn [bind]. auto.
Qed.

Lemma new_holding : forall pl w q m how cap, exists f, new_file pl w q m how cap = Ok f /\
  holding (Z.of_nat cap) (res f) /\ mode f = m /\ 0 <= used w (os (inner (res f))) <= 1.
Proof.
  intros. unfold new_file, file_open. cbn [is_open res inner descriptor bind os].
  assert (H : holding (Z.of_nat cap) (Resource (Sys w None 0) (new_buffer cap))).
  { unfold holding, new_buffer. cbn [buf bpos write_dirty]. split; [|lia]. unfold capacity, size_of. cbn [mem]. now rewrite repeat_length. }
  assert (R : forall w' fd, 0 <= used w w' <= 1 -> let f := File (Resource (Sys w' fd 0) (new_buffer cap)) (Some q) m in
    holding (Z.of_nat cap) (res f) /\ mode f = m /\ 0 <= used w (os (inner (res f))) <= 1).
  { intros w' fd U. cbn [res inner os mode]. split; [exact H|]. auto. }
  assert (So : forall cr a b w' fd, sys_open w q cr a b = (w', fd) -> 0 <= used w w' <= 1).
  { intros cr a b w' fd E. unfold sys_open in E. destruct (respond w) as [x w1] eqn:Er. assert (U := respond_used _ _ _ Er).
    destruct x; [injection E as <- <-; exact U| |]; destruct (disk w1 q); [| destruct cr| |destruct cr]; injection E as <- <-; exact U. }
  destruct how; [destruct (disk w q)|].
  2: { eexists. split; [reflexivity|]. cbn [res inner os mode]. rewrite used_same. split; [exact H|]. split; [reflexivity|lia]. }
  - destruct (sys_open w q _ (mode_reads m) (mode_writes m)) as [w' fd] eqn:E. cbn [bind]. eexists. split; [reflexivity|]. apply R. eapply So; exact E.
  - destruct (sys_open w q _ (mode_reads m) (mode_writes m)) as [w' fd] eqn:E. cbn [bind]. eexists. split; [reflexivity|]. apply R. eapply So; exact E.
Qed.
