(** Opening and closing; what calls on a file do not change, whatever the operating
    system does. *)
From Coq Require Import NArith ZArith List Bool Lia.
From Coq Require Import ZifyBool ZifyNat ZifyN.
From Verif Require Import Base Integers ResourceSpec ResourceModel ResourceText FileSpec FileModel FileText.
From Verif Require Import ResourceLemmas ResourceLemmas2 FileLemmas FileLemmas2 FileLemmas3.
Import ListNotations.
Open Scope Z_scope.

(* -------------------------------------------------------- opening, closing *)

(** A file object with no file open and nothing in the buffer. *)
Record idle (cap : Z) (f : file) : Prop := {
  id_closed : descriptor (inner (res f)) = None;
  id_cap : capacity (buf (res f)) = cap;
  id_last : filled_last (inner (res f)) = 0;
  id_read : read_dirty (buf (res f)) = true;
  id_write : write_dirty (buf (res f)) = false;
  id_bpos : bpos (buf (res f)) = 0 }.

Lemma open_idle : forall pl cap f q l m how, idle cap f ->
  disk_of f q = Some l \/ disk_of f q = None /\ how = Create /\ l = [] ->
  response_now (os (inner (res f))) <> Refuse -> cap <= chunk_max pl -> len l < 2 ^ 63 ->
  exists f', file_open pl f q m how = Ok (f', true) /\ path f' = path f /\
    keeps pl cap q m (disk_of f) Resting (Store l 0) f' /\
    script (os (inner (res f'))) = tl (script (os (inner (res f)))).
Proof.
  intros pl cap f q l m how I D R C L. destruct I as [I1 I2 I3 I4 I5 I6].
  unfold file_open, is_open. rewrite I1. cbn [bind]. unfold disk_of in *. set (w := os (inner (res f))) in *.
  assert (O : forall create, (create = true \/ disk w q <> None) ->
     exists w' fd, sys_open w q create (mode_reads m) (mode_writes m) = (w', Some fd) /\
       script w' = tl (script w) /\ disk w' q = Some l /\ (forall x, x <> q -> disk w' x = disk w x) /\
       table w' fd = Some (Handle q 0 (mode_reads m) (mode_writes m))).
  { intros create CR. unfold sys_open. rewrite respond_eq. cbn [disk table unused script].
    assert (X : forall c, match c with Some c => c | None => [] end = l -> forall w1,
       w1 = set_content (World (disk w) (table w) (unused w) (tl (script w))) q (match c with Some c => c | None => [] end) ->
       exists w' fd, (World (disk w1) (set (table w1) (unused w1) (Some (Handle q 0 (mode_reads m) (mode_writes m))))
         (N.succ (unused w1)) (script w1), Some (unused w1)) = (w', Some fd) /\
       script w' = tl (script w) /\ disk w' q = Some l /\ (forall x, x <> q -> disk w' x = disk w x) /\
       table w' fd = Some (Handle q 0 (mode_reads m) (mode_writes m))).
    { intros c E w1 ->. rewrite E. eexists _, _. split; [reflexivity|]. cbn [set_content disk table unused script].
      split; [reflexivity|]. split; [apply set_same|]. split; [intros x Hx; now apply set_other|apply set_same]. }
    destruct (response_now w); [congruence| |]; destruct D as [D|(D & -> & ->)]; rewrite D in *.
    - now apply (X (Some l)).
    - destruct create; [now apply (X None)|destruct CR; congruence].
    - now apply (X (Some l)).
    - destruct create; [now apply (X None)|destruct CR; congruence]. }
  assert (K : forall w' fd f', script w' = tl (script w) -> disk w' q = Some l ->
     (forall x, x <> q -> disk w' x = disk w x) -> table w' fd = Some (Handle q 0 (mode_reads m) (mode_writes m)) ->
     f' = File (Resource (Sys w' (Some fd) (filled_last (inner (res f)))) (buf (res f))) (path f) m ->
     path f' = path f /\ keeps pl cap q m (disk w) Resting (Store l 0) f' /\
     script (os (inner (res f'))) = tl (script w)).
  { intros w' fd f' K1 K2 K3 K4 ->. cbn [path res inner os]. split; [reflexivity|]. split; [|assumption].
    split; [|reflexivity]. cbn [res]. constructor; cbn [inner buf bytes at_]; try assumption; try lia; try tauto.
    exists l, 0. split; [|split; [lia|]].
    - constructor; cbn [os descriptor]; [|assumption]. exists fd, (Handle q 0 (mode_reads m) (mode_writes m)).
      cbn [lookup file_name readable writable offset]. rewrite K4. tauto.
    - cbn [in_stage bytes at_ filled_last]. tauto. }
  destruct how.
  - destruct D as [D|(_ & D & _)]; [|discriminate]. rewrite D.
    destruct (O (match pl with UnixLike => false | Windows => true end)) as (w' & fd & E & E1 & E2 & E3 & E4).
    { right. congruence. }
    rewrite E. eexists. split; [reflexivity|]. now apply (K w' fd).
  - destruct (O true ltac:(now left)) as (w' & fd & E & E1 & E2 & E3 & E4). rewrite E.
    eexists. split; [reflexivity|]. now apply (K w' fd).
Qed.

Lemma idle_new : forall w q m cap, idle (Z.of_nat cap) (File (Resource (Sys w None 0) (new_buffer cap)) q m).
Proof.
  intros. constructor; try reflexivity. unfold capacity, size_of, new_buffer. cbn [res buf mem].
  now rewrite repeat_length.
Qed.

Lemma close_file : forall pl cap q m others p s f, keeps pl cap q m others p s f -> obliging (os (inner (res f))) ->
  (p = InWrites -> mode_writes m = true) ->
  exists f', file_close pl f = Ok f' /\ path f' = path f /\ disk_of f' q = Some (bytes s) /\
    (forall x, x <> q -> disk_of f' x = others x) /\ is_open f' = false /\ obliging (os (inner (res f'))) /\
    (p <> InReads -> idle cap f').
Proof.
  intros pl cap q m others p s f [S Md] B W.
  destruct (flush_file_step pl cap q _ _ others p s (res f) S B W) as (r' & E & B' & S').
  unfold file_close, file_flush. rewrite E. cbn [bind noexcept res path mode].
  eexists. split; [reflexivity|]. unfold disk_of, with_sys, is_open. cbn [path res inner os descriptor mode].
  destruct S' as [(c & a & O & A0 & I) K CM At Fi Ot U].
  assert (C : c = bytes s) by (destruct p; cbn [in_stage] in I; tauto). subst c.
  assert (DK : disk (sys_close (os (inner r')) (descriptor (inner r'))) = disk (os (inner r')))
    by (destruct (descriptor (inner r')); reflexivity).
  rewrite DK. split; [reflexivity|]. split; [apply O|]. split; [assumption|]. split; [reflexivity|].
  split.
  { unfold obliging. destruct (descriptor (inner r')); exact B'. }
  intro P. constructor; cbn [res buf inner os descriptor filled_last]; try assumption; try reflexivity;
    destruct p; cbn [in_stage] in I; try congruence; tauto.
Qed.

(** Opening another file: first the open one is closed. *)
Lemma open_closes : forall pl f q m how, is_open f = true ->
  file_open pl f q m how = bind (file_close pl f) (fun f => file_open pl f q m how).
Proof.
  intros pl f q m how O. unfold file_open at 1. rewrite O.
  destruct (file_close pl f) as [f'| | | |] eqn:E; cbn [bind]; try reflexivity.
  assert (C : is_open f' = false).
  { unfold file_close in E. destruct (file_flush pl f) as [f1| | | |]; cbn [bind noexcept] in E; try discriminate.
    injection E as <-. reflexivity. }
  unfold file_open. now rewrite C.
Qed.

Lemma keeps_open : forall pl cap q m others p s f, keeps pl cap q m others p s f -> is_open f = true.
Proof.
  intros pl cap q m others p s f [[(c & a & [(n & h & L & _) _] & _) _ _ _ _ _ _] _]. unfold is_open.
  destruct (descriptor (inner (res f))); [reflexivity|discriminate].
Qed.

(** Position and end. *)
Lemma file_position_ok : forall pl cap q m others p s f, keeps pl cap q m others p s f ->
  file_position pl f = Ok (at_ s).
Proof.
  intros pl cap q m others p s f [[(c & a & [(n & h & L & H1 & H2 & H3 & H4) D] & A0 & I) K CM At Fi Ot U] Md].
  unfold file_position, sys_seek. rewrite L, H4, Z.add_0_r.
  assert (X : a + bpos (buf (res f)) = at_ s /\ a <= at_ s).
  { destruct p; cbn [in_stage] in I; try lia. }
  replace ((0 <=? a) && (a <? 2 ^ 63)) with true by lia. cbn [snd].
  destruct X as [X _]. rewrite X, convert_I64 by lia. now destruct pl.
Qed.

Lemma file_at_end_ok : forall pl cap q m others p s f, keeps pl cap q m others p s f -> path f = Some q ->
  p <> InWrites -> file_is_at_end pl f = Ok (at_ s =? len (bytes s)).
Proof.
  intros pl cap q m others p s f K P NW. unfold file_is_at_end. rewrite (file_position_ok _ _ _ _ _ _ _ _ K). cbn [bind].
  rewrite P. destruct K as [[(c & a & [_ D] & A0 & I) _ _ At _ _ _] _]. rewrite D, as_size_pos by lia.
  assert (c = bytes s) by (destruct p; cbn [in_stage] in I; [tauto|tauto|congruence]). now subst c.
Qed.

(* ------------------------------------------------------------------- frame *)

(** The name of the open file. *)
Definition open_name (s : sys) : option N :=
  match lookup (os s) (descriptor s) with Some (_, h) => Some (file_name h) | None => None end.

(** Nothing but the open file changes, and it stays open. *)
Definition sane (w : world) (fd : option N) : Prop :=
  match lookup w fd with Some (_, h) => 0 <= offset h | None => True end.

Definition tame_world (fd : option N) (w w' : world) : Prop :=
  (sane w fd -> sane w' fd) /\
  option_map (fun x => file_name (snd x)) (lookup w' fd) = option_map (fun x => file_name (snd x)) (lookup w fd) /\
  (forall x, option_map (fun x => file_name (snd x)) (lookup w fd) <> Some x -> disk w' x = disk w x) /\
  (forall k, fd <> Some k -> table w' k = table w k) /\ unused w' = unused w.

Definition tame (s s' : sys) : Prop := descriptor s' = descriptor s /\ tame_world (descriptor s) (os s) (os s').

Lemma tame_world_refl : forall fd w, tame_world fd w w.
Proof. intros. repeat split; auto. Qed.

Lemma tame_world_trans : forall fd a b c, tame_world fd a b -> tame_world fd b c -> tame_world fd a c.
Proof. intros fd a b c (H0 & H1 & H2 & H3 & H4) (K0 & K1 & K2 & K3 & K4). split; [auto|]. split; [congruence|].
  split; [intros x X; rewrite K2, H2 by congruence; reflexivity|]. split; [|congruence]. intros k X. now rewrite K3, H3. Qed.

Lemma tame_refl : forall s, tame s s.
Proof. intros. split; [reflexivity|apply tame_world_refl]. Qed.

Lemma tame_trans : forall a b c, tame a b -> tame b c -> tame a c.
Proof.
  intros a b c [H1 H2] [K1 K2]. split; [congruence|]. rewrite H1 in K2. eapply tame_world_trans; eassumption.
Qed.

Lemma lookup_world : forall fd w r, lookup (World (disk w) (table w) (unused w) r) fd = lookup w fd.
Proof. intros [] w r; reflexivity. Qed.

Lemma tame_set_handle : forall fd w n h h', lookup w fd = Some (n, h) -> file_name h' = file_name h ->
  (0 <= offset h -> 0 <= offset h') -> tame_world fd w (set_handle w n (Some h')).
Proof.
  intros fd w n h h' L E O. unfold tame_world, sane. split; [now rewrite (lookup_set w fd n h h' L), L|]. split; [rewrite (lookup_set w fd n h h' L), L; cbn; now rewrite E|]. split; [reflexivity|]. split; [|reflexivity].
  intros k X. cbn [set_handle table]. apply set_other. intros <-. apply X. unfold lookup in L. destruct fd as [n'|]; [|discriminate].
  destruct (table w n'); [|discriminate]. now injection L as -> _.
Qed.

Lemma sys_read_tame : forall w fd n, tame_world fd w (fst (sys_read w fd n)).
Proof.
  intros w fd n. unfold sys_read. destruct (lookup w fd) as [[k h]|] eqn:L; [|apply tame_world_refl].
  destruct (readable h); [|apply tame_world_refl]. rewrite respond_eq. cbv zeta.
  set (w1 := World _ _ _ _).
  assert (T : tame_world fd w w1) by (unfold tame_world, sane, w1; rewrite lookup_world; repeat split; auto).
  assert (L1 : lookup w1 fd = Some (k, h)) by (unfold w1; now rewrite lookup_world).
  destruct (response_now w); cbn [fst]; [assumption| |];
    (eapply tame_world_trans; [exact T|]; apply tame_set_handle with h; [assumption|reflexivity|];
     cbn [move_to offset]; unfold size_of; lia).
Qed.

Lemma sys_write_tame : forall w fd d, tame_world fd w (fst (sys_write w fd d)).
Proof.
  intros w fd d. unfold sys_write. destruct (lookup w fd) as [[k h]|] eqn:L; [|apply tame_world_refl].
  destruct (writable h); [|apply tame_world_refl]. rewrite respond_eq. cbv zeta.
  set (w1 := World _ _ _ _).
  assert (T : tame_world fd w w1) by (unfold tame_world, sane, w1; rewrite lookup_world; repeat split; auto).
  assert (L1 : lookup w1 fd = Some (k, h)) by (unfold w1; now rewrite lookup_world).
  assert (P : forall c (x : list N), tame_world fd w (set_handle (set_content w1 (file_name h) c) k (Some (move_to h (offset h + size_of x))))).
  { intros c y. eapply tame_world_trans; [exact T|]. eapply tame_world_trans.
    - instantiate (1 := set_content w1 (file_name h) c).
      assert (LS : lookup (set_content w1 (file_name h) c) fd = lookup w1 fd) by (destruct fd; reflexivity).
      unfold tame_world, sane. rewrite LS. split; [auto|]. split; [reflexivity|]. split; [|split; reflexivity].
      intros x X. rewrite L1 in X. cbn in X. cbn [set_content disk]. apply set_other. congruence.
    - apply tame_set_handle with h; [destruct fd; exact L1|reflexivity|cbn [move_to offset]; unfold size_of; lia]. }
  destruct (response_now w); cbn [fst]; [assumption| |]; apply P.
Qed.

Lemma sys_seek_tame : forall w fd n pr, tame_world fd w (fst (sys_seek w fd n pr)).
Proof.
  intros w fd n pr. unfold sys_seek. destruct (lookup w fd) as [[k h]|] eqn:L; [|apply tame_world_refl].
  match goal with |- context [if ?b then _ else _] => destruct b eqn:B end; cbn [fst]; [|apply tame_world_refl].
  apply tame_set_handle with h; [assumption|reflexivity|]. intros _. cbn [move_to offset]. lia.
Qed.

Lemma unix_block_tame : forall fuel w fd dst off n t w' dst' k,
  unix_block fuel w fd dst off n t = Ok (w', dst', k) -> tame_world fd w w'.
Proof.
  induction fuel as [|fuel IH]; intros w fd dst off n t w' dst' k H; [discriminate|]. cbn [unix_block] in H.
  pose proof (sys_read_tame w fd n) as T. destruct (sys_read w fd n) as [w1 [[|x d]|]]; cbn [fst] in T.
  - injection H as <- _ _. assumption.
  - destruct (blit dst off (x :: d)) as [dst1| | | |]; cbn [bind] in H; try discriminate.
    destruct (t + size_of (x :: d) =? n); [injection H as <- _ _; assumption|].
    eapply tame_world_trans; [exact T|]. eapply IH; exact H.
  - injection H as <- _ _. assumption.
Qed.

Lemma windows_block_tame : forall fuel w fd dst off n t w' dst' k,
  windows_block fuel w fd dst off n t = Ok (w', dst', k) -> tame_world fd w w'.
Proof.
  induction fuel as [|fuel IH]; intros w fd dst off n t w' dst' k H; [discriminate|]. cbn [windows_block] in H.
  pose proof (sys_read_tame w fd (n - t)) as T. destruct (sys_read w fd (n - t)) as [w1 [d|]]; cbn [fst] in T.
  - destruct (blit dst (off + t) d) as [dst1| | | |]; cbn [bind] in H; try discriminate.
    destruct ((size_of d =? 0) || (t + size_of d =? n)); [injection H as <- _ _; assumption|].
    eapply tame_world_trans; [exact T|]. eapply IH; exact H.
  - injection H as <- _ _. assumption.
Qed.

Lemma read_blocks_tame : forall pl fuel w fd dst off n t w' dst' k,
  read_blocks pl fuel w fd dst off n t = Ok (w', dst', k) -> tame_world fd w w'.
Proof.
  intros pl. induction fuel as [|fuel IH]; intros w fd dst off n t w' dst' k H; cbn [read_blocks] in H;
    destruct (n <=? 0); try discriminate; try (injection H as <- _ _; apply tame_world_refl).
  destruct (read_block pl w fd dst off (Z.min n (chunk_max pl))) as [[[w1 d1] k1]| | | |] eqn:E; cbn [bind] in H; try discriminate.
  assert (T : tame_world fd w w1).
  { unfold read_block in E. destruct pl; [eapply unix_block_tame; exact E|eapply windows_block_tame; exact E]. }
  destruct (k1 =? Z.min n (chunk_max pl)); [|injection H as <- _ _; assumption].
  eapply tame_world_trans; [exact T|]. eapply IH; exact H.
Qed.

Lemma write_blocks_tame : forall pl fuel w fd d n t w' k,
  write_blocks pl fuel w fd d n t = Ok (w', k) -> tame_world fd w w'.
Proof.
  intros pl. induction fuel as [|fuel IH]; intros w fd d n t w' k H; cbn [write_blocks] in H;
    destruct (n <=? 0); try discriminate; try (injection H as <- _; apply tame_world_refl).
  pose proof (sys_write_tame w fd (firstn (Z.to_nat (Z.min n (chunk_max pl))) d)) as T.
  destruct (sys_write w fd (firstn (Z.to_nat (Z.min n (chunk_max pl))) d)) as [w1 r]. cbn [fst] in T.
  match type of H with (if ?b then _ else _) = _ => destruct b end; [|injection H as <- _; assumption].
  eapply tame_world_trans; [exact T|]. eapply IH; exact H.
Qed.

Lemma seek_raw_tame : forall pl s n pr, tame s (seek_raw pl s n pr).
Proof. intros. unfold seek_raw. split; [reflexivity|]. cbn [os]. apply sys_seek_tame. Qed.

Lemma file_read_raw_tame : forall pl s dst off n rr s' dst' k,
  file_read_raw pl s dst off n rr = Ok (s', dst', k) -> tame s s'.
Proof.
  intros pl s dst off n rr s' dst' k H. unfold file_read_raw in H.
  set (s1 := match rr with FillBuffer => _ | LeanRetrieval => _ end) in H.
  assert (T1 : tame s s1).
  { unfold s1. destruct rr; [apply tame_refl|]. destruct (0 <? filled_last s); [apply seek_raw_tame|apply tame_refl]. }
  destruct (read_blocks pl (chunk_count pl n) (os s1) (descriptor s1) dst off n 0) as [[[w1 d1] k1]| | | |] eqn:E; cbn [bind] in H; try discriminate.
  apply read_blocks_tame in E. injection H as <- _ _.
  assert (T2 : tame s (Sys w1 (descriptor s1) (filled_last s1))).
  { eapply tame_trans; [exact T1|]. split; [reflexivity|exact E]. }
  destruct rr; [assumption|]. eapply tame_trans; [exact T2|].
  destruct (seek_raw_tame pl (Sys w1 (descriptor s1) (filled_last s1)) (- k1) FromCurrent) as [Q1 Q2].
  split; assumption.
Qed.

Lemma file_write_raw_tame : forall pl s d s' k, file_write_raw pl s d = Ok (s', k) -> tame s s'.
Proof.
  intros pl s d s' k H. unfold file_write_raw in H.
  destruct (write_blocks pl (chunk_count pl (size_of d)) (os s) (descriptor s) d (size_of d) 0) as [[w1 k1]| | | |] eqn:E; cbn [bind] in H; try discriminate.
  injection H as <- _. split; [reflexivity|]. eapply write_blocks_tame; exact E.
Qed.

Lemma ops_read_tame : forall pl s dst off n rr s' dst' k,
  raw_read (file_ops pl) s dst off n rr = Ok (s', dst', k) -> tame s s'.
Proof. exact file_read_raw_tame. Qed.

Lemma ops_write_tame : forall pl s d s' k, raw_write (file_ops pl) s d = Ok (s', k) -> tame s s'.
Proof. exact file_write_raw_tame. Qed.

(** A relation kept by the raw operations is kept by the buffered ones. *)
Section Kept.
Context {S : Type} (ops : raw S) (R : S -> S -> Prop).
Hypothesis R_refl : forall s, R s s.
Hypothesis R_trans : forall a b c, R a b -> R b c -> R a c.
Hypothesis R_read : forall s dst off n rr s' dst' k, raw_read ops s dst off n rr = Ok (s', dst', k) -> R s s'.
Hypothesis R_write : forall s d s' k, raw_write ops s d = Ok (s', k) -> R s s'.

Lemma fill_kept : forall r r' k, fill ops r = Ok (r', k) -> R (inner r) (inner r').
Proof.
  intros r r' k H. unfold fill in H.
  destruct (raw_read ops (inner r) (mem (buf r)) 0 (capacity (buf r)) FillBuffer) as [[[s1 m1] n1]| | | |] eqn:E; cbn [bind] in H; try discriminate.
  injection H as <- _. cbn [inner]. eapply R_read; exact E.
Qed.

Lemma read_kept : forall r dst n r' dst' k, read ops r dst n = Ok (r', dst', k) -> R (inner r) (inner r').
Proof.
  intros r dst n r' dst' k H. unfold read in H. destruct (0 <? capacity (buf r)).
  - unfold read_buffered in H.
    match type of H with bind ?x _ = _ => assert (T : forall r1, x = Ok r1 -> R (inner r) (inner r1)); [|destruct x as [r1| | | |]; cbn [bind] in H; try discriminate] end.
    { intros r1. destruct (read_dirty (buf r)); [|intro X; injection X as <-; apply R_refl].
      destruct (fill ops r) as [[r2 k2]| | | |] eqn:E; cbn [bind]; try discriminate. intro X. injection X as <-.
      eapply fill_kept; exact E. }
    specialize (T r1 eq_refl). eapply R_trans; [exact T|]. clear T r.
    destruct (filled (buf r1) <? bpos (buf r1) + n).
    + match type of H with bind ?x _ = _ => assert (T : forall r2 a b c, x = Ok (r2, a, b, c) -> inner r2 = inner r1); [|destruct x as [[[[r2 a] b] c]| | | |]; cbn [bind] in H; try discriminate] end.
      { intros r2 a b c.
        match goal with |- (if ?x then _ else _) = _ -> _ => destruct x end; [|intro X; injection X as <- _ _ _; reflexivity].
        match goal with |- bind ?x _ = _ -> _ => destruct x as [[[b1 d1] k1]| | | |] end; cbn [bind]; try discriminate.
        intro X. injection X as <- _ _ _. reflexivity. }
      rewrite <- (T r2 a b c eq_refl). clear T r1.
      destruct (capacity (buf r2) <? c).
      * destruct (raw_read ops (inner r2) a b c LeanRetrieval) as [[[s1 d1] k1]| | | |] eqn:E; cbn [bind] in H; try discriminate.
        injection H as <- _ _. cbn [inner]. eapply R_read; exact E.
      * destruct (fill ops r2) as [[r3 k3]| | | |] eqn:E; cbn [bind] in H; try discriminate.
        match type of H with bind ?x _ = _ => destruct x as [[[b1 d1] k1]| | | |] end; cbn [bind] in H; try discriminate.
        injection H as <- _ _. cbn [inner]. eapply fill_kept; exact E.
    + match type of H with bind ?x _ = _ => destruct x as [[[b1 d1] k1]| | | |] end; cbn [bind] in H; try discriminate.
      injection H as <- _ _. cbn [inner]. apply R_refl.
  - destruct (raw_read ops (inner r) dst 0 n LeanRetrieval) as [[[s1 d1] k1]| | | |] eqn:E; cbn [bind] in H; try discriminate.
    injection H as <- _ _. cbn [inner]. eapply R_read; exact E.
Qed.

Lemma flush_kept : forall r r', flush ops r = Ok r' -> R (inner r) (inner r').
Proof.
  intros r r' H. unfold flush in H. destruct (write_dirty (buf r)); [|injection H as <-; apply R_refl].
  destruct (slice (mem (buf r)) 0 (bpos (buf r))) as [d| | | |]; cbn [bind] in H; try discriminate.
  destruct (raw_write ops (inner r) d) as [[s1 k1]| | | |] eqn:E; cbn [bind] in H; try discriminate.
  injection H as <-. cbn [inner]. eapply R_write; exact E.
Qed.

Lemma write_kept : forall r d r' k, write ops r d = Ok (r', k) -> R (inner r) (inner r').
Proof.
  intros r d r' k H. unfold write in H. destruct (0 <? capacity (buf r)).
  - unfold write_buffered in H. cbv zeta in H.
    match type of H with bind ?x _ = _ => assert (T : forall r1, x = Ok r1 -> R (inner r) (inner r1)); [|destruct x as [r1| | | |]; cbn [bind] in H; try discriminate] end.
    { intros r1. match goal with |- (if ?x then _ else _) = _ -> _ => destruct x end; [apply flush_kept|].
      intro X. injection X as <-. apply R_refl. }
    specialize (T r1 eq_refl). eapply R_trans; [exact T|].
    match type of H with (if ?x then _ else _) = _ => destruct x end.
    + destruct (raw_write ops (inner r1) d) as [[s1 k1]| | | |] eqn:E; cbn [bind] in H; try discriminate.
      injection H as <- _. cbn [inner]. eapply R_write; exact E.
    + destruct (buffer_write (buf r1) d) as [b1| | | |]; cbn [bind] in H; try discriminate.
      injection H as <- _. cbn [inner]. apply R_refl.
  - destruct (raw_write ops (inner r) d) as [[s1 k1]| | | |] eqn:E; cbn [bind] in H; try discriminate.
    injection H as <- _. cbn [inner]. eapply R_write; exact E.
Qed.
End Kept.

Lemma file_flush_tame : forall pl f f', file_flush pl f = Ok f' ->
  tame (inner (res f)) (inner (res f')) /\ mode f' = mode f /\ path f' = path f.
Proof.
  intros pl f f' H. unfold file_flush in H.
  destruct (flush (file_ops pl) (res f)) as [r| | | |] eqn:E; cbn [bind] in H; try discriminate. injection H as <-.
  split; [|split; reflexivity]. cbn [res]. eapply (flush_kept (file_ops pl) tame); try exact E.
  - apply tame_refl.
  - apply ops_write_tame.
Qed.

Lemma call_file_tame : forall pl f c f' a, call_file pl f c = Ok (f', a) ->
  tame (inner (res f)) (inner (res f')) /\ mode f' = mode f /\ path f' = path f.
Proof.
  intros pl f c f' a H. destruct c as [block n|data| |n o|n|n]; cbn [call_file] in H.
  - destruct (file_read pl f block n) as [[f1 r]| | | |] eqn:E; cbn [bind] in H; try discriminate. injection H as <- _.
    unfold file_read in E. destruct (mode f) eqn:M.
    + destruct (read (file_ops pl) (res f) block n) as [[[r1 d1] k1]| | | |] eqn:X; cbn [bind] in E; try discriminate.
      injection E as <- _. split; [|now split]. cbn [res]. eapply (read_kept (file_ops pl) tame); try exact X.
      * apply tame_refl. * apply tame_trans. * apply ops_read_tame.
    + injection E as <- _. split; [apply tame_refl|now split].
    + destruct (read (file_ops pl) (res f) block n) as [[[r1 d1] k1]| | | |] eqn:X; cbn [bind] in E; try discriminate.
      injection E as <- _. split; [|now split]. cbn [res]. eapply (read_kept (file_ops pl) tame); try exact X.
      * apply tame_refl. * apply tame_trans. * apply ops_read_tame.
  - destruct (file_write pl f data) as [[f1 r]| | | |] eqn:E; cbn [bind] in H; try discriminate. injection H as <- _.
    unfold file_write in E. destruct (mode f) eqn:M.
    + injection E as <- _. split; [apply tame_refl|now split].
    + destruct (write (file_ops pl) (res f) data) as [[r1 k1]| | | |] eqn:X; cbn [bind] in E; try discriminate.
      injection E as <- _. split; [|now split]. cbn [res]. eapply (write_kept (file_ops pl) tame); try exact X.
      * apply tame_refl. * apply tame_trans. * apply ops_write_tame.
    + destruct (write (file_ops pl) (res f) data) as [[r1 k1]| | | |] eqn:X; cbn [bind] in E; try discriminate.
      injection E as <- _. split; [|now split]. cbn [res]. eapply (write_kept (file_ops pl) tame); try exact X.
      * apply tame_refl. * apply tame_trans. * apply ops_write_tame.
  - destruct (file_flush pl f) as [f1| | | |] eqn:E; cbn [bind] in H; try discriminate. injection H as <- _.
    now apply file_flush_tame in E.
  - unfold file_seek in H.
    destruct (flush (file_ops pl) (res f)) as [r| | | |] eqn:E; cbn [bind noexcept] in H; try discriminate. injection H as <- _.
    split; [|split; reflexivity]. cbn [res inner]. eapply tame_trans; [|apply seek_raw_tame].
    eapply (flush_kept (file_ops pl) tame); try exact E.
    + apply tame_refl. + apply ops_write_tame.
  - injection H as <- _. split; [|split; reflexivity]. cbn [file_go res inner]. apply seek_raw_tame.
  - injection H as <- _. split; [|split; reflexivity]. cbn [file_go res inner]. apply seek_raw_tame.
Qed.

Lemma run_file_tame : forall pl cs f f' l, run_file pl f cs = Ok (f', l) ->
  tame (inner (res f)) (inner (res f')) /\ mode f' = mode f /\ path f' = path f.
Proof.
  intros pl. induction cs as [|c cs IH]; intros f f' l H; cbn [run_file] in H.
  - injection H as <- _. split; [apply tame_refl|now split].
  - destruct (call_file pl f c) as [[f1 a]| | | |] eqn:E; cbn [bind] in H; try discriminate.
    destruct (run_file pl f1 cs) as [[f2 l2]| | | |] eqn:E2; cbn [bind] in H; try discriminate. injection H as <- _.
    destruct (call_file_tame _ _ _ _ _ E) as (A1 & A2 & A3). destruct (IH _ _ _ E2) as (B1 & B2 & B3).
    split; [eapply tame_trans; eassumption|]. split; congruence.
Qed.
