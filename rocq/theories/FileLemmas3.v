(** Writes, seeks and sequences of calls on a file. *)
From Coq Require Import NArith ZArith List Bool Lia.
From Coq Require Import ZifyBool ZifyNat ZifyN.
From Verif Require Import Base Integers ResourceSpec ResourceModel ResourceText FileSpec FileModel FileText.
From Verif Require Import ResourceLemmas ResourceLemmas2 FileLemmas FileLemmas2.
Import ListNotations.
Open Scope Z_scope.

Lemma len_zeros : forall n, len (zeros n) = Z.max 0 n.
Proof. intros. unfold len, zeros. rewrite repeat_length. lia. Qed.

Lemma zeros_none : forall n, n <= 0 -> zeros n = [].
Proof. intros n H. unfold zeros. replace (Z.to_nat n) with 0%nat by lia. reflexivity. Qed.

Lemma put_nil : forall l p, put l p [] = l.
Proof. reflexivity. Qed.

Lemma put_eq : forall l p d, d <> [] -> put l p d = take p l ++ zeros (p - len l) ++ d ++ drop (p + len d) l.
Proof. intros l p [|x d] H; [congruence|reflexivity]. Qed.

Lemma len_put : forall l p d, 0 <= p -> len (put l p d) = if len d =? 0 then len l else Z.max (len l) (p + len d).
Proof.
  intros l p d P. destruct d as [|x d]; [reflexivity|]. set (dd := x :: d). pose proof (len_nonneg d).
  assert (len dd = 1 + len d) by (unfold dd, len; cbn [length]; lia).
  replace (len dd =? 0) with false by lia. rewrite put_eq by discriminate.
  rewrite !len_app, len_take, len_zeros, len_drop by lia. lia.
Qed.

Lemma put_app : forall l p a b, 0 <= p -> put (put l p a) (p + len a) b = put l p (a ++ b).
Proof.
  intros l p a b P. destruct a as [|x a].
  { rewrite put_nil. change (len []) with 0. now rewrite Z.add_0_r. }
  destruct b as [|y b]; [now rewrite put_nil, app_nil_r|].
  assert (A : x :: a <> []) by discriminate. assert (B : y :: b <> []) by discriminate.
  set (aa := x :: a) in *. set (bb := y :: b) in *. clearbody aa bb. clear x y a b.
  assert (AB : aa ++ bb <> []) by (destruct aa; [congruence|discriminate]).
  pose proof (len_nonneg aa). pose proof (len_nonneg bb). pose proof (len_nonneg l).
  assert (LA : len aa <> 0) by (intro K; apply len_zero in K; congruence).
  rewrite (put_eq _ _ bb), (put_eq l p (aa ++ bb)) by assumption.
  assert (L := len_put l p aa P). replace (len aa =? 0) with false in L by lia.
  rewrite (zeros_none (p + len aa - len (put l p aa))) by lia. rewrite (put_eq l p aa) by assumption.
  set (X := take p l ++ zeros (p - len l)).
  assert (LX : len X = p) by (unfold X; rewrite len_app, len_take, len_zeros by lia; lia).
  replace (take p l ++ zeros (p - len l) ++ aa ++ drop (p + len aa) l) with ((X ++ aa) ++ drop (p + len aa) l)
    by (unfold X; now rewrite <- !app_assoc).
  assert (LXA : len (X ++ aa) = p + len aa) by (rewrite len_app; lia).
  rewrite <- LXA at 1. rewrite take_app_exact. rewrite drop_app_r by lia.
  replace (p + len aa + len bb - len (X ++ aa)) with (len bb) by lia. rewrite drop_drop by lia.
  cbn [app]. unfold X. rewrite !len_app. rewrite <- !app_assoc. f_equal. f_equal. f_equal. f_equal. f_equal. lia.
Qed.

Lemma written_at_put : forall c p d, written_at c p d = put c p d.
Proof. reflexivity. Qed.

(** A write by the operating system. *)
Lemma sys_write_cases : forall w fd n h c data, lookup w fd = Some (n, h) -> writable h = true ->
  disk w (file_name h) = Some c ->
  exists w' k, sys_write w fd data = (w', k) /\ script w' = tl (script w) /\
    (forall x, x <> file_name h -> disk w' x = disk w x) /\
    match k with
    | None => response_now w = Refuse /\ lookup w' fd = Some (n, h) /\ disk w' (file_name h) = Some c
    | Some k => 0 <= k <= len data /\ (response_now w = InFull -> k = len data) /\
        lookup w' fd = Some (n, move_to h (offset h + k)) /\
        disk w' (file_name h) = Some (put c (offset h) (take k data))
    end.
Proof.
  intros w fd n h c data L W D. unfold sys_write. rewrite L, W, respond_eq. set (w1 := World _ _ _ _).
  assert (L1 : lookup w1 fd = Some (n, h)) by (destruct fd; exact L).
  assert (C1 : content_of w1 (file_name h) = c) by (unfold content_of; cbn [w1 disk]; now rewrite D).
  rewrite C1.
  assert (Put : forall d, let w2 := set_handle (set_content w1 (file_name h) (written_at c (offset h) d)) n
      (Some (move_to h (offset h + size_of d))) in
      script w2 = tl (script w) /\ (forall x, x <> file_name h -> disk w2 x = disk w x) /\
      lookup w2 fd = Some (n, move_to h (offset h + len d)) /\ disk w2 (file_name h) = Some (put c (offset h) d)).
  { intros d w2. split; [reflexivity|]. split; [intros x X; cbn [w2 set_handle set_content disk]; now rewrite set_other|].
    split.
    - unfold w2. apply lookup_set with h. destruct fd; exact L.
    - cbn [w2 set_handle set_content disk]. now rewrite set_same, written_at_put. }
  destruct (response_now w) eqn:E.
  - exists w1, None. split; [reflexivity|]. split; [reflexivity|]. split; [reflexivity|]. tauto.
  - destruct (Put (firstn (Z.to_nat k) data)) as (P1 & P2 & P3 & P4).
    assert (T : firstn (Z.to_nat k) data = take (len (take k data)) data) by (symmetry; apply take_len_take).
    eexists _, (Some (size_of (firstn (Z.to_nat k) data))). split; [reflexivity|].
    split; [exact P1|]. split; [exact P2|]. change size_of with len. change (firstn (Z.to_nat k) data) with (take k data) in *.
    split.
    { split; [apply len_nonneg|]. unfold take, len. rewrite firstn_length. lia. }
    split; [discriminate|]. split; [exact P3|]. now rewrite <- T.
  - destruct (Put data) as (P1 & P2 & P3 & P4). eexists _, (Some (size_of data)). split; [reflexivity|].
    split; [exact P1|]. split; [exact P2|]. change size_of with len. pose proof (len_nonneg data).
    split; [lia|]. split; [reflexivity|]. split; [exact P3|]. now rewrite take_all by lia.
Qed.

(** What a raw write stores. *)
Lemma raw_write_any : forall pl s q rd c a data, opened s q rd true c a -> 0 <= a -> len data <= chunk_max pl ->
  exists s' k, file_write_raw pl s data = Ok (s', k) /\ 0 <= k <= len data /\ (obliging (os s) -> k = len data) /\
    opened s' q rd true (put c a (take k data)) (a + k) /\ filled_last s' = filled_last s /\
    (forall x, x <> q -> disk (os s') x = disk (os s) x) /\
    (forall P : response -> Prop, Forall P (script (os s)) -> Forall P (script (os s'))).
Proof.
  intros pl s q rd c a data [(n & h & L & H1 & H2 & H3 & H4) D] A M. pose proof (len_nonneg data).
  unfold file_write_raw. change size_of with len. destruct (chunk_count_pos pl (len data) ltac:(lia)) as [u ->].
  cbn [write_blocks]. destruct (len data <=? 0) eqn:Z.
  { assert (E : data = []) by (apply len_zero; lia). subst data. cbn [bind].
    exists (Sys (os s) (descriptor s) (filled_last s)), 0. change (len []) with 0.
    split; [reflexivity|]. split; [lia|]. split; [reflexivity|].
    rewrite take_nil, put_nil, Z.add_0_r. cbn [os filled_last]. split; [|tauto].
    constructor; cbn [os descriptor]; [|assumption]. exists n, h. tauto. }
  rewrite Z.min_l by lia. change (firstn (Z.to_nat (len data)) data) with (take (len data) data). rewrite (take_all (len data) data) by lia.
  rewrite <- H1 in D. destruct (sys_write_cases (os s) (descriptor s) n h c data L H3 D) as (w' & k & X & X1 & X2 & X3).
  rewrite X. set (j := match k with Some k => k | None => 0 end).
  assert (E : bind (if j =? len data then write_blocks pl u w' (descriptor s) data (len data - len data) (0 + j) else Ok (w', 0 + j))
    (fun '(w, k0) => Ok (Sys w (descriptor s) (filled_last s), k0)) = Ok (Sys w' (descriptor s) (filled_last s), j)).
  { destruct (j =? len data); [|reflexivity].
    destruct u; cbn [write_blocks]; replace (len data - len data <=? 0) with true by lia; reflexivity. }
  rewrite E. clear E. exists (Sys w' (descriptor s) (filled_last s)), j. split; [reflexivity|].
  assert (J : 0 <= j <= len data) by (unfold j; destruct k; lia). split; [assumption|].
  split.
  { intro O. unfold j. destruct k as [k|].
    - apply X3. exact (hd_Forall (fun r => r = InFull) _ eq_refl O).
    - destruct X3 as [X3 _]. unfold response_now in X3.
      assert (hd InFull (script (os s)) = InFull) by exact (hd_Forall (fun r => r = InFull) _ eq_refl O). congruence. }
  cbn [os filled_last]. split.
  { constructor; cbn [os descriptor].
    - destruct k as [k|].
      + destruct X3 as (_ & _ & X3 & _). exists n, (move_to h (offset h + k)). rewrite X3.
        cbn [move_to file_name readable writable offset j]. rewrite H4. tauto.
      + destruct X3 as (_ & X3 & _). exists n, h. rewrite X3. cbn [j]. rewrite Z.add_0_r. tauto.
    - rewrite <- H1, <- H4. destruct k as [k|]; cbn [j].
      + tauto.
      + rewrite take_0, put_nil. tauto. }
  split; [reflexivity|]. split; [rewrite <- H1; assumption|]. intros P HP. rewrite X1. now apply Forall_tl.
Qed.

Lemma obliging_kept : forall w w', (forall P : response -> Prop, Forall P (script w) -> Forall P (script w')) ->
  obliging w -> obliging w'.
Proof. intros w w' H. unfold obliging. auto. Qed.

(** A write in full. *)
Lemma raw_write_full : forall pl s q rd c a data, opened s q rd true c a -> 0 <= a -> len data <= chunk_max pl ->
  obliging (os s) ->
  exists s', file_write_raw pl s data = Ok (s', len data) /\
    opened s' q rd true (put c a data) (a + len data) /\ filled_last s' = filled_last s /\
    (forall x, x <> q -> disk (os s') x = disk (os s) x) /\ obliging (os s').
Proof.
  intros pl s q rd c a data O A M B.
  destruct (raw_write_any pl s q rd c a data O A M) as (s' & k & X & X1 & X2 & X3 & X4 & X5 & X6).
  specialize (X2 B). subst k. rewrite take_all in X3 by lia. exists s'.
  split; [assumption|]. split; [assumption|]. split; [assumption|]. split; [assumption|].
  now apply obliging_kept with (os s).
Qed.

Lemma flush_file_step : forall pl cap q rd wr others p s r, file_for pl cap q rd wr others p s r ->
  obliging (os (inner r)) -> (p = InWrites -> wr = true) ->
  exists r', flush (file_ops pl) r = Ok r' /\ obliging (os (inner r')) /\
    file_for pl cap q rd wr others (match p with InReads => InReads | _ => Resting end) s r'.
Proof.
  intros pl cap q rd wr others p s r S B W. assert (S0 := S). destruct S as [(c & a & O & A0 & I) K CM At Fi Ot U].
  unfold flush. destruct p; cbn [in_stage] in I.
  - destruct I as (I1 & I2 & I3 & I4 & I5 & I6). rewrite I5. eauto.
  - destruct I as (I1 & I2 & I3 & I4 & I5 & I6). rewrite I5. eauto.
  - specialize (W eq_refl). subst wr. destruct I as (I1 & I2 & I3 & I4 & I5 & I6).
    destruct (write_dirty (buf r)) eqn:X.
    + assert (CL : len (mem (buf r)) = cap) by exact K.
      unfold capacity in I5. change size_of with len in I5.
      rewrite slice_ok by lia. cbn [bind]. rewrite drop_0.
      assert (Lt : len (take (bpos (buf r)) (mem (buf r))) = bpos (buf r)) by (rewrite len_take by lia; lia).
      unfold file_ops. cbn [raw_write].
      destruct (raw_write_full pl (inner r) q rd c a (take (bpos (buf r)) (mem (buf r))) O A0 ltac:(lia) B) as (s' & E & X1 & X2 & X3 & X4).
      rewrite E. cbn [bind]. eexists. split; [reflexivity|]. split; [assumption|].
      constructor; cbn [inner buf]; try assumption; try tauto.
      * exists (bytes s), (at_ s). rewrite Lt, I1, <- I6 in X1. split; [assumption|]. split; [lia|].
        cbn [in_stage mem filled bpos read_dirty write_dirty set_write_dirty]. rewrite X2. tauto.
      * intros x Hx. rewrite X3; auto.
    + specialize (I4 eq_refl). rewrite I4, Z.add_0_r, take_0, put_nil in *. exists r.
      split; [reflexivity|]. split; [assumption|]. constructor; try assumption; try tauto.
      exists c, a. split; [assumption|]. split; [assumption|]. cbn [in_stage]. auto 10.
Qed.

(** The buffer when nothing is pending is ready for writes. *)
Lemma begin_writes : forall pl cap q rd wr others s r, file_for pl cap q rd wr others Resting s r -> 0 < cap ->
  file_for pl cap q rd wr others InWrites s r.
Proof.
  intros pl cap q rd wr others s r [(c & a & O & A0 & I) K CM At Fi Ot U] C.
  constructor; try assumption; [|lia]. exists c, a. split; [assumption|]. split; [assumption|].
  destruct I as (I1 & I2 & I3 & I4 & I5 & I6). cbn [in_stage]. rewrite I6, take_0, put_nil.
  split; [lia|]. split; [assumption|]. split; [assumption|]. split; [auto|]. split; [lia|auto].
Qed.

Lemma write_file_buffer : forall pl cap q rd wr others s c b data,
  file_for pl cap q rd wr others InWrites s (Resource c b) -> bpos b + len data <= cap ->
  at_ s + len data < 2 ^ 63 ->
  exists b', buffer_write b data = Ok b' /\
    file_for pl cap q rd wr others InWrites (Store (put (bytes s) (at_ s) data) (at_ s + len data)) (Resource c b').
Proof.
  intros pl cap q rd wr others s c b data [(c0 & a & O & A0 & I) K CM At Fi Ot U] F G. cbn [inner buf] in *.
  pose proof (len_nonneg data). assert (Cap : len (mem b) = cap) by exact K.
  destruct I as (I1 & I2 & I3 & I4 & I5 & I6). unfold buffer_write.
  rewrite blit_ok by lia. cbn [bind]. eexists. split; [reflexivity|].
  assert (T : take (bpos b + len data) (overwrite (mem b) (bpos b) data) = take (bpos b) (mem b) ++ data).
  { unfold overwrite. rewrite app_assoc. rewrite take_app_l by (rewrite len_app, len_take by lia; lia).
    apply take_all. rewrite len_app, len_take by lia. lia. }
  assert (Lt : len (take (bpos b) (mem b)) = bpos b) by (rewrite len_take by lia; lia).
  constructor; cbn [inner buf bytes at_]; try assumption.
  - exists c0, a. split; [assumption|]. split; [assumption|].
    cbn [in_stage bytes at_ set_write_dirty mem filled bpos read_dirty write_dirty].
    unfold capacity, set_write_dirty. cbn [mem]. change size_of with len. rewrite T. rewrite (len_overwrite (mem b)) by lia.
    split; [lia|]. split; [assumption|]. split; [assumption|]. split; [discriminate|]. split; [lia|].
    rewrite I6, <- I1. rewrite <- Lt at 2. now apply put_app.
  - unfold capacity, set_write_dirty. cbn [mem]. change size_of with len. rewrite len_overwrite by lia. lia.
  - lia.
  - rewrite len_put by lia. destruct (len data =? 0); lia.
Qed.

Lemma write_file_step : forall pl cap q rd others p s r data, file_for pl cap q rd true others p s r ->
  obliging (os (inner r)) -> p <> InReads -> len data <= chunk_max pl -> at_ s + len data < 2 ^ 63 ->
  exists r', write (file_ops pl) r data = Ok (r', len data) /\ obliging (os (inner r')) /\
    file_for pl cap q rd true others (if cap =? 0 then Resting else InWrites)
      (Store (put (bytes s) (at_ s) data) (at_ s + len data)) r'.
Proof.
  intros pl cap q rd others p s r data S B P M G. pose proof (len_nonneg data).
  assert (Raw : forall r0, file_for pl cap q rd true others Resting s r0 -> obliging (os (inner r0)) ->
    exists c', raw_write (file_ops pl) (inner r0) data = Ok (c', len data) /\ obliging (os c') /\
      file_for pl cap q rd true others Resting (Store (put (bytes s) (at_ s) data) (at_ s + len data)) (Resource c' (buf r0))).
  { intros r0 [(c & a & O & A0 & I) K CM At Fi Ot U] B0. destruct I as (-> & -> & I3 & I4 & I5 & I6).
    unfold file_ops. cbn [raw_write].
    destruct (raw_write_full pl (inner r0) q rd (bytes s) (at_ s) data O A0 M B0) as (s' & E & X1 & X2 & X3 & X4).
    exists s'. split; [assumption|]. split; [assumption|]. constructor; cbn [inner buf bytes at_]; try assumption; try tauto; try lia.
    - exists (put (bytes s) (at_ s) data), (at_ s + len data). split; [assumption|]. split; [lia|].
      cbn [in_stage bytes at_]. rewrite X2. tauto.
    - rewrite len_put by lia. destruct (len data =? 0); lia.
    - intros x Hx. rewrite X3; auto. }
  assert (K := ff_cap _ _ _ _ _ _ _ _ _ S). assert (U := ff_unbuffered _ _ _ _ _ _ _ _ _ S).
  pose proof (capacity_nonneg (buf r)).
  unfold write. rewrite K. destruct (0 <? cap) eqn:Zc.
  - replace (cap =? 0) with false by lia.
    assert (S1 : file_for pl cap q rd true others InWrites s r).
    { destruct p; [apply begin_writes; [assumption|lia]|congruence|assumption]. }
    unfold write_buffered. change size_of with len. rewrite K.
    destruct (cap <? bpos (buf r) + len data) eqn:Full; cbn [andb].
    + destruct (flush_file_step pl cap q rd true others InWrites s r S1 B ltac:(reflexivity)) as (r1 & E1 & B1 & S2).
      rewrite E1. cbn [bind]. destruct (cap <? len data) eqn:Big.
      * destruct (Raw r1 S2 B1) as (c' & E2 & B2 & S3). rewrite E2. cbn [bind]. eexists. split; [reflexivity|].
        split; [assumption|]. apply begin_writes; [assumption|lia].
      * destruct r1 as [c1 b1]. cbn [inner buf] in *.
        destruct (write_file_buffer pl cap q rd true others s c1 b1 data) as (b' & E2 & S3); try lia.
        { apply begin_writes; [assumption|lia]. }
        { destruct S2 as [(? & ? & ? & ? & I) ? ? ? ? ? ?]. cbn [inner buf] in I. destruct I as (? & ? & ? & ? & ? & I6). rewrite I6. lia. }
        rewrite E2. cbn [bind]. eauto.
    + cbn [bind]. destruct r as [c1 b1]. cbn [inner buf] in *.
      destruct (write_file_buffer pl cap q rd true others s c1 b1 data S1) as (b' & E2 & S3); try lia.
      rewrite E2. cbn [bind]. eauto.
  - assert (C0 : cap = 0) by lia. replace (cap =? 0) with true by lia. rewrite (U C0) in *.
    destruct (Raw r S B) as (c' & E2 & B2 & S3). rewrite E2. cbn [bind]. eauto.
Qed.

(* -------------------------------------------------------------------- seeks *)

Lemma seek_file_raw : forall pl cap q rd wr others p s r n o, file_for pl cap q rd wr others p s r ->
  p <> InWrites -> (o = Current -> p <> InReads) -> 0 <= file_target s n o < 2 ^ 63 ->
  let i := seek_raw pl (inner r) n (reference o) in
  file_for pl cap q rd wr others Resting (Store (bytes s) (file_target s n o)) (Resource i (set_read_dirty (buf r) true)) /\
  script (os i) = script (os (inner r)) /\
  (p = Resting -> file_for pl cap q rd wr others Resting (Store (bytes s) (file_target s n o)) (Resource i (buf r))).
Proof.
  intros pl cap q rd wr others p s r n o [(c & a & O & A0 & I) K CM At Fi Ot U] P1 P2 T i.
  assert (C : c = bytes s) by (destruct p; cbn [in_stage] in I; [tauto|tauto|congruence]). subst c.
  assert (CO := content_of_opened _ _ _ _ _ _ O).
  assert (AA : o = Current -> a = at_ s) by (intro X; specialize (P2 X); destruct p; cbn [in_stage] in I; [tauto|congruence|congruence]).
  destruct O as [(k & h & L & H1 & H2 & H3 & H4) D].
  assert (E : i = Sys (set_handle (os (inner r)) k (Some (move_to h (file_target s n o)))) (descriptor (inner r)) 0).
  { unfold i, seek_raw. destruct o; cbn [reference file_target] in *.
    - replace (match pl with UnixLike => Z.max 0 n | Windows => n end) with n by (destruct pl; lia).
      unfold sys_seek. rewrite L. replace ((0 <=? n) && (n <? 2 ^ 63)) with true by lia. reflexivity.
    - replace (match pl with UnixLike => n | Windows => n end) with n by (destruct pl; reflexivity).
      unfold sys_seek. rewrite L, H4, (AA eq_refl).
      replace ((0 <=? at_ s + n) && (at_ s + n <? 2 ^ 63)) with true by lia. reflexivity.
    - replace (match pl with UnixLike => n | Windows => n end) with n by (destruct pl; reflexivity).
      unfold sys_seek. rewrite L, H1, CO. change size_of with len.
      replace ((0 <=? len (bytes s) + n) && (len (bytes s) + n <? 2 ^ 63)) with true by lia. reflexivity. }
  rewrite E. clear E i. cbn [os script set_handle].
  assert (O' : opened (Sys (set_handle (os (inner r)) k (Some (move_to h (file_target s n o)))) (descriptor (inner r)) 0)
      q rd wr (bytes s) (file_target s n o)).
  { constructor; cbn [os descriptor]; [|exact D]. exists k, (move_to h (file_target s n o)).
    split; [now apply lookup_set with h|]. cbn [move_to file_name readable writable offset]. tauto. }
  split; [|split; [reflexivity|]].
  - constructor; cbn [inner buf bytes at_]; try assumption; try tauto.
    exists (bytes s), (file_target s n o). split; [assumption|]. split; [lia|].
    cbn [in_stage bytes at_ set_read_dirty mem filled bpos read_dirty write_dirty filled_last].
    split; [reflexivity|]. split; [reflexivity|]. split; [reflexivity|]. split; [reflexivity|]. split; [|reflexivity].
    destruct p; cbn [in_stage] in I; [tauto|tauto|congruence].
  - intros ->. constructor; cbn [inner buf bytes at_]; try assumption; try tauto.
    exists (bytes s), (file_target s n o). split; [assumption|]. split; [lia|].
    cbn [in_stage bytes at_ filled_last] in *. tauto.
Qed.

Definition keeps (pl : platform) (cap : Z) (q : N) (m : access_mode) (others : N -> option (list N))
    (p : stage) (s : store) (f : file) : Prop :=
  file_for pl cap q (mode_reads m) (mode_writes m) others p s (res f) /\ mode f = m.

Lemma obliging_short : forall pl w, obliging w -> no_short_read_on_unix pl w /\ no_failure w.
Proof.
  intros pl w H. split; [right|]; unfold no_failure; (eapply Forall_impl; [|exact H]); intros r ->; [now left|discriminate].
Qed.

Lemma call_file_step : forall pl cap q m others p s f c, keeps pl cap q m others p s f ->
  obliging (os (inner (res f))) -> permits m c = true -> file_allowed (chunk_max pl) cap s p c ->
  (p = InWrites -> mode_writes m = true) ->
  exists f', call_file pl f c = Ok (f', Returned (snd (file_call s c))) /\ path f' = path f /\
    obliging (os (inner (res f'))) /\ keeps pl cap q m others (next_stage cap p c) (fst (file_call s c)) f'.
Proof.
  intros pl cap q m others p s f c [S Md] B Pm A W. destruct (obliging_short pl _ B) as [NS NF].
  assert (U := ff_unbuffered _ _ _ _ _ _ _ _ _ S).
  destruct c as [block n|data| |n o|n|n]; cbn [call_file permits file_allowed file_call fst snd] in *.
  - destruct A as (A1 & A2 & A3 & A4). rewrite Pm in S.
    destruct (read_file_step pl cap q _ others p s (res f) block n S NS) as (r' & d & E & E1 & E2 & E3 & S'); try assumption.
    specialize (E2 NF). subst d. unfold file_read. rewrite Md.
    destruct m; try discriminate; rewrite E; cbn [bind answered]; (eexists; split; [reflexivity|]); cbn [path res];
      (split; [reflexivity|]); (split; [now apply obliging_kept with (os (inner (res f)))|]);
      (split; [|reflexivity]); cbn [mode_reads res]; unfold next_stage; exact S'.
  - destruct A as (A1 & A2 & A3). rewrite Pm in S.
    destruct (write_file_step pl cap q _ others p s (res f) data S B) as (r' & E & B' & S'); try assumption.
    unfold file_write. rewrite Md.
    destruct m; try discriminate; rewrite E; cbn [bind answered]; (eexists; split; [reflexivity|]); cbn [path res];
      (split; [reflexivity|]); (split; [assumption|]);
      (split; [|reflexivity]); cbn [mode_writes res]; unfold next_stage; exact S'.
  - destruct (flush_file_step pl cap q _ _ others p s (res f) S B W) as (r' & E & B' & S').
    unfold file_flush. rewrite E. cbn [bind]. eexists. split; [reflexivity|]. cbn [path res].
    split; [reflexivity|]. split; [assumption|]. split; [|assumption]. cbn [res]. unfold next_stage.
    destruct (cap =? 0) eqn:Z; [rewrite (U ltac:(lia)) in S'|]; exact S'.
  - destruct (flush_file_step pl cap q _ _ others p s (res f) S B W) as (r' & E & B' & S').
    unfold file_seek. rewrite E. cbn [bind noexcept]. eexists. split; [reflexivity|]. cbn [path res inner].
    destruct (seek_file_raw pl cap q _ _ others _ s r' n o S') as (X1 & X2 & _); [destruct p; discriminate| |apply A|].
    { intros ->. destruct A as [_ A]. specialize (A eq_refl). destruct p; congruence. }
    split; [reflexivity|]. split; [unfold obliging; now rewrite X2|]. split; [|assumption]. cbn [res].
    replace (next_stage cap p (SetPosition n o)) with Resting by (unfold next_stage; now destruct (cap =? 0)). assumption.
  - destruct A as (A1 & ->).
    destruct (seek_file_raw pl cap q _ _ others _ s (res f) (- n) Current S) as (_ & X2 & X3); [discriminate|discriminate|assumption|].
    unfold file_go. eexists. split; [reflexivity|]. cbn [path res inner]. split; [reflexivity|].
    split; [unfold obliging; cbn [reference] in X2; rewrite X2; exact B|]. split; [|assumption]. cbn [res].
    replace (next_stage cap Resting (GoBack n)) with Resting by (unfold next_stage; now destruct (cap =? 0)). now apply X3.
  - destruct A as (A1 & ->).
    destruct (seek_file_raw pl cap q _ _ others _ s (res f) n Current S) as (_ & X2 & X3); [discriminate|discriminate|assumption|].
    unfold file_go. eexists. split; [reflexivity|]. cbn [path res inner]. split; [reflexivity|].
    split; [unfold obliging; cbn [reference] in X2; rewrite X2; exact B|]. split; [|assumption]. cbn [res].
    replace (next_stage cap Resting (GoForward n)) with Resting by (unfold next_stage; now destruct (cap =? 0)). now apply X3.
Qed.

Lemma writes_stage : forall cap p c m, permits m c = true -> (p = InWrites -> mode_writes m = true) ->
  next_stage cap p c = InWrites -> mode_writes m = true.
Proof.
  intros cap p c m Pm W. unfold next_stage. destruct (cap =? 0); [discriminate|].
  destruct c; try discriminate; auto. destruct p; discriminate.
Qed.

Lemma run_file_steps : forall pl cap q m others cs p s f, keeps pl cap q m others p s f ->
  obliging (os (inner (res f))) -> Forall (fun c => permits m c = true) cs ->
  all_file_allowed (chunk_max pl) cap s p cs -> (p = InWrites -> mode_writes m = true) ->
  exists f', run_file pl f cs = Ok (f', map Returned (snd (file_calls s cs))) /\ path f' = path f /\
    obliging (os (inner (res f'))) /\ keeps pl cap q m others (last_stage cap p cs) (fst (file_calls s cs)) f' /\
    (last_stage cap p cs = InWrites -> mode_writes m = true).
Proof.
  intros pl cap q m others. induction cs as [|c cs IH]; intros p s f K B P A W; cbn [run_file file_calls last_stage].
  - exists f. cbn [fst snd map]. auto.
  - destruct A as [A1 A2]. inversion P as [|? ? P1 P2]; subst.
    destruct (call_file_step pl cap q m others p s f c K B P1 A1 W) as (f1 & E1 & Q1 & B1 & K1).
    rewrite E1. cbn [bind].
    destruct (IH _ _ f1 K1 B1 P2 A2) as (f2 & E2 & Q2 & B2 & K2 & W2). { apply writes_stage; assumption. }
    rewrite E2. cbn [bind]. destruct (file_call s c) as [s1 a1]. cbn [fst snd] in *.
    destruct (file_calls s1 cs) as [s2 l]. cbn [fst snd map] in *. exists f2.
    split; [reflexivity|]. split; [congruence|]. auto.
Qed.
