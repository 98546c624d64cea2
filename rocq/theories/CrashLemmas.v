(** Recorded calls are the calls; what each system call leaves. *)
From Coq Require Import NArith ZArith List Bool Lia.
From Coq Require Import ZifyBool ZifyNat ZifyN.
From Verif Require Import Base Integers ResourceSpec ResourceModel ResourceText FileSpec FileModel FileText.
From Verif Require Import ResourceLemmas ResourceLemmas2 FileLemmas FileLemmas2 FileLemmas3 CrashSpec CrashModel.
Import ListNotations.
Open Scope Z_scope.

(* ------------------------------------------------------------------ erasure *)

Lemma blocks_erased : forall pl fuel w fd d n t l,
  bind (watched_blocks pl fuel w fd d n t l) (fun '(w, k, _) => Ok (w, k)) = write_blocks pl fuel w fd d n t.
Proof.
  intros pl. induction fuel as [|fuel IH]; intros w fd d n t l; cbn [watched_blocks write_blocks]; destruct (n <=? 0); try reflexivity.
  destruct (sys_write w fd (firstn (Z.to_nat (Z.min n (chunk_max pl))) d)) as [w' r].
  destruct (match r with Some k => k | None => 0 end =? Z.min n (chunk_max pl)); [apply IH|reflexivity].
Qed.

Lemma raw_erased : forall pl s d,
  bind (watched_write_raw pl s d) (fun '(s, k) => Ok (seen s, k)) = file_write_raw pl (seen s) d.
Proof.
  intros pl s d. unfold watched_write_raw, file_write_raw.
  rewrite <- (blocks_erased pl _ _ _ d (size_of d) 0 (tries s)).
  destruct (watched_blocks _ _ _ _ _ _ _ _) as [[[w k] l]| | | |]; reflexivity.
Qed.

Lemma flush_erased : forall pl r,
  bind (flush (watched_ops pl) r) (fun r => Ok (unwatch r)) = flush (file_ops pl) (unwatch r).
Proof.
  intros pl [s b]. unfold flush, unwatch. cbn [inner buf]. destruct (write_dirty b); [|reflexivity].
  destruct (slice (mem b) 0 (bpos b)) as [d| | | |]; try reflexivity. cbn [bind watched_ops file_ops raw_write].
  rewrite <- raw_erased. destruct (watched_write_raw pl s d) as [[s' k]| | | |]; reflexivity.
Qed.

Lemma write_erased : forall pl r d,
  bind (write (watched_ops pl) r d) (fun '(r, k) => Ok (unwatch r, k)) = write (file_ops pl) (unwatch r) d.
Proof.
  intros pl r d. unfold write. change (buf (unwatch r)) with (buf r). destruct (0 <? capacity (buf r)).
  - unfold write_buffered. change (buf (unwatch r)) with (buf r).
    assert (X : bind (if capacity (buf r) <? bpos (buf r) + size_of d then flush (watched_ops pl) r else Ok r) (fun r => Ok (unwatch r))
      = if capacity (buf r) <? bpos (buf r) + size_of d then flush (file_ops pl) (unwatch r) else Ok (unwatch r)).
    { destruct (capacity (buf r) <? bpos (buf r) + size_of d); [apply flush_erased|reflexivity]. }
    rewrite <- X. destruct (if capacity (buf r) <? bpos (buf r) + size_of d then flush (watched_ops pl) r else Ok r) as [r1| | | |]; try reflexivity.
    cbn [bind]. destruct ((capacity (buf r) <? bpos (buf r) + size_of d) && (capacity (buf r) <? size_of d)).
    + cbn [watched_ops file_ops raw_write unwatch inner buf]. rewrite <- raw_erased.
      destruct (watched_write_raw pl (inner r1) d) as [[s' k]| | | |]; reflexivity.
    + cbn [unwatch buf inner]. destruct (buffer_write (buf r1) d) as [b| | | |]; reflexivity.
  - cbn [watched_ops file_ops raw_write]. cbn [unwatch inner]. rewrite <- raw_erased.
    destruct (watched_write_raw pl (inner r) d) as [[s' k]| | | |]; reflexivity.
Qed.

Lemma call_erased : forall pl f c, bind (watched_call pl f c) (fun '(f, a, _) => Ok (f, a)) = call_file pl f c.
Proof.
  intros pl f c. destruct c as [b n|d| |n o|n|n]; cbn [watched_call call_file]; try reflexivity.
  - destruct (file_read pl f b n) as [[f' r]| | | |]; reflexivity.
  - unfold file_write. pose proof (write_erased pl (watch (res f)) d) as E.
    replace (unwatch (watch (res f))) with (res f) in E by (destruct (res f); reflexivity). rewrite <- E.
    destruct (mode f); try reflexivity; destruct (write (watched_ops pl) (watch (res f)) d) as [[r k]| | | |]; reflexivity.
  - unfold file_flush. pose proof (flush_erased pl (watch (res f))) as E.
    replace (unwatch (watch (res f))) with (res f) in E by (destruct (res f); reflexivity). rewrite <- E.
    destruct (flush (watched_ops pl) (watch (res f))) as [r| | | |]; reflexivity.
  - unfold file_seek. pose proof (flush_erased pl (watch (res f))) as E.
    replace (unwatch (watch (res f))) with (res f) in E by (destruct (res f); reflexivity). rewrite <- E.
    destruct (flush (watched_ops pl) (watch (res f))) as [r| | | |]; reflexivity.
Qed.

Lemma close_erased : forall pl f, bind (watched_close pl f) (fun '(f, _) => Ok f) = file_close pl f.
Proof.
  intros pl f. unfold watched_close, file_close. pose proof (call_erased pl f Flush) as E. cbn [call_file] in E.
  destruct (watched_call pl f Flush) as [[[f1 a1] l1]| | | |]; destruct (file_flush pl f) as [f2| | | |]; cbn [bind noexcept] in *; try discriminate; try congruence.
Qed.

(* ---------------------------------------------------------- the system calls *)

Definition one (s : sys) (d : list N) : list attempt :=
  match d with [] => [] | _ => [Attempt (os s) (descriptor s) d] end.

Lemma watched_raw_one : forall pl s l d s' k, len d <= chunk_max pl -> file_write_raw pl s d = Ok (s', k) ->
  watched_write_raw pl (Watched s l) d = Ok (Watched s' (l ++ one s d), k).
Proof.
  intros pl s l d s' k M. unfold file_write_raw, watched_write_raw. cbn [seen tries]. change size_of with len.
  pose proof (len_nonneg d). destruct (chunk_count_pos pl (len d) ltac:(lia)) as [u ->].
  cbn [write_blocks watched_blocks]. destruct (len d <=? 0) eqn:Z.
  { assert (E : d = []) by (apply len_zero; lia). subst d. cbn [bind one]. intro X. injection X as <- <-. now rewrite app_nil_r. }
  rewrite Z.min_l by lia. change (firstn (Z.to_nat (len d)) d) with (take (len d) d). rewrite (take_all (len d) d) by lia.
  destruct (sys_write (os s) (descriptor s) d) as [w r].
  replace (one s d) with [Attempt (os s) (descriptor s) d] by (destruct d; [discriminate|reflexivity]).
  destruct (match r with Some k => k | None => 0 end =? len d) eqn:E.
  - destruct u; cbn [write_blocks watched_blocks]; replace (len d - len d <=? 0) with true by lia; cbn [bind];
      intro X; injection X as <- <-; reflexivity.
  - cbn [bind]. intro X; injection X as <- <-; reflexivity.
Qed.

Lemma left_at_cases : forall s q rd c a d r, opened s q rd true c a ->
  exists k, 0 <= k <= len d /\ left_at (Attempt (os s) (descriptor s) d) r q = Some (put c a (take k d)) /\
    (forall x, x <> q -> left_at (Attempt (os s) (descriptor s) d) r x = disk (os s) x) /\
    (r = Refuse -> k = 0) /\ (r = InFull -> k = len d).
Proof.
  intros s q rd c a d r [(n & h & L & H1 & H2 & H3 & H4) D]. unfold left_at. cbn [before on data].
  set (w := World _ _ _ _). pose proof (len_nonneg d).
  assert (L1 : lookup w (descriptor s) = Some (n, h)) by (destruct (descriptor s); exact L).
  rewrite <- H1 in D. destruct (sys_write_cases w (descriptor s) n h c d L1 H3 D) as (w' & k & X & _ & X2 & X3).
  rewrite X. cbn [fst]. rewrite <- H1, <- H4. destruct k as [k|].
  - destruct X3 as (X3 & X4 & _ & X5). exists k. split; [assumption|]. split; [assumption|]. split; [assumption|].
    split; [|intros ->; now apply X4]. intros ->. unfold sys_write in X. rewrite L1, H3 in X. cbn [respond w script] in X. discriminate.
  - destruct X3 as (X3 & _ & X5). exists 0. rewrite take_0, put_nil. split; [lia|]. split; [assumption|]. split; [assumption|].
    split; [reflexivity|]. unfold response_now in X3. cbn [w script hd] in X3. intros ->. discriminate.
Qed.

Definition flush_log (r : resource sys) : list attempt :=
  if write_dirty (buf r) then one (inner r) (take (bpos (buf r)) (mem (buf r))) else [].

Lemma flush_watch : forall pl r r' l, 0 <= bpos (buf r) <= capacity (buf r) -> capacity (buf r) <= chunk_max pl ->
  flush (file_ops pl) r = Ok r' ->
  flush (watched_ops pl) (Resource (Watched (inner r) l) (buf r)) = Ok (Resource (Watched (inner r') (l ++ flush_log r)) (buf r')).
Proof.
  intros pl [s b] r' l B C. unfold flush, flush_log. cbn [inner buf] in *. destruct (write_dirty b).
  - unfold capacity in *. change size_of with len in *.
    rewrite slice_ok by lia. cbn [bind]. rewrite drop_0. cbn [file_ops watched_ops raw_write].
    destruct (file_write_raw pl s (take (bpos b) (mem b))) as [[s' k]| | | |] eqn:E; try discriminate. cbn [bind].
    intro X. injection X as <-. rewrite (watched_raw_one pl s l _ s' k) by (try exact E; rewrite len_take by lia; lia).
    reflexivity.
  - intro X. injection X as <-. now rewrite app_nil_r.
Qed.

(** The system calls of a write. *)
Definition write_log (pl : platform) (r : resource sys) (d : list N) : list attempt :=
  if 0 <? capacity (buf r) then
    if capacity (buf r) <? bpos (buf r) + len d then
      flush_log r ++ (if capacity (buf r) <? len d then
                        match flush (file_ops pl) r with Ok r1 => one (inner r1) d | _ => [] end else [])
    else []
  else one (inner r) d.

Lemma write_watch : forall pl r d r' k, 0 <= bpos (buf r) <= capacity (buf r) -> capacity (buf r) <= chunk_max pl ->
  len d <= chunk_max pl -> write (file_ops pl) r d = Ok (r', k) ->
  write (watched_ops pl) (watch r) d = Ok (Resource (Watched (inner r') (write_log pl r d)) (buf r'), k).
Proof.
  intros pl r d r' k B C D. unfold write, write_log, watch. cbn [buf inner]. change size_of with len.
  destruct (0 <? capacity (buf r)).
  - unfold write_buffered. cbn [buf inner]. change size_of with len.
    destruct (capacity (buf r) <? bpos (buf r) + len d); cbn [andb].
    + destruct (flush (file_ops pl) r) as [r1| | | |] eqn:F; try discriminate. cbn [bind].
      rewrite (flush_watch pl r r1 [] B C F). cbn [bind app buf inner].
      destruct (capacity (buf r) <? len d).
      * cbn [file_ops watched_ops raw_write].
        destruct (file_write_raw pl (inner r1) d) as [[s' j]| | | |] eqn:E; try discriminate. cbn [bind].
        intro X. injection X as <- <-. rewrite (watched_raw_one pl _ _ _ s' j) by assumption. reflexivity.
      * destruct (buffer_write (buf r1) d) as [b| | | |]; try discriminate. cbn [bind]. intro X. injection X as <- <-.
        cbn [inner buf]. now rewrite app_nil_r.
    + cbn [bind]. cbn [buf inner]. destruct (buffer_write (buf r) d) as [b| | | |]; try discriminate. cbn [bind].
      intro X. injection X as <- <-. reflexivity.
  - cbn [file_ops watched_ops raw_write].
    destruct (file_write_raw pl (inner r) d) as [[s' j]| | | |] eqn:E; try discriminate. cbn [bind].
    intro X. injection X as <- <-. now rewrite (watched_raw_one pl _ _ _ s' j).
Qed.
