(** Reads when the operating system transfers less than asked for, and unbuffered
    writes whatever it does. *)
From Coq Require Import NArith ZArith List Bool Lia.
From Coq Require Import ZifyBool ZifyNat ZifyN.
From Verif Require Import Base Integers ResourceSpec ResourceModel ResourceText FileSpec FileModel FileText.
From Verif Require Import ResourceLemmas ResourceLemmas2 FileLemmas FileLemmas2 FileLemmas3 FileLemmas4.
Import ListNotations.
Open Scope Z_scope.

Lemma prefix_concat : forall d e n l, 0 <= n -> some_prefix d (take n l) -> e = take (len e) (drop (len d) l) ->
  d ++ e = take (len (d ++ e)) l.
Proof.
  intros d e n l N H E. pose proof (some_prefix_of _ _ _ H N) as D. pose proof (len_nonneg d). pose proof (len_nonneg e).
  rewrite len_app, take_split by lia. congruence.
Qed.

Lemma drop_some : forall n l, 0 <= n -> drop (len (take n l)) l = drop n l.
Proof.
  intros n l N. rewrite len_take by lia. destruct (Z.le_ge_cases n (len l)).
  - now rewrite Z.min_l by lia.
  - rewrite Z.min_r by lia. rewrite !drop_all by lia. reflexivity.
Qed.

Lemma run_reads : forall pl cap q m others rs p s f, keeps pl (Z.of_nat cap) q m others p s f -> mode_reads m = true ->
  no_short_read_on_unix pl (os (inner (res f))) -> readable_sizes pl cap rs -> p <> InWrites ->
  exists ds f', run_file pl f (read_calls rs) = Ok (f', map Returned (got_each ds rs)) /\
    Forall2 (fun d '(_, n) => len d <= n) ds rs /\
    concat ds = take (len (concat ds)) (drop (at_ s) (bytes s)) /\
    (no_failure (os (inner (res f))) -> ds = blocks (drop (at_ s) (bytes s)) (map snd rs)).
Proof.
  intros pl cap q m others. induction rs as [|[b n] rs IH]; intros p s f K Md NS RS P.
  - exists [], f. split; [reflexivity|]. split; [constructor|]. split; [now rewrite take_0|reflexivity].
  - inversion RS as [|? ? R0 RS']; subst. destruct R0 as (R1 & R2 & R3). destruct K as [S M]. rewrite Md in S.
    destruct (read_file_step pl _ q _ others p s (res f) b n S NS R1 R2) as (r' & d & E & E1 & E2 & E3 & S'); [lia|assumption|].
    assert (CE : call_file pl f (Read b n) = Ok (File r' (path f) (mode f), Returned (Got (d ++ drop (len d) b) (len d)))).
    { cbn [call_file]. unfold file_read. rewrite M. destruct m; try discriminate; rewrite E; reflexivity. }
    cbn [read_calls map run_file]. rewrite CE. cbn [bind].
    destruct (IH (if Z.of_nat cap =? 0 then Resting else InReads) (Store (bytes s) (at_ s + len d)) (File r' (path f) (mode f))) as (ds & f' & X1 & X2 & X3 & X4).
    + split; [cbn [res]; rewrite Md; exact S'|exact M].
    + exact Md.
    + destruct NS as [NS|NS]; [now left|right; now apply E3].
    + exact RS'.
    + destruct (Z.of_nat cap =? 0); discriminate.
    + unfold read_calls in X1. rewrite X1. cbn [bind]. exists (d :: ds), f'. cbn [res inner bytes at_] in *.
      pose proof (ff_at _ _ _ _ _ _ _ _ _ S) as At. pose proof (len_nonneg d).
      unfold next_bytes in E1. destruct (len_some_prefix _ _ _ E1 ltac:(lia)) as [L1 L2].
      split; [reflexivity|]. split; [constructor; assumption|].
      rewrite <- drop_drop in X3, X4 by lia.
      split.
      * cbn [concat]. apply prefix_concat with n; [lia|assumption|exact X3].
      * intro NF. specialize (E2 NF). unfold next_bytes in E2.
        assert (NF' : no_failure (os (inner r'))) by (apply E3; exact NF). specialize (X4 NF').
        cbn [map snd blocks]. rewrite X4, E2. f_equal. f_equal. now rewrite drop_some by lia.
Qed.

(* ------------------------------------------------------------------- writes *)

Lemma run_writes : forall pl q m others ds s f, keeps pl 0 q m others Resting s f -> mode_writes m = true ->
  Forall (fun d => len d <= chunk_max pl) ds -> at_ s + len (concat ds) < 2 ^ 63 ->
  exists es f', run_file pl f (map Write ds) = Ok (f', map (fun e => Returned (Wrote (len e))) es) /\
    Forall2 (fun e d => e = take (len e) d) es ds /\
    keeps pl 0 q m others Resting (Store (put (bytes s) (at_ s) (concat es)) (at_ s + len (concat es))) f'.
Proof.
  intros pl q m others. induction ds as [|d ds IH]; intros s f K Md SZ FT.
  - exists [], f. split; [reflexivity|]. split; [constructor|]. cbn [concat]. rewrite put_nil. change (len []) with 0.
    rewrite Z.add_0_r. destruct s. exact K.
  - inversion SZ as [|? ? Z1 SZ']; subst. cbn [concat] in FT. rewrite len_app in FT. pose proof (len_nonneg d).
    pose proof (len_nonneg (concat ds)).
    destruct K as [[(c & a & O & A0 & I) Kc CM At Fi Ot U] M]. cbn [in_stage] in I. destruct I as (-> & -> & I3 & I4 & I5 & I6).
    rewrite Md in O.
    destruct (raw_write_any pl (inner (res f)) q _ (bytes s) (at_ s) d O A0 Z1) as (s' & k & X & X1 & _ & X3 & X4 & X5 & X6).
    assert (CE : call_file pl f (Write d) = Ok (File (Resource s' (buf (res f))) (path f) (mode f), Returned (Wrote k))).
    { cbn [call_file]. unfold file_write, write. rewrite M, Kc. cbn [Z.ltb Z.compare]. unfold file_ops. cbn [raw_write].
      destruct m; try discriminate; rewrite X; reflexivity. }
    assert (Lk : len (take k d) = k) by (rewrite len_take by lia; lia).
    cbn [map run_file]. rewrite CE. cbn [bind].
    destruct (IH (Store (put (bytes s) (at_ s) (take k d)) (at_ s + k)) (File (Resource s' (buf (res f))) (path f) (mode f))) as (es & f' & Y1 & Y2 & Y3).
    + split; [|exact M]. cbn [res]. rewrite Md. constructor; cbn [inner buf bytes at_]; try assumption; try lia; try tauto.
      * eexists _, _. split; [exact X3|]. split; [lia|]. cbn [in_stage bytes at_]. rewrite X4. tauto.
      * rewrite len_put by lia. destruct (len (take k d) =? 0); lia.
      * intros x Hx. rewrite X5; auto.
    + exact Md.
    + exact SZ'.
    + cbn [at_]. lia.
    + rewrite Y1. cbn [bind]. exists (take k d :: es), f'. split; [cbn [map]; now rewrite Lk|].
      split; [constructor; [now rewrite Lk|assumption]|].
      cbn [bytes at_] in Y3. cbn [concat]. rewrite len_app, <- put_app, Lk by lia.
      replace (at_ s + (k + len (concat es))) with (at_ s + k + len (concat es)) by lia. exact Y3.
Qed.

Lemma close_resting : forall pl cap q m others s f, keeps pl cap q m others Resting s f ->
  exists f', file_close pl f = Ok f' /\ disk_of f' q = Some (bytes s) /\
    (forall x, x <> q -> disk_of f' x = others x) /\ is_open f' = false.
Proof.
  intros pl cap q m others s f [[(c & a & O & A0 & I) Kc CM At Fi Ot U] M].
  destruct I as (-> & -> & I3 & I4 & I5 & I6). unfold file_close, file_flush, flush. rewrite I5. cbn [bind noexcept res].
  eexists. split; [reflexivity|]. unfold disk_of, with_sys, is_open. cbn [path res inner os descriptor mode].
  assert (DK : disk (sys_close (os (inner (res f))) (descriptor (inner (res f)))) = disk (os (inner (res f))))
    by (destruct (descriptor (inner (res f))); reflexivity).
  rewrite DK. split; [apply O|]. split; [assumption|reflexivity].
Qed.

(** A loop reading blocks never writes beyond them. *)
Lemma firstn_short : forall (n : nat) (l : list N), (length (firstn n l) <= n)%nat.
Proof. intros. rewrite firstn_length. lia. Qed.

Lemma sys_read_length : forall w fd n w' d, 0 <= n -> sys_read w fd n = (w', Some d) -> len d <= n.
Proof.
  intros w fd n w' d N H. unfold sys_read in H. destruct (lookup w fd) as [[k h]|]; [|discriminate].
  destruct (readable h); [|discriminate]. rewrite respond_eq in H.
  set (w1 := World _ _ _ _) in H. cbv zeta in H.
  assert (A := firstn_short (Z.to_nat n) (skipn (Z.to_nat (offset h)) (content_of w1 (file_name h)))).
  destruct (response_now w); [discriminate| |]; injection H as _ <-; unfold len; rewrite ?(firstn_length (Z.to_nat (Z.max 1 _))); lia.
Qed.

Lemma blit_within : forall dst off d n, 0 <= off -> len d <= n -> off + n <= len dst ->
  exists dst', blit dst off d = Ok dst' /\ len dst' = len dst /\ take off dst' = take off dst /\
    drop (off + n) dst' = drop (off + n) dst.
Proof.
  intros dst off d n O D L. pose proof (len_nonneg d). rewrite blit_ok by lia. eexists. split; [reflexivity|].
  split; [rewrite len_overwrite by lia; lia|]. split.
  - unfold overwrite. rewrite take_app_l by (rewrite len_take by lia; lia). rewrite take_take by lia. f_equal. lia.
  - unfold overwrite. rewrite drop_app_r by (rewrite len_take by lia; lia). rewrite len_take by lia.
    rewrite drop_app_r by lia. rewrite drop_drop by lia. f_equal. lia.
Qed.

Lemma unix_block_within : forall fuel w fd dst off n t, 0 <= off -> 0 <= n -> off + n <= len dst ->
  (match lookup w fd with Some (_, h) => length (drop (offset h) (content_of w (file_name h))) | None => O end < fuel)%nat ->
  (match lookup w fd with Some (_, h) => 0 <= offset h | None => True end) ->
  exists w' dst' k, unix_block fuel w fd dst off n t = Ok (w', dst', k) /\ len dst' = len dst /\
    take off dst' = take off dst /\ drop (off + n) dst' = drop (off + n) dst.
Proof.
  induction fuel as [|fuel IH]; intros w fd dst off n t O N D F A; [lia|]. cbn [unix_block].
  destruct (sys_read w fd n) as [w1 [d|]] eqn:E; [|eauto 10].
  destruct d as [|x d]; [eauto 10|]. set (dd := x :: d) in *.
  assert (Ld := sys_read_length _ _ _ _ _ N E). destruct (blit_within dst off dd n O Ld D) as (dst1 & B & L1 & T1 & D1).
  rewrite B. cbn [bind]. destruct (t + size_of dd =? n); [eauto 10|].
  destruct (lookup w fd) as [[k h]|] eqn:L; [|unfold sys_read in E; rewrite L in E; discriminate].
  destruct (readable h) eqn:R; [|unfold sys_read in E; rewrite L, R in E; discriminate].
  destruct (sys_read_cases w fd k h n L R N) as (w2 & r2 & E2 & DK & SC & C). rewrite E in E2. injection E2 as <- <-.
  destruct C as (C0 & C1 & C2 & C3 & C4). pose proof (len_nonneg dd).
  assert (NE : 0 < len dd) by (unfold dd, len; cbn [length]; lia).
  destruct (len_prefix _ _ _ C1 ltac:(lia)) as [K1 K2].
  destruct (IH w1 fd dst1 off n (t + size_of dd)) as (w' & dst' & k' & X & X1 & X2 & X3); try lia.
  - rewrite C4. unfold content_of. rewrite DK. cbn [move_to file_name offset].
    fold (content_of w (file_name h)). rewrite <- drop_drop by lia. unfold drop at 1. rewrite skipn_length. unfold len in *. lia.
  - rewrite C4. cbn [move_to offset]. lia.
  - rewrite X. exists w', dst', k'. split; [reflexivity|]. split; [congruence|]. split; congruence.
Qed.

Lemma windows_block_within : forall fuel w fd dst off n t, 0 <= off -> 0 <= t <= n -> off + n <= len dst ->
  (match lookup w fd with Some (_, h) => length (drop (offset h) (content_of w (file_name h))) | None => O end < fuel)%nat ->
  (match lookup w fd with Some (_, h) => 0 <= offset h | None => True end) ->
  exists w' dst' k, windows_block fuel w fd dst off n t = Ok (w', dst', k) /\ len dst' = len dst /\
    take off dst' = take off dst /\ drop (off + n) dst' = drop (off + n) dst.
Proof.
  intros fuel w fd dst off n t O T D F A. destruct fuel as [|fuel]; [lia|].
  destruct (lookup w fd) as [[k h]|] eqn:L.
  - destruct (readable h) eqn:R.
    + destruct (windows_block_got (S fuel) w fd k h dst off n t L R A O T D F) as (w' & d & X & _ & _ & X3 & _ & _).
      rewrite X. destruct (len_prefix _ _ _ X3 ltac:(lia)) as [K1 K2].
      destruct (blit_within dst (off + t) d (n - t) ltac:(lia) K1 ltac:(lia)) as (dst1 & B & L1 & T1 & D1).
      rewrite blit_ok in B by (pose proof (len_nonneg d); lia). injection B as ->.
      exists w', dst1, (t + len d). split; [reflexivity|]. split; [assumption|].
      replace (off + t + (n - t)) with (off + n) in D1 by lia. split; [|assumption].
      apply (f_equal (take off)) in T1. rewrite !take_take in T1 by lia. now rewrite Z.min_l in T1 by lia.
    + cbn [windows_block]. unfold sys_read. rewrite L, R. eauto 10.
  - cbn [windows_block]. unfold sys_read. rewrite L. eauto 10.
Qed.

Lemma read_block_within : forall pl w fd dst off n, 0 <= off -> 0 <= n -> off + n <= len dst -> sane w fd ->
  exists w' dst' k, read_block pl w fd dst off n = Ok (w', dst', k) /\ len dst' = len dst /\
    take off dst' = take off dst /\ drop (off + n) dst' = drop (off + n) dst.
Proof.
  intros pl w fd dst off n Oo N D S.
  assert (F : (match lookup w fd with Some (_, h) => length (drop (offset h) (content_of w (file_name h))) | None => O end < block_fuel w fd)%nat).
  { unfold block_fuel. destruct (lookup w fd) as [[k h]|]; [|lia]. unfold drop. rewrite skipn_length. lia. }
  unfold sane in S. unfold read_block. destruct pl.
  - now apply unix_block_within.
  - apply windows_block_within; try assumption. lia.
Qed.

Lemma read_blocks_within : forall pl w fd dst n, 0 <= n <= chunk_max pl -> n <= len dst -> sane w fd ->
  exists w' dst' k, read_blocks pl (chunk_count pl n) w fd dst 0 n 0 = Ok (w', dst', k) /\ len dst' = len dst /\
    drop n dst' = drop n dst.
Proof.
  intros pl w fd dst n N D S. destruct (chunk_count_pos pl n ltac:(lia)) as [u ->]. cbn [read_blocks].
  destruct (n <=? 0) eqn:Z; [eauto 10|]. rewrite Z.min_l by lia.
  destruct (read_block_within pl w fd dst 0 n ltac:(lia) ltac:(lia) ltac:(lia) S) as (w' & dst' & k & X & X1 & _ & X3).
  rewrite X. cbn [bind]. rewrite Z.add_0_l in X3. exists w', dst', (0 + k). split; [|tauto].
  destruct (k =? n); [|reflexivity]. destruct u; cbn [read_blocks]; replace (n - n <=? 0) with true by lia; reflexivity.
Qed.

Lemma read_unbuffered_within : forall pl f block n, capacity (buf (res f)) = 0 -> mode_reads (mode f) = true ->
  sane (os (inner (res f))) (descriptor (inner (res f))) -> 0 <= n <= chunk_max pl -> n <= len block ->
  exists f' block' k, file_read pl f block n = Ok (f', Returned (block', k)) /\ len block' = len block /\
    drop n block' = drop n block.
Proof.
  intros pl f block n C M S N D.
  destruct (read_blocks_within pl (os (inner (res f))) (descriptor (inner (res f))) block n N D S) as (w' & dst' & k & X & X1 & X2).
  unfold file_read, read. rewrite C. cbn [Z.ltb Z.compare]. unfold file_ops. cbn [raw_read]. unfold file_read_raw. rewrite X.
  cbn [bind]. destruct (mode f); try discriminate; eauto 10.
Qed.

(** The buffer's capacity never changes. *)
Lemma call_unbuffered : forall pl f c f' a, call_file pl f c = Ok (f', a) -> capacity (buf (res f)) = 0 ->
  capacity (buf (res f')) = 0.
Proof.
  intros pl f c f' a H C. destruct c as [block n|data| |n o|n|n]; cbn [call_file] in H.
  - unfold file_read, read in H. rewrite C in H. cbn [Z.ltb Z.compare] in H.
    destruct (raw_read (file_ops pl) (inner (res f)) block 0 n LeanRetrieval) as [[[s1 d1] k1]| | | |]; cbn [bind] in H;
      destruct (mode f); cbn [bind] in H; try discriminate; injection H as <- _; exact C.
  - unfold file_write, write in H. rewrite C in H. cbn [Z.ltb Z.compare] in H.
    destruct (raw_write (file_ops pl) (inner (res f)) data) as [[s1 k1]| | | |]; cbn [bind] in H;
      destruct (mode f); cbn [bind] in H; try discriminate; injection H as <- _; exact C.
  - unfold file_flush, flush in H. destruct (write_dirty (buf (res f))).
    + destruct (slice (mem (buf (res f))) 0 (bpos (buf (res f)))) as [d| | | |]; cbn [bind] in H; try discriminate.
      destruct (raw_write (file_ops pl) (inner (res f)) d) as [[s1 k1]| | | |]; cbn [bind] in H; try discriminate.
      injection H as <- _. exact C.
    + cbn [bind] in H. injection H as <- _. exact C.
  - unfold file_seek, flush in H. destruct (write_dirty (buf (res f))).
    + destruct (slice (mem (buf (res f))) 0 (bpos (buf (res f)))) as [d| | | |]; cbn [bind noexcept] in H; try discriminate.
      destruct (raw_write (file_ops pl) (inner (res f)) d) as [[s1 k1]| | | |]; cbn [bind noexcept] in H; try discriminate.
      injection H as <- _. exact C.
    + cbn [bind noexcept] in H. injection H as <- _. exact C.
  - injection H as <- _. exact C.
  - injection H as <- _. exact C.
Qed.

Lemma run_unbuffered : forall pl cs f f' l, run_file pl f cs = Ok (f', l) -> capacity (buf (res f)) = 0 ->
  capacity (buf (res f')) = 0.
Proof.
  intros pl. induction cs as [|c cs IH]; intros f f' l H C; cbn [run_file] in H.
  - injection H as <- _. exact C.
  - destruct (call_file pl f c) as [[f1 a]| | | |] eqn:E; cbn [bind] in H; try discriminate.
    destruct (run_file pl f1 cs) as [[f2 l2]| | | |] eqn:E2; cbn [bind] in H; try discriminate. injection H as <- _.
    eapply IH; [exact E2|]. eapply call_unbuffered; eassumption.
Qed.

(** A file object just constructed. *)
Lemma new_file_cases : forall pl w q m how cap f, new_file pl w q m how cap = Ok f ->
  mode f = m /\ path f = Some q /\ capacity (buf (res f)) = Z.of_nat cap /\
  sane (os (inner (res f))) (descriptor (inner (res f))) /\
  (is_open f = true -> response_now w <> Refuse).
Proof.
  intros pl w q m how cap f H. unfold new_file, file_open, is_open in H. cbn [res inner descriptor bind] in H.
  assert (C : capacity (new_buffer cap) = Z.of_nat cap) by (unfold capacity, size_of, new_buffer; cbn [mem]; now rewrite repeat_length).
  set (create := match how with Fail => match pl with UnixLike => false | Windows => true end | Create => true end) in H.
  assert (Main : forall w1 fd, sys_open w q create (mode_reads m) (mode_writes m) = (w1, fd) ->
    sane w1 fd /\ (fd <> None -> response_now w <> Refuse)).
  { intros w1 fd E. unfold sys_open in E. rewrite respond_eq in E. cbn [disk table unused script] in E.
    set (w2 := World _ _ _ (tl (script w))) in E. cbv zeta in E.
    assert (OK1 : forall c, sane (World (disk (set_content w2 q c))
        (set (table (set_content w2 q c)) (unused (set_content w2 q c)) (Some (Handle q 0 (mode_reads m) (mode_writes m))))
        (N.succ (unused (set_content w2 q c))) (script (set_content w2 q c))) (Some (unused (set_content w2 q c)))).
    { intro c. unfold sane, lookup. cbn [table]. rewrite set_same. cbn [offset]. lia. }
    destruct (response_now w), (disk w q), create; injection E as <- <-;
      (split; [first [exact I | apply OK1]|first [discriminate|congruence|intro X; discriminate]]). }
  destruct how, (disk w q) eqn:D; cbn [os] in H; rewrite ?D in H; cbn [bind] in H;
    try (injection H as <-; cbn [mode path res buf inner os descriptor]; split; [reflexivity|]; split; [reflexivity|];
         split; [exact C|]; split; [exact I|]; discriminate);
    (destruct (sys_open w q _ (mode_reads m) (mode_writes m)) as [w1 fd] eqn:E in H; cbn [bind] in H;
     injection H as <-; cbn [mode path res buf inner os descriptor is_open]; destruct (Main _ _ E) as [M1 M2];
     split; [reflexivity|]; split; [reflexivity|]; split; [exact C|]; split; [exact M1|];
     intro X; apply M2; unfold is_open in X; cbn [res inner descriptor] in X; destruct fd; congruence).
Qed.
