(** Lemmas on the model of files: the operating system and reads from it. *)
From Coq Require Import NArith ZArith List Bool Lia.
From Coq Require Import ZifyBool ZifyNat ZifyN.
From Verif Require Import Base Integers ResourceSpec ResourceModel ResourceText FileSpec FileModel FileText.
From Verif Require Import ResourceLemmas ResourceLemmas2.
Import ListNotations.
Open Scope Z_scope.

Lemma set_same : forall A (f : N -> option A) x v, set f x v x = v.
Proof. intros. unfold set. now rewrite N.eqb_refl. Qed.

Lemma set_other : forall A (f : N -> option A) x v y, y <> x -> set f x v y = f y.
Proof. intros. unfold set. destruct (N.eqb_spec y x); congruence. Qed.

Lemma lookup_set : forall w fd n h h', lookup w fd = Some (n, h) -> lookup (set_handle w n (Some h')) fd = Some (n, h').
Proof.
  intros w [k|] n h h' L; cbn [lookup] in *; [|discriminate].
  destruct (table w k) eqn:T; [|discriminate]. injection L as -> ->.
  cbn [set_handle table]. now rewrite set_same.
Qed.

(** The next response. *)
Definition response_now (w : world) : response := hd InFull (script w).

Lemma respond_eq : forall w, respond w = (response_now w, World (disk w) (table w) (unused w) (tl (script w))).
Proof. intros [d t u s]. unfold respond, response_now. cbn. destruct s; reflexivity. Qed.

Lemma Forall_tl : forall A (P : A -> Prop) l, Forall P l -> Forall P (tl l).
Proof. intros A P l H. destruct H; cbn; auto. Qed.

Lemma hd_Forall : forall (P : response -> Prop) l, P InFull -> Forall P l -> P (hd InFull l).
Proof. intros P l H F. destruct F; cbn; auto. Qed.

Lemma prefix_take : forall d k all, d = take k all -> 0 <= k -> d = take (len d) all.
Proof. intros d k all -> K. now rewrite take_len_take. Qed.

(** A read by the operating system. *)
Lemma sys_read_cases : forall w fd n h count, lookup w fd = Some (n, h) -> readable h = true -> 0 <= count ->
  let all := take count (drop (offset h) (content_of w (file_name h))) in
  exists w' r, sys_read w fd count = (w', r) /\ disk w' = disk w /\ script w' = tl (script w) /\
    match r with
    | None => response_now w = Refuse /\ lookup w' fd = Some (n, h)
    | Some d =>
        response_now w <> Refuse /\ d = take (len d) all /\ (response_now w = InFull -> d = all) /\
        (d = [] -> all = []) /\ lookup w' fd = Some (n, move_to h (offset h + len d))
    end.
Proof.
  intros w fd n h count L R C all. unfold sys_read. rewrite L, R, respond_eq.
  set (w1 := World _ _ _ _).
  assert (L1 : lookup w1 fd = Some (n, h)) by (destruct fd; exact L).
  change (firstn _ (skipn _ _)) with all. change size_of with len.
  destruct (response_now w) eqn:E.
  - exists w1, None. tauto.
  - eexists _, (Some (take (Z.max 1 k) all)). split; [reflexivity|].
    split; [reflexivity|]. split; [reflexivity|]. split; [discriminate|].
    split; [now rewrite take_len_take|]. split; [discriminate|]. split.
    + intro Z. assert (K : len (take (Z.max 1 k) all) = 0) by now rewrite Z.
      rewrite len_take in K by lia. apply len_zero. pose proof (len_nonneg all). lia.
    + now apply lookup_set with h.
  - eexists _, (Some all). split; [reflexivity|].
    split; [reflexivity|]. split; [reflexivity|]. split; [discriminate|].
    split; [now rewrite take_all by lia|]. split; [reflexivity|]. split; [auto|].
    now apply lookup_set with h.
Qed.

Lemma overwrite_overwrite : forall dst off a b, 0 <= off -> off + len a <= len dst ->
  overwrite (overwrite dst off a) (off + len a) b = overwrite dst off (a ++ b).
Proof. intros. apply overwrite_app. pose proof (len_nonneg a). lia. Qed.

(** What a loop reading blocks does.  It gets a beginning d of what there is. *)
Definition got (w : world) (fd : option N) (n : N) (h : handle) (dst : list N) (off count : Z)
    (x : outcome (world * list N * Z)) (before : Z) : Prop :=
  exists w' d, x = Ok (w', overwrite dst (off + before) d, before + len d) /\ disk w' = disk w /\
    (forall P : response -> Prop, Forall P (script w) -> Forall P (script w')) /\
    d = take (len d) (take (count - before) (drop (offset h) (content_of w (file_name h)))) /\
    (no_failure w -> d = take (count - before) (drop (offset h) (content_of w (file_name h)))) /\
    lookup w' fd = Some (n, move_to h (offset h + len d)).

Lemma move_to_self : forall h, move_to h (offset h + len []) = h.
Proof. intros []. unfold move_to. cbn. now rewrite Z.add_0_r. Qed.

Lemma move_to_twice : forall h a b, move_to (move_to h (offset h + a)) (offset (move_to h (offset h + a)) + b) = move_to h (offset h + (a + b)).
Proof. intros []. unfold move_to. cbn. intros. now rewrite Z.add_assoc. Qed.

Lemma len_prefix : forall d n l, d = take (len d) (take n l) -> 0 <= n -> len d <= n /\ len d <= len l.
Proof.
  intros d n l E H. assert (K : len d <= len (take n l)).
  { rewrite E at 1. rewrite len_take; [lia|apply len_nonneg]. }
  rewrite len_take in K by lia. lia.
Qed.

(** Two beginnings in turn. *)
Lemma prefix_twice : forall a b n l, 0 <= n -> a = take (len a) (take n l) ->
  b = take (len b) (take (n - len a) (drop (len a) l)) -> a ++ b = take (len (a ++ b)) (take n l).
Proof.
  intros a b n l N A B. pose proof (len_prefix _ _ _ A N) as [A1 A2].
  pose proof (len_prefix _ _ _ B ltac:(lia)) as [B1 B2].
  pose proof (len_nonneg a). pose proof (len_nonneg b).
  rewrite len_app, take_take by lia. rewrite take_take in A by lia. rewrite take_take in B by lia.
  rewrite Z.min_l in A, B |- * by lia.
  rewrite take_split by lia. congruence.
Qed.

Lemma full_twice : forall a n l, 0 <= n -> a = take (len a) (take n l) ->
  a ++ take (n - len a) (drop (len a) l) = take n l.
Proof.
  intros a n l N A. pose proof (len_prefix _ _ _ A N) as [A1 A2]. pose proof (len_nonneg a).
  rewrite take_take in A by lia. rewrite Z.min_l in A by lia.
  replace n with (len a + (n - len a)) at 2 by lia. rewrite take_split by lia. congruence.
Qed.

Lemma windows_block_got : forall fuel w fd n h dst off count before,
  lookup w fd = Some (n, h) -> readable h = true -> 0 <= offset h -> 0 <= off -> 0 <= before <= count ->
  off + count <= len dst -> (length (drop (offset h) (content_of w (file_name h))) < fuel)%nat ->
  got w fd n h dst off count (windows_block fuel w fd dst off count before) before.
Proof.
  induction fuel as [|fuel IH]; intros w fd n h dst off count before L R O F B D M; [lia|].
  cbn [windows_block].
  destruct (sys_read_cases w fd n h (count - before) L R ltac:(lia)) as (w' & r & E & DK & SC & C).
  rewrite E. destruct r as [d|].
  2:{ exists w', []. destruct C as [C1 C2]. change (len []) with 0. rewrite Z.add_0_r, overwrite_nil by lia.
      split; [reflexivity|]. split; [assumption|]. split; [intros P HP; rewrite SC; now apply Forall_tl|].
      split; [now rewrite take_0|]. split.
      - intro NF. exfalso. apply (hd_Forall (fun r => r <> Refuse) _ ltac:(discriminate) NF). exact C1.
      - now rewrite (move_to_self h : move_to h (offset h + 0) = h). }
  destruct C as (C0 & C1 & C2 & C3 & C4).
  pose proof (len_prefix _ _ _ C1 ltac:(lia)) as [K1 K2].
  change size_of with len. rewrite blit_ok by lia. cbn [bind].
  destruct (len d =? 0) eqn:Z0; cbn [orb].
  { apply Z.eqb_eq in Z0. apply len_zero in Z0. subst d. change (len []) with 0. rewrite Z.add_0_r.
    exists w', []. change (len []) with 0. rewrite Z.add_0_r.
    split; [reflexivity|]. split; [assumption|]. split; [intros P HP; rewrite SC; now apply Forall_tl|].
    split; [now rewrite take_0|]. split; [intros _; symmetry; now apply C3|].
    exact C4. }
  apply Z.eqb_neq in Z0.
  destruct (before + len d =? count) eqn:Z1.
  { apply Z.eqb_eq in Z1. exists w', d.
    split; [reflexivity|]. split; [assumption|]. split; [intros P HP; rewrite SC; now apply Forall_tl|].
    split; [assumption|]. split; [|assumption]. intros _.
    rewrite C1 at 1. rewrite take_all; [reflexivity|].
    rewrite len_take by lia. lia. }
  apply Z.eqb_neq in Z1.
  set (h' := move_to h (offset h + len d)) in *.
  assert (CO : content_of w' (file_name h') = content_of w (file_name h)) by (unfold content_of; now rewrite DK).
  pose proof (len_nonneg d).
  assert (DD : drop (offset h') (content_of w' (file_name h')) = drop (len d) (drop (offset h) (content_of w (file_name h)))).
  { rewrite CO. cbn [h' move_to offset]. now rewrite drop_drop by lia. }
  specialize (IH w' fd n h' (overwrite dst (off + before) d) off count (before + len d) C4 R).
  destruct IH as (w2 & b & X1 & X2 & X3 & X4 & X5 & X6); try lia.
  { cbn [h' move_to offset]. lia. }
  { rewrite len_overwrite; lia. }
  { rewrite DD. unfold drop at 1. rewrite skipn_length. unfold len in *. lia. }
  exists w2, (d ++ b). rewrite X1. rewrite DD in X4, X5.
  replace (count - (before + len d)) with (count - before - len d) in X4, X5 by lia.
  split.
  { f_equal. f_equal; [f_equal|].
    - rewrite Z.add_assoc, overwrite_overwrite; [reflexivity|lia|lia].
    - rewrite len_app. lia. }
  split; [congruence|]. split; [intros P HP; apply X3; rewrite SC; now apply Forall_tl|].
  split; [apply prefix_twice; [lia|assumption|exact X4]|]. split.
  - intro NF. rewrite X5 by (unfold no_failure; rewrite SC; now apply Forall_tl). apply full_twice; [lia|assumption].
  - rewrite X6. unfold h'. rewrite move_to_twice, len_app. reflexivity.
Qed.

Lemma unix_block_got : forall fuel w fd n h dst off count,
  lookup w fd = Some (n, h) -> readable h = true -> 0 <= offset h -> 0 <= off -> 0 <= count ->
  off + count <= len dst -> (length (drop (offset h) (content_of w (file_name h))) < fuel)%nat ->
  Forall (fun r => r = InFull \/ r = Refuse) (script w) ->
  got w fd n h dst off count (unix_block fuel w fd dst off count 0) 0.
Proof.
  intros fuel w fd n h dst off count L R O F B D M S.
  destruct fuel as [|fuel]; [lia|].
  cbn [unix_block].
  destruct (sys_read_cases w fd n h count L R B) as (w' & r & E & DK & SC & C).
  rewrite E. destruct r as [d|].
  2:{ exists w', []. destruct C as [C1 C2]. change (len []) with 0. rewrite !Z.add_0_r, overwrite_nil by lia.
      split; [reflexivity|]. split; [assumption|]. split; [intros P HP; rewrite SC; now apply Forall_tl|].
      split; [now rewrite take_0|]. split.
      - intro NF. exfalso. apply (hd_Forall (fun r => r <> Refuse) _ ltac:(discriminate) NF). exact C1.
      - destruct h; exact C2. }
  destruct C as (C0 & C1 & C2 & C3 & C4).
  assert (IF : d = take count (drop (offset h) (content_of w (file_name h)))).
  { apply C2. destruct (hd_Forall (fun r => r = InFull \/ r = Refuse) _ ltac:(now left) S); [assumption|contradiction]. }
  pose proof (len_prefix _ _ _ C1 ltac:(lia)) as [K1 K2].
  destruct d as [|x d].
  { exists w', []. change (len []) with 0. rewrite !Z.add_0_r, overwrite_nil by lia.
    split; [reflexivity|]. split; [assumption|]. split; [intros P HP; rewrite SC; now apply Forall_tl|].
    split; [now rewrite take_0|]. split; [intros _; rewrite Z.sub_0_r; symmetry; now apply C3|].
    change (len []) with 0 in C4. now rewrite Z.add_0_r in C4. }
  set (dd := x :: d) in *. change size_of with len. rewrite blit_ok by lia. cbn [bind]. rewrite !Z.add_0_l.
  destruct (len dd =? count) eqn:Z1.
  { exists w', dd. rewrite Z.add_0_r, Z.add_0_l, Z.sub_0_r.
    split; [reflexivity|]. split; [assumption|]. split; [intros P HP; rewrite SC; now apply Forall_tl|].
    split; [assumption|]. split; [auto|assumption]. }
  apply Z.eqb_neq in Z1.
  assert (SHORT : len (drop (offset h) (content_of w (file_name h))) = len dd).
  { assert (len dd = Z.min count (len (drop (offset h) (content_of w (file_name h))))).
    { rewrite IF at 1. now rewrite len_take. } lia. }
  destruct fuel as [|fuel].
  { exfalso. unfold len in SHORT. cbn [dd length] in SHORT. lia. }
  cbn [unix_block]. set (h' := move_to h (offset h + len dd)) in *.
  assert (CO : content_of w' (file_name h') = content_of w (file_name h)) by (unfold content_of; now rewrite DK).
  pose proof (len_nonneg dd).
  assert (DD : drop (offset h') (content_of w' (file_name h')) = []).
  { rewrite CO. cbn [h' move_to offset]. rewrite <- drop_drop by lia. apply drop_all. lia. }
  destruct (sys_read_cases w' fd n h' count C4 R B) as (w2 & r2 & E2 & DK2 & SC2 & C').
  rewrite E2.
  assert (L2 : lookup w2 fd = Some (n, h') /\ match r2 with None => True | Some d => d = [] end).
  { destruct r2 as [d2|]; [|tauto]. destruct C' as (_ & C5 & _ & _ & C6). rewrite DD, take_nil, take_nil in C5.
    subst d2. split; [|reflexivity]. rewrite C6. now rewrite move_to_self. }
  destruct L2 as [L2 N2].
  exists w2, dd. rewrite Z.add_0_r, Z.add_0_l, Z.sub_0_r.
  split; [destruct r2; [now rewrite N2|reflexivity]|].
  split; [congruence|]. split; [intros P HP; rewrite SC2, SC; now apply Forall_tl, Forall_tl|].
  split; [assumption|]. split; [auto|assumption].
Qed.

Lemma block_fuel_enough : forall w fd n h, lookup w fd = Some (n, h) ->
  (length (drop (offset h) (content_of w (file_name h))) < block_fuel w fd)%nat.
Proof. intros w fd n h L. unfold block_fuel. rewrite L. unfold drop. rewrite skipn_length. lia. Qed.

Lemma read_block_got : forall pl w fd n h dst off count,
  lookup w fd = Some (n, h) -> readable h = true -> 0 <= offset h -> 0 <= off -> 0 <= count ->
  off + count <= len dst -> no_short_read_on_unix pl w ->
  got w fd n h dst off count (read_block pl w fd dst off count) 0.
Proof.
  intros pl w fd n h dst off count L R O F B D S. pose proof (block_fuel_enough _ _ _ _ L).
  unfold read_block. destruct pl.
  - destruct S as [S|S]; [discriminate|]. now apply unix_block_got.
  - apply windows_block_got; try assumption. lia.
Qed.

Lemma chunk_max_pos : forall pl, 0 < chunk_max pl.
Proof. destruct pl; reflexivity. Qed.

Lemma chunk_count_pos : forall pl n, 0 <= n -> exists k, chunk_count pl n = S k.
Proof.
  intros pl n H. unfold chunk_count. pose proof (Z.div_pos n (chunk_max pl) H (chunk_max_pos pl)).
  exists (Z.to_nat (n / chunk_max pl)). lia.
Qed.

Lemma read_blocks_got : forall pl w fd n h dst off count,
  lookup w fd = Some (n, h) -> readable h = true -> 0 <= offset h -> 0 <= off -> 0 <= count <= chunk_max pl ->
  off + count <= len dst -> no_short_read_on_unix pl w ->
  got w fd n h dst off count (read_blocks pl (chunk_count pl count) w fd dst off count 0) 0.
Proof.
  intros pl w fd n h dst off count L R O F B D S. destruct (chunk_count_pos pl count ltac:(lia)) as [k ->].
  cbn [read_blocks]. destruct (count <=? 0) eqn:Z0.
  { assert (count = 0) by lia. subst count. exists w, []. change (len []) with 0.
    rewrite !Z.add_0_r, overwrite_nil, Z.sub_0_r, take_0 by lia.
    split; [reflexivity|]. split; [reflexivity|]. split; [auto|]. split; [reflexivity|]. split; [reflexivity|].
    destruct h; exact L. }
  rewrite Z.min_l by lia. destruct (read_block_got pl w fd n h dst off count) as (w' & d & X & Y); try assumption; try lia.
  rewrite X. cbn [bind]. exists w', d. split; [|exact Y].
  destruct (0 + len d =? count); [|reflexivity].
  destruct k; cbn [read_blocks]; replace (count - count <=? 0) with true by lia; reflexivity.
Qed.
