(** Reads of any size of a file through a buffer: C64 exactly, as far as reading goes. *)
From Coq Require Import NArith ZArith List Bool Lia.
From Coq Require Import ZifyBool ZifyNat ZifyN.
From Verif Require Import Base Integers ResourceSpec ResourceModel ResourceText FileSpec FileModel FileText.
From Verif Require Import ResourceLemmas ResourceLemmas2 FileLemmas FileLemmas2 FileLemmas3 FileLemmas6 FileProps.
From Verif Require Import LongSpec LongLemmas2 LongFileSpec LongFileLemmas.
Import ListNotations.
Open Scope Z_scope.

(* ------------------------------------------------------------------- exactly *)

(** Every sequence of reads of every size, of every file and through every buffer, gives
    what the machine of LongFileSpec gives, on both platforms.  The operating system does
    what it is asked to. *)
Theorem C64_reads_exact : forall pl w q l m how cap rs,
  disk w q = Some l \/ disk w q = None /\ how = Create /\ l = [] -> len l < 2 ^ 62 ->
  obliging w -> (0 < cap)%nat -> Z.of_nat cap <= chunk_max pl -> mode_reads m = true ->
  Forall (fun '(b, n) => 0 <= n <= len b /\ n <= chunk_max pl) rs ->
  exists f f', new_file pl w q m how cap = Ok f /\
    run_file pl f (read_calls rs)
    = Ok (f', map Returned (got_each (file_all_gets (Z.of_nat cap) l (map snd rs)) rs)).
Proof.
  intros pl w q l m how cap rs D L B C M Mr G.
  destruct (new_file_opens pl w q l m how cap D ltac:(lia) B M) as (f & E & _ & B1 & K).
  destruct (file_all_gets_run pl (Z.of_nat cap) q m (disk w) l f rs ltac:(lia) Mr K L) as (f' & X); try assumption.
  { apply obliging_short. exact B1. }
  exists f, f'. split; assumption.
Qed.
Print Assumptions C64_reads_exact.

(** A file of eight bytes and a buffer of two.  The second read is longer than the buffer;
    the third starts where it should. *)
Example C64_reads_exact_meets :
  let rs := [([0; 0]%N, 1); (repeat 0%N 6, 5); ([0; 0]%N, 2)] in
  disk (sample []) 1 = Some [1; 2; 3; 4; 5; 6; 7; 8]%N /\
  Forall (fun '(b, n) => 0 <= n <= len b /\ n <= chunk_max UnixLike) rs /\
  file_all_gets 2 [1; 2; 3; 4; 5; 6; 7; 8]%N (map snd rs) = [[1]; [2; 1; 2; 3; 4]; [7; 8]]%N.
Proof. repeat split; repeat constructor; vm_compute; discriminate. Qed.

(** A first read longer than twice the buffer, of a file that has as many bytes, gives
    the beginning twice and leaves out as many bytes at the end; nothing is reported, and
    the next read goes on behind what was asked for. *)
Theorem C64_long_then_short : forall pl w q l m how cap block n block' k,
  disk w q = Some l -> len l < 2 ^ 62 -> obliging w -> (0 < cap)%nat -> Z.of_nat cap <= chunk_max pl ->
  mode_reads m = true -> 2 * Z.of_nat cap < n -> n <= len l -> n <= len block -> n <= chunk_max pl ->
  0 <= k <= Z.of_nat cap -> k <= len block' ->
  let first := take (Z.of_nat cap) l ++ take (n - Z.of_nat cap) l in
  let next := take k (drop n l) in
  exists f f', new_file pl w q m how cap = Ok f /\
    run_file pl f [Read block n; Read block' k]
    = Ok (f', [Returned (Got (first ++ drop n block) n); Returned (Got (next ++ drop (len next) block') (len next))]).
Proof.
  intros pl w q l m how cap block n block' k D L B C M Mr N1 N2 N3 N4 K1 K2 first next.
  destruct (C64_reads_exact pl w q l m how cap [(block, n); (block', k)]) as (f & f' & E & X); try assumption; [now left| |].
  { constructor; [lia|]. constructor; [lia|]. constructor. }
  exists f, f'. split; [exact E|]. cbn [map snd] in X. rewrite file_long_then_short in X by lia.
  assert (Lf : len first = n) by (unfold first; rewrite len_app, !len_take by lia; lia).
  fold first next in X. unfold got_each in X. cbn [combine map] in X. rewrite Lf in X. exact X.
Qed.
Print Assumptions C64_long_then_short.

Example C64_long_then_short_meets :
  let l := [1; 2; 3; 4; 5; 6; 7; 8]%N in
  disk (sample []) 1 = Some l /\ 2 * 2 < 6 /\ 6 <= len l /\
  take 2 l ++ take (6 - 2) l = [1; 2; 1; 2; 3; 4]%N /\ take 2 (drop 6 l) = [7; 8]%N.
Proof. repeat split; vm_compute; discriminate. Qed.

(* --------------------------------------------------------------- which sizes *)

Lemma got_each_inj : forall rs ds ds', length ds = length rs -> length ds' = length rs ->
  map Returned (got_each ds rs) = map Returned (got_each ds' rs) -> ds = ds'.
Proof.
  intros rs. induction rs as [|[b n] rs IH]; intros ds ds' L L' H.
  - destruct ds; [|discriminate]. destruct ds'; [reflexivity|discriminate].
  - destruct ds as [|d ds]; [discriminate|]. destruct ds' as [|d' ds']; [discriminate|].
    unfold got_each in *. cbn [combine map] in H. injection H as H1 H2 H3. f_equal.
    + unfold len in *. assert (length d = length d') by lia.
      assert (X := f_equal (firstn (length d)) H1). rewrite firstn_app, Nat.sub_diag, firstn_all in X.
      cbn [firstn] in X. rewrite app_nil_r in X. rewrite H, firstn_app, Nat.sub_diag, firstn_all in X.
      cbn [firstn] in X. now rewrite app_nil_r in X.
    + apply IH; cbn in *; try lia. exact H3.
Qed.

Lemma length_file_gets : forall cap l ns p, length (file_gets cap l p ns) = length ns.
Proof.
  intros cap l ns. induction ns as [|n ns IH]; intros p; [reflexivity|].
  cbn [file_gets]. destruct (file_get cap l p n) as [d p']. cbn [length]. now rewrite IH.
Qed.

Lemma length_blocks : forall ns l, length (blocks l ns) = length ns.
Proof. intros ns. induction ns as [|n ns IH]; intros l; [reflexivity|]. cbn [blocks length]. now rewrite IH. Qed.

(** Reading a file in blocks of n bytes through a buffer gives every content in order if
    and only if a block is not longer than the buffer. *)
Theorem C64_sizes_exact : forall pl cap n q m how, (0 < cap)%nat -> Z.of_nat cap < 2 ^ 30 -> 0 <= n < 2 ^ 60 ->
  n <= chunk_max pl -> mode_reads m = true ->
  let rs := repeat (repeat 0%N (Z.to_nat n), n) in
  (forall w l k, disk w q = Some l -> len l < 2 ^ 62 -> obliging w -> exists f f', new_file pl w q m how cap = Ok f /\
     run_file pl f (read_calls (rs k)) = Ok (f', map Returned (got_each (blocks l (repeat n k)) (rs k))))
  <-> n <= Z.of_nat cap.
Proof.
  intros pl cap n q m how C Cb N Nm Mr rs. set (b := repeat 0%N (Z.to_nat n)) in *.
  assert (Lb : len b = n) by (unfold b; apply len_repeat; lia).
  assert (Cm : Z.of_nat cap <= chunk_max pl) by (destruct pl; cbn [chunk_max]; lia).
  assert (G : forall k, Forall (fun '(b, n) => 0 <= n <= len b /\ n <= chunk_max pl) (rs k)).
  { intros k. unfold rs. induction k as [|k IH]; [constructor|]. cbn [repeat]. constructor; [lia|exact IH]. }
  split.
  - intros H. destruct (Z.le_gt_cases n (Z.of_nat cap)) as [L|L]; [exact L|exfalso].
    destruct (all_gets_wrong (Z.of_nat cap) n ltac:(lia) L) as (l & k & Ll & ds & W & Ne).
    assert (B : len l < 2 ^ 62) by nia.
    set (w := World (fun _ => Some l) (fun _ => None) 0 []).
    destruct (H w l k eq_refl B ltac:(constructor)) as (f & f' & E & R).
    destruct (C64_reads_exact pl w q l m how cap (rs k)) as (f1 & f1' & E1 & R1); try assumption; [now left|constructor|apply G|].
    rewrite E in E1. injection E1 as <-. rewrite R in R1. injection R1 as _ R1.
    assert (Ms : map snd (rs k) = repeat n k) by apply map_snd_repeat. rewrite Ms in R1.
    apply file_all_gets_same in W; [|lia]. rewrite W in R1.
    assert (Lr : length (rs k) = k) by apply repeat_length.
    apply got_each_inj in R1; [now apply Ne| |].
    + rewrite length_blocks, repeat_length. now symmetry.
    + rewrite <- W. unfold file_all_gets. rewrite length_file_gets, repeat_length. now symmetry.
  - intros L w l k D B O.
    destruct (new_file_opens pl w q l m how cap (or_introl D) ltac:(lia) O Cm) as (f & E & _ & B1 & K).
    destruct (file_all_gets_run pl (Z.of_nat cap) q m (disk w) l f (rs k) ltac:(lia) Mr K B) as (f' & X); [|apply G|].
    { apply obliging_short. exact B1. }
    exists f, f'. split; [exact E|]. rewrite X. do 3 f_equal.
    assert (Ms : map snd (rs k) = repeat n k) by apply map_snd_repeat. rewrite Ms.
    assert (Y : forall k p, 0 <= used p <= win p -> 0 <= dev p -> win p = len (take (Z.of_nat cap) (drop (dev p) l)) ->
      file_gets (Z.of_nat cap) l p (repeat n k) = blocks (drop (dev p + used p) l) (repeat n k)).
    { clear - L N C. intros k. induction k as [|k IH]; intros p U Dp Wp; [reflexivity|].
      cbn [repeat file_gets blocks]. assert (Wl : win p <= Z.of_nat cap) by (rewrite Wp, len_take by lia; lia).
      assert (Lw : win p <= len (drop (dev p) l)) by (rewrite Wp, len_take by lia; lia).
      rewrite len_drop in Lw by lia.
      unfold file_get. cbv zeta. destruct (n - (win p - used p) <=? 0) eqn:Q1.
      - rewrite Z.min_l by lia. f_equal. rewrite IH; cbn [dev win used]; try lia.
        rewrite drop_drop by lia. f_equal. f_equal. lia.
      - replace (n - (win p - used p) <=? Z.of_nat cap) with true by lia. rewrite Z.min_r by lia.
        set (d0 := win p - used p) in *. set (s := dev p + win p). unfold file_refill. cbn [dev win].
        set (f := len (take (Z.of_nat cap) (drop s l))).
        assert (Hf : f = Z.min (Z.of_nat cap) (Z.max 0 (len l - s))) by (unfold f; rewrite len_take, len_drop by lia; reflexivity).
        f_equal.
        + replace n with (d0 + (n - d0)) at 2 by lia. rewrite take_split by lia. f_equal. rewrite drop_drop by lia.
          replace (dev p + used p + d0) with s by lia.
          destruct (Z.le_gt_cases (n - d0) f) as [X|X]; [now rewrite Z.min_l by lia|].
          rewrite Z.min_r by lia. rewrite !take_all; [reflexivity| |]; rewrite len_drop by lia; lia.
        + rewrite IH; cbn [dev win used]; try lia; try reflexivity. rewrite drop_drop by lia.
          destruct (Z.le_gt_cases (n - d0) f) as [X|X].
          * f_equal. f_equal. lia.
          * rewrite !drop_all by lia. reflexivity. }
    unfold file_all_gets. rewrite Y; unfold file_refill; cbn [dev win used].
    + now rewrite Z.add_0_l, drop_0.
    + pose proof (len_nonneg (take (Z.of_nat cap) (drop 0 l))). lia.
    + lia.
    + reflexivity.
Qed.
Print Assumptions C64_sizes_exact.

(** Blocks of five bytes through a buffer of four: the fifth is wrong. *)
Example C64_sizes_exact_meets :
  let l := [1; 2; 3; 4; 5; 6; 7; 8; 9; 10; 11; 12; 13; 14; 15; 16; 17; 18; 19; 20; 21; 22; 23; 24; 25; 26]%N in
  file_all_gets 4 l [5; 5; 5; 5] = blocks l [5; 5; 5; 5] /\
  file_all_gets 4 l [5; 5; 5; 5; 5] = blocks l [5; 5; 5; 5] ++ [[17; 18; 19; 20; 21]%N].
Proof. vm_compute. split; reflexivity. Qed.
