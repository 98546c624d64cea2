(** Reads and seeks of any kind on files: C64 and C68 exactly, as far as reading goes. *)
From Coq Require Import NArith ZArith List Bool Lia.
From Coq Require Import ZifyBool ZifyNat ZifyN.
From Verif Require Import Base Integers ResourceSpec ResourceModel ResourceText FileSpec FileModel FileText.
From Verif Require Import ResourceLemmas ResourceLemmas2 FileLemmas FileLemmas2 FileLemmas3 FileLemmas6 FileProps.
From Verif Require Import CursorSpec CursorLemmas FileCursorSpec FileCursorLemmas.
Import ListNotations.
Open Scope Z_scope.

(* ------------------------------------------------------------------- exactly *)

(** Every sequence of reads of any size, flushes, set_position, go_back and go_forward by any
    amount, on every file, with every buffer and with none, gives the answers of the
    machine of FileCursorSpec, on both platforms.  Afterwards position and end are reported
    as the machine stands, and the disk is as it was.  The operating system does what it is asked to. *)
Theorem C64_seeks_exact : forall pl w q l m how cap xs,
  disk w q = Some l \/ disk w q = None /\ how = Create /\ l = [] -> len l < 2 ^ 62 ->
  obliging w -> Z.of_nat cap <= chunk_max pl -> mode_reads m = true ->
  forallb writes_nothing xs = true ->
  (forall b n, In (Read b n) xs -> 0 <= n <= len b /\ n <= chunk_max pl) ->
  let clamped := match pl with UnixLike => true | Windows => false end in
  let '(c, answers) := file_turns clamped (Z.of_nat cap) l start xs in
  exists f f', new_file pl w q m how cap = Ok f /\ run_file pl f xs = Ok (f', map Returned answers) /\
    disk_of f' q = Some l /\
    file_position pl f' = Ok (wrap (place c + spent c)) /\
    file_is_at_end pl f' = Ok (wrap (place c + spent c) =? len l).
Proof.
  intros pl w q l m how cap xs D L B M Mr W G clamped. change clamped with (clamps pl). clear clamped.
  destruct (new_file_opens pl w q l m how cap D ltac:(lia) B M) as (f & E & Pa & B1 & K).
  assert (A := start_place pl _ q m _ l f Mr K (obliging_short pl _ B1)).
  assert (Mf : mode f = m) by apply K.
  destruct (file_turns_run pl (Z.of_nat cap) q (mode_writes m) l xs start f ltac:(lia) ltac:(now rewrite Mf) A L W G) as (f' & X & Pf & A').
  destruct (file_turns (clamps pl) (Z.of_nat cap) l start xs) as [c answers]. cbn [fst snd] in *.
  exists f, f'. split; [exact E|]. split; [exact X|].
  destruct A' as [[(k & h & Lk & H1 & H2 & H3 & H4) Dk] Ls Kc Mo Qu St Kp U Bd Fr Ba Id R Me].
  split; [exact Dk|].
  assert (Po : file_position pl f' = Ok (wrap (place c + spent c))).
  { unfold file_position, sys_seek. rewrite Lk, H4, Z.add_0_r. replace ((0 <=? place c) && (place c <? 2 ^ 63)) with true by lia.
    cbn [snd]. rewrite U, convert_wrap. now destruct pl. }
  split; [exact Po|]. unfold file_is_at_end. rewrite Po. cbn [bind]. rewrite Pf, Pa, Dk. f_equal. change size_of with len.
  pose proof (wrap_range (place c + spent c)). pose proof (len_nonneg l). unfold as_size.
  clear - H H0 L. set (x := wrap (place c + spent c)) in *. clearbody x. destruct (x <? 0) eqn:Q; lia.
Qed.
Print Assumptions C64_seeks_exact.

(** Eight bytes and a buffer of four, on a Unix-like system: go_forward is not noticed
    until the buffer is used up; a seek to before the beginning leads to where the buffer
    was filled. *)
Example C64_seeks_exact_meets :
  let l := [1; 2; 3; 4; 5; 6; 7; 8]%N in
  let b := [0; 0; 0]%N in
  let xs := [Read b 3; GoForward 1; Read b 1; Read b 2; SetPosition (-99) Current; Read b 1; SetPosition 2 Begin; Read b 3] in
  disk (sample []) 1 = Some l /\ forallb writes_nothing xs = true /\
  file_turns true 4 l start xs = (Cursor 2 4 [6]%N 3 false,
    [Got [1; 2; 3]%N 3; Done; Got [4; 0; 0]%N 1; Got [2; 3; 0]%N 2; Done; Got [2; 0; 0]%N 1; Done; Got [3; 4; 5]%N 3]).
Proof. vm_compute. repeat split; reflexivity. Qed.

(* ------------------------------------------------------------ what that means *)

Lemma take_least : forall (cap : Z) (l : list N), take (Z.min cap (len l)) l = take cap l.
Proof.
  intros cap l. destruct (Z.le_ge_cases cap (len l)); [now rewrite Z.min_l by lia|].
  rewrite Z.min_r by lia. now rewrite !take_all by lia.
Qed.

Lemma first_taken : forall cap l k, 0 < cap -> 0 <= k <= Z.min cap (len l) ->
  file_taken cap l start k = (take k l, Cursor 0 (Z.min cap (len l)) (drop k (take cap l)) k false).
Proof.
  intros cap l k C K. pose proof (len_nonneg l). unfold file_taken. replace (cap =? 0) with false by lia. cbn [stale start]. cbv zeta.
  unfold file_refilled at 1 2 3. cbn [place step start]. cbv zeta. rewrite Z.add_0_l, drop_0. cbn [held]. rewrite len_take by lia.
  replace (k <=? Z.min cap (len l)) with true by lia. unfold hand_out. cbn [held place step spent stale]. f_equal.
  rewrite take_take by lia. f_equal. lia.
Qed.

Lemma fresh_file_taken : forall cap l c m, 0 < cap -> stale c = true -> step c = 0 -> 0 <= place c -> 0 <= m <= cap ->
  fst (file_taken cap l c m) = take m (drop (place c) l).
Proof.
  intros cap l c m C S T P M. pose proof (len_nonneg l). unfold file_taken. replace (cap =? 0) with false by lia. rewrite S. cbv zeta.
  set (d := take cap (drop (place c) l)).
  replace (file_refilled cap l c) with (Cursor (place c) (len d) d 0 false)
    by (unfold file_refilled; cbv zeta; now rewrite T, Z.add_0_r). cbn [held].
  assert (Ld : len d = Z.min cap (Z.max 0 (len l - place c))) by (unfold d; rewrite len_take, len_drop by lia; reflexivity).
  destruct (m <=? len d) eqn:Q.
  - unfold hand_out. cbn [held fst]. unfold d. rewrite take_take by lia. now rewrite Z.min_l by lia.
  - unfold hand_out at 1. cbn [held place step spent stale]. replace (m - len d <=? cap) with true by lia.
    unfold file_refilled. cbn [place step]. cbv zeta.
    rewrite (drop_all (place c + len d) l), take_nil by lia. unfold hand_out. cbn [held fst].
    rewrite take_nil, app_nil_r. rewrite take_all by lia. unfold d.
    rewrite !(take_all _ (drop (place c) l)); [reflexivity| |]; rewrite len_drop by lia; lia.
Qed.

(** A seek after a read from the first filling of the buffer, relative to the current
    position: it counts from the beginning of the file, whatever has been read; a seek to
    before the beginning leads to the beginning. *)
Theorem C68_relative : forall pl w q l m how cap b k n b' j,
  disk w q = Some l -> len l < 2 ^ 62 -> obliging w -> (0 < cap)%nat -> Z.of_nat cap <= chunk_max pl -> mode_reads m = true ->
  0 <= k <= len b -> k <= Z.min (Z.of_nat cap) (len l) -> n < 2 ^ 63 -> 0 <= j <= len b' -> j <= Z.of_nat cap ->
  let there := take j (drop (Z.max 0 n) l) in
  exists f f', new_file pl w q m how cap = Ok f /\
    run_file pl f [Read b k; SetPosition n Current; Read b' j]
    = Ok (f', map Returned [Got (take k l ++ drop k b) k; Done; Got (there ++ drop (len there) b') (len there)]).
Proof.
  intros pl w q l m how cap b k n b' j D L B C M Mr K1 K2 N J1 J2 there. pose proof (len_nonneg l).
  assert (X := C64_seeks_exact pl w q l m how cap [Read b k; SetPosition n Current; Read b' j] (or_introl D) L B M Mr eq_refl).
  cbv zeta in X. cbn [file_turns file_turn] in X. rewrite first_taken in X by lia.
  unfold file_sought in X. cbn [place] in X. rewrite Z.add_0_l in X.
  assert (T : (if (0 <=? n) && (n <? 2 ^ 63) then n else 0) = Z.max 0 n) by (destruct ((0 <=? n) && (n <? 2 ^ 63)) eqn:Q; lia).
  rewrite T in X.
  assert (F := fresh_file_taken (Z.of_nat cap) l (Cursor (Z.max 0 n) 0 [] 0 true) j ltac:(lia) eq_refl eq_refl).
  cbn [place] in F. specialize (F ltac:(lia) ltac:(lia)).
  destruct (file_taken (Z.of_nat cap) l (Cursor (Z.max 0 n) 0 [] 0 true) j) as [d c]. cbn [fst] in F. subst d. fold there in X.
  destruct X as (f & f' & E & R & _).
  { intros x y [H0|[H0|[H0|[]]]]; try discriminate; injection H0 as <- <-; unfold chunk_max in *; destruct pl; lia. }
  exists f, f'. split; [exact E|]. rewrite R. rewrite len_take by lia. now rewrite Z.min_l by lia.
Qed.
Print Assumptions C68_relative.

Example C68_relative_meets : let l := [1; 2; 3; 4; 5; 6; 7; 8]%N in
  disk (sample []) 1 = Some l /\ 3 <= Z.min 4 (len l) /\ take 2 (drop (Z.max 0 1) l) = [2; 3]%N /\
  take 2 (drop (Z.max 0 (-1)) l) = [1; 2]%N.
Proof. vm_compute. repeat split; discriminate. Qed.

(** go_back in the first filling of the buffer: it is not noticed while the buffer has
    bytes; the read after that starts again at the beginning of the file. *)
Theorem C64_go_back : forall pl w q l m how cap b1 k b2 j b3 n,
  disk w q = Some l -> len l < 2 ^ 62 -> obliging w -> (0 < cap)%nat -> Z.of_nat cap <= chunk_max pl -> mode_reads m = true ->
  Z.of_nat cap <= len l -> 0 <= k <= len b1 -> k <= Z.of_nat cap -> Z.of_nat cap - k <= len b2 -> 0 < j ->
  0 < n <= len b3 -> n <= Z.of_nat cap ->
  exists f f', new_file pl w q m how cap = Ok f /\
    run_file pl f [Read b1 k; GoBack j; Read b2 (Z.of_nat cap - k); Read b3 n]
    = Ok (f', map Returned [Got (take k l ++ drop k b1) k; Done;
        Got (take (Z.of_nat cap - k) (drop k l) ++ drop (Z.of_nat cap - k) b2) (Z.of_nat cap - k);
        Got (take n l ++ drop n b3) n]).
Proof.
  intros pl w q l m how cap b1 k b2 j b3 n D L B C M Mr Le K1 K2 K3 J N1 N2. pose proof (len_nonneg l).
  set (xs := [Read b1 k; GoBack j; Read b2 (Z.of_nat cap - k); Read b3 n]).
  assert (X := C64_seeks_exact pl w q l m how cap xs (or_introl D) L B M Mr eq_refl).
  unfold xs in *. clear xs. cbv zeta in X. cbn [file_turns file_turn] in X. rewrite first_taken in X by lia.
  unfold file_sought in X. cbn [place held spent stale] in X. rewrite Z.add_0_l in X.
  replace ((0 <=? - j) && (- j <? 2 ^ 63)) with false in X by lia.
  set (cp := Z.of_nat cap) in *. assert (Lt : len (take cp l) = cp) by (rewrite len_take by lia; lia).
  assert (Lh : len (drop k (take cp l)) = cp - k) by (rewrite len_drop by lia; lia).
  assert (S2 : file_taken cp l (Cursor 0 0 (drop k (take cp l)) k false) (cp - k)
    = (take (cp - k) (drop k l), Cursor 0 0 [] cp false)).
  { unfold file_taken. replace (cp =? 0) with false by lia. cbn [stale held]. cbv zeta. rewrite Lh, Z.leb_refl.
    unfold hand_out. cbn [held place step spent stale]. f_equal.
    - replace cp with (k + (cp - k)) at 2 by lia. rewrite take_drop_comm by lia. rewrite take_take by lia. now rewrite Z.min_id.
    - f_equal; [|lia]. apply drop_all. lia. }
  rewrite S2 in X.
  assert (S3 : fst (file_taken cp l (Cursor 0 0 [] cp false) n) = take n l).
  { unfold file_taken. replace (cp =? 0) with false by lia. cbn [stale held]. cbv zeta. change (len (@nil N)) with 0.
    replace (n <=? 0) with false by lia. unfold hand_out at 1. cbn [held place step spent stale]. replace (n - 0 <=? cp) with true by lia.
    unfold file_refilled at 1. cbn [place step]. cbv zeta. rewrite Z.add_0_l, drop_0. unfold hand_out. unfold file_refilled. cbn [held fst place step]. cbv zeta.
    rewrite Z.add_0_l, drop_0, take_nil. cbn [app]. rewrite Lt. cbn [held]. rewrite Z.sub_0_r, Z.min_l by lia. rewrite take_take by lia. now rewrite Z.min_l by lia. }
  destruct (file_taken cp l (Cursor 0 0 [] cp false) n) as [d c]. cbn [fst] in S3. subst d.
  destruct X as (f & f' & E & R & _).
  { intros x y [H0|[H0|[H0|[H0|[]]]]]; try discriminate; injection H0 as <- <-; unfold chunk_max in *; destruct pl; lia. }
  exists f, f'. split; [exact E|]. rewrite R. rewrite !len_take, len_drop by lia. rewrite !Z.min_l by lia. reflexivity.
Qed.
Print Assumptions C64_go_back.

Example C64_go_back_meets : let l := [1; 2; 3; 4; 5; 6; 7; 8]%N in
  disk (sample []) 1 = Some l /\ 4 <= len l /\ take 2 l = [1; 2]%N /\ take 2 (drop 2 l) = [3; 4]%N.
Proof. vm_compute. repeat split; discriminate. Qed.
