(** C157: an interrupted copy can be resumed; C128 with two files. *)
From Coq Require Import NArith ZArith List Bool Lia.
From Coq Require Import ZifyBool ZifyNat ZifyN.
From Verif Require Import Base Integers ResourceSpec ResourceModel ResourceText FileSpec FileModel FileText.
From Verif Require Import ResourceLemmas ResourceLemmas2 FileLemmas FileLemmas2 FileLemmas3 FileLemmas4 FileLemmas5 FileLemmas6
  CrashSpec CrashModel CrashLemmas CrashLemmas2 CrashProps DiarySpec DiaryText DiaryLemmas ResumeSpec ResumeText ResumeLemmas ResumeLemmas2 ResumeLemmas3.
Import ListNotations.
Open Scope Z_scope.

(** C128 for a process that has two files open, with calls on the one and on the other in any
    order, and that is killed in a call on one of them: each file is as C128_torn says, and the
    one that the last call is not for has nothing of that call. *)
Theorem C128_two_files : forall pl w q r l1 l2 m1 m2 how1 how2 cap1 cap2 cs b c,
  q <> r ->
  disk w q = Some l1 \/ disk w q = None /\ how1 = Create /\ l1 = [] -> len l1 < 2 ^ 63 ->
  disk w r = Some l2 \/ disk w r = None /\ how2 = Create /\ l2 = [] -> len l2 < 2 ^ 63 ->
  obliging w -> Z.of_nat cap1 <= chunk_max pl -> Z.of_nat cap2 <= chunk_max pl ->
  Forall (fun c => permits m1 c = true) (calls_of true (cs ++ [(b, c)])) ->
  Forall (fun c => permits m2 c = true) (calls_of false (cs ++ [(b, c)])) ->
  all_file_allowed (chunk_max pl) (Z.of_nat cap1) (Store l1 0) Resting (calls_of true (cs ++ [(b, c)])) ->
  all_file_allowed (chunk_max pl) (Z.of_nat cap2) (Store l2 0) Resting (calls_of false (cs ++ [(b, c)])) ->
  exists f g w' f' g' h a tries, new_file pl w q m1 how1 cap1 = Ok f /\
    new_file pl (os (inner (res f))) r m2 how2 cap2 = Ok g /\
    run_two pl (os (inner (res g))) f g cs =
      Ok (w', f', g', map Returned (snd (file_calls (Store l1 0) (calls_of true cs))),
                      map Returned (snd (file_calls (Store l2 0) (calls_of false cs)))) /\
    watched_call pl (in_world w' (if b then f' else g')) c = Ok (h, a, tries) /\
    forall torn d, left_by_kill torn (disk w') tries d ->
      (forall x, x <> q -> x <> r -> d x = disk w x) /\
      (exists kept lost part, may_lose (Z.of_nat cap1) (calls_of true cs) kept lost /\
         begins part (lost ++ if b then [c] else []) /\ d q = Some (file_bytes l1 (kept ++ part))) /\
      (exists kept lost part, may_lose (Z.of_nat cap2) (calls_of false cs) kept lost /\
         begins part (lost ++ if b then [] else [c]) /\ d r = Some (file_bytes l2 (kept ++ part))).
Proof.
  intros pl w q r l1 l2 m1 m2 how1 how2 cap1 cap2 cs b c QR D1 L1 D2 L2 B C1 C2 P1 P2 A1 A2.
  destruct (both_open pl w q r l1 l2 m1 m2 how1 how2 cap1 cap2 QR D1 L1 D2 L2 B C1 C2) as (f & g & E1 & E2 & Co).
  assert (Ap : forall x, calls_of x (cs ++ [(b, c)]) = calls_of x cs ++ (if Bool.eqb b x then [c] else [])).
  { intro x. unfold calls_of. rewrite filter_app, map_app. f_equal. cbn [filter fst]. destruct b, x; reflexivity. }
  rewrite (Ap true) in P1, A1. rewrite (Ap false) in P2, A2. apply Forall_app in P1 as [P1 P1']. apply Forall_app in P2 as [P2 P2'].
  pose proof (allowed_begin _ _ _ _ _ _ A1) as A1'. pose proof (allowed_begin _ _ _ _ _ _ A2) as A2'.
  destruct Co as (k1 & k2 & o1 & o2 & K1 & Pe1 & K2 & Pe2 & DF & DG & KK & _ & B2 & W1 & W2 & Ot).
  destruct (kill_two pl _ _ q r m1 m2 l1 l2 cs [] [] _ f g _ _ k1 k2 _ _ K1 Pe1 K2 Pe2 DF DG KK QR B2 P1 P2 A1' A2' W1 W2)
    as (w' & f' & g' & o1' & o2' & R & X1 & X2 & X3 & X4 & X5 & X6 & X7 & X8 & X9 & X10).
  assert (Co : core pl (Z.of_nat cap1) (Z.of_nat cap2) q r m1 m2 l1 l2 (disk w) (calls_of true cs) (calls_of false cs)
      (last_stage (Z.of_nat cap1) Resting (calls_of true cs)) (last_stage (Z.of_nat cap2) Resting (calls_of false cs)) w' f' g').
  { exists k1, k2, o1', o2'. repeat (split; [assumption|]). intros x Y1 Y2. rewrite X10 by assumption. now apply Ot. }
  assert (La : forall cap cs s p c, all_file_allowed (chunk_max pl) cap s p (cs ++ [c]) ->
     file_allowed (chunk_max pl) cap (fst (file_calls s cs)) (last_stage cap p cs) c).
  { clear. intro cap. induction cs as [|x cs IH]; intros s p c; cbn [app all_file_allowed last_stage file_calls].
    - intros [H _]. exact H.
    - intros [H1 H2]. specialize (IH _ _ _ H2). destruct (file_call s x) as [s1 a]. cbn [fst] in *.
      destruct (file_calls s1 cs) as [s2 l2]. exact IH. }
  destruct b; cbn [Bool.eqb] in *.
  - destruct (core_call _ _ _ _ _ _ _ _ _ _ _ _ _ _ _ _ _ c Co) as (h & t & _ & Ew & _ & LK);
      [now inversion P1'|now apply La|]. exists f, g, w', f', g', h. do 2 eexists. split; [exact E1|]. split; [exact E2|]. split; [exact R|].
    split; [exact Ew|]. intros torn d H. destruct (LK torn d H) as (Y1 & Y2 & Y3). split; [exact Y3|]. split; [exact Y1|exact Y2].
  - apply core_swap in Co. destruct (core_call _ _ _ _ _ _ _ _ _ _ _ _ _ _ _ _ _ c Co) as (h & t & _ & Ew & _ & LK);
      [now inversion P2'|now apply La|]. exists f, g, w', f', g', h. do 2 eexists. split; [exact E1|]. split; [exact E2|]. split; [exact R|].
    split; [exact Ew|]. intros torn d H. destruct (LK torn d H) as (Y1 & Y2 & Y3). split; [intros x Z1 Z2; now apply Y3|]. split; [exact Y2|exact Y1].
Qed.
Print Assumptions C128_two_files.

(** A case: one byte of the source is read, three bytes are written, and the process is killed
    within the write of two more, which makes the full buffer of the target be written: one byte
    is there, and the source is as it was. *)
Definition pair_of_files : world :=
  World (fun x => if N.eqb x 1 then Some [1; 2; 3; 4]%N else None) (fun _ => None) 0 [].

Definition opened_at (x : outcome file) : file := match x with Ok f => f | _ => no_file pair_of_files 0 end.

Example C128_two_files_example :
  let cs := [(true, Read (zeros 2) 2); (false, Write [11; 12; 13])]%N in
  all_file_allowed (chunk_max UnixLike) 4 (Store [1; 2; 3; 4]%N 0) Resting (calls_of true (cs ++ [(false, Write [14; 15]%N)])) /\
  all_file_allowed (chunk_max UnixLike) 4 (Store [] 0) Resting (calls_of false (cs ++ [(false, Write [14; 15]%N)])) /\
  exists f g w' f' g' h a1 a2 a t, new_file UnixLike pair_of_files 1 ReadOnly Fail 4 = Ok f /\
    new_file UnixLike (os (inner (res f))) 2 WriteOnly Create 4 = Ok g /\
    run_two UnixLike (os (inner (res g))) f g cs = Ok (w', f', g', a1, a2) /\
    watched_call UnixLike (in_world w' g') (Write [14; 15]%N) = Ok (h, a, [t]) /\
    left_at t (AtMost 1) 1%N = Some [1; 2; 3; 4]%N /\ left_at t (AtMost 1) 2%N = Some [11]%N /\ disk w' 2%N = Some [].
Proof.
  cbv zeta. split; [vm_compute; repeat match goal with |- _ /\ _ => split | |- True => exact I | |- _ -> _ => intro end; try discriminate; try reflexivity; try (right; discriminate)|].
  split; [vm_compute; repeat match goal with |- _ /\ _ => split | |- True => exact I | |- _ -> _ => intro end; try discriminate; try reflexivity; try (right; discriminate)|].
  set (f := opened_at (new_file UnixLike pair_of_files 1 ReadOnly Fail 4)).
  set (g := opened_at (new_file UnixLike (os (inner (res f))) 2 WriteOnly Create 4)).
  set (x := run_two UnixLike (os (inner (res g))) f g [(true, Read (zeros 2) 2); (false, Write [11; 12; 13])]%N).
  set (w' := match x with Ok (w', _, _, _, _) => w' | _ => pair_of_files end).
  set (f' := match x with Ok (_, f', _, _, _) => f' | _ => f end).
  set (g' := match x with Ok (_, _, g', _, _) => g' | _ => g end).
  set (y := watched_call UnixLike (in_world w' g') (Write [14; 15]%N)).
  set (t := match y with Ok (_, _, [t]) => t | _ => Attempt pair_of_files None [] end).
  exists f, g, w', f', g', (match y with Ok (h, _, _) => h | _ => f end), [Returned (Got [1; 2]%N 2)], [Returned (Wrote 3)], (Returned (Wrote 2)), t.
  split; [vm_compute; reflexivity|]. split; [vm_compute; reflexivity|]. split; [vm_compute; reflexivity|]. split; [vm_compute; reflexivity|].
  split; [vm_compute; reflexivity|]. split; vm_compute; reflexivity.
Qed.

(* ------------------------------------------------------------------- C157 *)

(** Whatever one start of the program leaves, it is a copy that has been begun, and it is not
    shorter than before; if the program came to its end, the copy is complete.  No other file
    has changed, in particular not the source. *)
Theorem C157_start : forall pl q r cap1 cap2 n d b d' l k, copy_leaves pl q r cap1 cap2 n d b d' ->
  q <> r -> d q = Some l -> len l < 2 ^ 63 -> begun d r l k ->
  Z.of_nat cap1 <= chunk_max pl -> Z.of_nat cap2 <= chunk_max pl -> 0 < n <= chunk_max pl -> cap1 = 0%nat \/ n <= Z.of_nat cap1 ->
  (exists k', k <= k' /\ begun d' r l k') /\ same_but r d d' /\ (b = true -> d' r = Some l).
Proof.
  intros pl q r cap1 cap2 n d b d' l k Lv QR Hq Hl [Hk Hr] C1 C2 Hn Hc.
  destruct Lv as [|w0 w f g nx t d' <- B St Tr LK|w0 w f g <- B St].
  - split; [exists k; split; [lia|split; assumption]|]. split; [now intros x _|discriminate].
  - pose proof (stands_sound pl q r cap1 cap2 n l w0 k QR Hq Hl Hk Hr B C1 C2 Hn Hc _ _ _ _ St) as So.
    destruct (sound_kill pl q r cap1 cap2 n l w0 k QR Hl Hk Hr Hn Hc _ _ _ _ So) as (t' & E & H).
    rewrite Tr in E. injection E as <-. destruct (H _ _ LK) as (X1 & X2 & k' & X3 & X4). split.
    + exists k'. split; [lia|]. split; [lia|now left].
    + split; [|discriminate]. intros x X. destruct (N.eq_dec x q) as [->|Nq]; [congruence|now apply X2].
  - pose proof (stands_sound pl q r cap1 cap2 n l w0 k QR Hq Hl Hk Hr B C1 C2 Hn Hc _ _ _ _ St) as (X1 & X2 & X3). split.
    + exists (len l). split; [lia|]. split; [lia|]. left. rewrite take_all by lia. exact X2.
    + split; [|now intros _]. intros x X. destruct (N.eq_dec x q) as [->|Nq]; [congruence|now apply X3].
Qed.
Print Assumptions C157_start.

(** Started again and again, killed any number of times: when the program comes to its end at
    last, the target is a copy of the source. *)
Theorem C157_resumed : forall pl q r cap1 cap2 n l,
  q <> r -> len l < 2 ^ 63 ->
  Z.of_nat cap1 <= chunk_max pl -> Z.of_nat cap2 <= chunk_max pl -> 0 < n <= chunk_max pl -> cap1 = 0%nat \/ n <= Z.of_nat cap1 ->
  forall times b d d' k, restarts pl q r cap1 cap2 n times b d d' -> d q = Some l -> begun d r l k ->
  (exists k', k <= k' /\ begun d' r l k') /\ same_but r d d' /\ (b = true -> d' r = Some l).
Proof.
  intros pl q r cap1 cap2 n l QR Hl C1 C2 Hn Hc times b d d' k Rs. induction Rs as [d|m b0 b d d1 d2 Rs IH Lv]; intros Hq Bg.
  - split; [exists k; split; [lia|assumption]|]. split; [now intros x _|discriminate].
  - destruct (IH Hq Bg) as ((k1 & K1 & B1) & S1 & _).
    destruct (C157_start pl q r cap1 cap2 n d1 b d2 l k1 Lv QR) as ((k2 & K2 & B2) & S2 & F2); try assumption.
    { rewrite S1 by exact QR. exact Hq. }
    split; [exists k2; split; [lia|exact B2]|]. split; [|exact F2]. intros x X. now rewrite S2, S1.
Qed.
Print Assumptions C157_resumed.

(** The program comes to its end if it is not killed; wherever it stands, its next step is
    defined, so that it can be killed there. *)
Theorem C157_ends : forall pl q r cap1 cap2 n d l k,
  q <> r -> d q = Some l -> len l < 2 ^ 63 -> begun d r l k ->
  Z.of_nat cap1 <= chunk_max pl -> Z.of_nat cap2 <= chunk_max pl -> 0 < n <= chunk_max pl -> cap1 = 0%nat \/ n <= Z.of_nat cap1 ->
  (exists d', copy_leaves pl q r cap1 cap2 n d true d') /\
  forall w0 w f g nx, disk w0 = d -> obliging w0 -> stands pl q r cap1 cap2 n w0 w f g nx -> exists t, tried pl w f g nx = Ok t.
Proof.
  intros pl q r cap1 cap2 n d l k QR Hq Hl [Hk Hr] C1 C2 Hn Hc. split.
  - set (w0 := World d (fun _ => None) 0 []). assert (B : obliging w0) by constructor.
    destruct (program_ends pl q r cap1 cap2 n l w0 k QR Hq Hl Hk Hr B C1 C2 Hn Hc) as (w & f & g & St).
    exists (disk w). now apply (CameToEnd _ _ _ _ _ _ d w0 w f g).
  - intros w0 w f g nx <- B St. pose proof (stands_sound pl q r cap1 cap2 n l w0 k QR Hq Hl Hk Hr B C1 C2 Hn Hc _ _ _ _ St) as So.
    destruct (sound_kill pl q r cap1 cap2 n l w0 k QR Hl Hk Hr Hn Hc _ _ _ _ So) as (t' & E & _). now exists t'.
Qed.
Print Assumptions C157_ends.

(** Five bytes are copied in blocks of two, with buffers of two bytes.  The first start is
    killed within the system call that the second write makes: one byte is there.  The second
    start comes to its end. *)
Definition five (d : option (list N)) : world :=
  World (fun x => if N.eqb x 1 then Some [1; 2; 3; 4; 5]%N else if N.eqb x 2 then d else None) (fun _ => None) 0 [].

Example C157_example : exists d1 d2, copy_leaves UnixLike 1 2 2 2 2 (disk (five None)) false d1 /\ d1 2%N = Some [1]%N /\
  copy_leaves UnixLike 1 2 2 2 2 d1 true d2 /\ d2 2%N = Some [1; 2; 3; 4; 5]%N /\ restarts UnixLike 1 2 2 2 2 2 true (disk (five None)) d2.
Proof.
  set (got := fun x => match x with Ok f => f | _ => no_file (five None) 0 end).
  set (after := fun x : outcome (file * reply answer) => got (bind x (fun '(f, _) => Ok f))).
  set (f := got (new_file UnixLike (five None) 1 ReadOnly Fail 2)).
  set (g := got (new_file UnixLike (os (inner (res f))) 2 WriteOnly Create 2)).
  set (world_of := fun x : file => os (inner (res x))).
  assert (S0 : stands UnixLike 1 2 2 2 2 (five None) (world_of g) f g (OnTarget (SetPosition 0 End))) by (constructor; vm_compute; reflexivity).
  set (g1 := after (call_file UnixLike (in_world (world_of g) g) (SetPosition 0 End))).
  assert (S1 : stands UnixLike 1 2 2 2 2 (five None) (world_of g1) f g1 (OnSource (SetPosition 0 Begin))).
  { apply (FoundEnd _ _ _ _ _ _ _ _ _ _ _ (Returned Done) _ S0); vm_compute; reflexivity. }
  set (f1 := after (call_file UnixLike (in_world (world_of g1) f) (SetPosition 0 Begin))).
  assert (S2 : stands UnixLike 1 2 2 2 2 (five None) (world_of f1) f1 g1 (OnSource (Read (zeros 2) 2))).
  { apply (AtPlace _ _ _ _ _ _ _ _ _ _ _ (Returned Done) _ S1); vm_compute; reflexivity. }
  set (f2 := after (call_file UnixLike (in_world (world_of f1) f1) (Read (zeros 2) 2))).
  assert (S3 : stands UnixLike 1 2 2 2 2 (five None) (world_of f2) f2 g1 (OnTarget (Write [1; 2]%N))).
  { apply (HasRead _ _ _ _ _ _ _ _ _ _ _ [1; 2]%N 2 S2); vm_compute; [reflexivity|discriminate]. }
  set (g2 := after (call_file UnixLike (in_world (world_of f2) g1) (Write [1; 2]%N))).
  assert (S4 : stands UnixLike 1 2 2 2 2 (five None) (world_of g2) f2 g2 (OnSource (Read (zeros 2) 2))).
  { apply (HasWritten _ _ _ _ _ _ _ _ _ _ _ _ (Returned (Wrote 2)) S3); vm_compute; reflexivity. }
  set (f3 := after (call_file UnixLike (in_world (world_of g2) f2) (Read (zeros 2) 2))).
  assert (S5 : stands UnixLike 1 2 2 2 2 (five None) (world_of f3) f3 g2 (OnTarget (Write [3; 4]%N))).
  { apply (HasRead _ _ _ _ _ _ _ _ _ _ _ [3; 4]%N 2 S4); vm_compute; [reflexivity|discriminate]. }
  set (x := watched_call UnixLike (in_world (world_of f3) g2) (Write [3; 4]%N)).
  set (t := match x with Ok (_, _, [t]) => t | _ => Attempt (five None) None [] end).
  assert (L : copy_leaves UnixLike 1 2 2 2 2 (disk (five None)) false (left_at t (AtMost 1))).
  { apply (KilledThere _ _ _ _ _ _ _ (five None) (world_of f3) f3 g2 (OnTarget (Write [3; 4]%N)) [t]); [reflexivity|constructor|exact S5| |].
    - assert (exists h a, x = Ok (h, a, [t])) as (h & a & X).
      { exists (got (bind x (fun '(h, _, _) => Ok h))), (Returned (Wrote 2)). vm_compute. reflexivity. }
      cbn [tried]. fold x. now rewrite X.
    - apply (WithinOne true _ [t] t 1); [now left|reflexivity]. }
  assert (D1 : left_at t (AtMost 1) 2%N = Some [1]%N) by (vm_compute; reflexivity).
  assert (Q1 : left_at t (AtMost 1) 1%N = Some [1; 2; 3; 4; 5]%N) by (vm_compute; reflexivity).
  assert (Cm : Z.of_nat 2 <= chunk_max UnixLike) by (vm_compute; discriminate).
  assert (Bg : begun (left_at t (AtMost 1)) 2 [1; 2; 3; 4; 5]%N 1) by (split; [vm_compute; split; discriminate|now left]).
  assert (Hn : 0 < 2 <= chunk_max UnixLike) by (vm_compute; split; [reflexivity|discriminate]).
  assert (Hc : 2%nat = 0%nat \/ 2 <= Z.of_nat 2) by (right; reflexivity || (vm_compute; discriminate)).
  destruct (C157_ends UnixLike 1 2 2 2 2 _ _ 1 ltac:(discriminate) Q1 ltac:(vm_compute; reflexivity) Bg Cm Cm Hn Hc) as ((d2 & L2) & _).
  exists (left_at t (AtMost 1)), d2. split; [exact L|]. split; [exact D1|]. split; [exact L2|]. split.
  - destruct (C157_start UnixLike 1 2 2 2 2 _ _ _ _ 1 L2 ltac:(discriminate) Q1 ltac:(vm_compute; reflexivity) Bg Cm Cm Hn Hc) as (_ & _ & E). now apply E.
  - econstructor; [|exact L2]. econstructor; [constructor|exact L].
Qed.
