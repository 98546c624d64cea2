(** Properties C48-C51 and C64-C68 of files, on both platforms. *)
From Coq Require Import NArith ZArith List Bool Lia.
From Coq Require Import ZifyBool ZifyNat ZifyN.
From Verif Require Import Base Integers ResourceSpec ResourceModel ResourceText FileSpec FileModel FileText.
From Verif Require Import ResourceLemmas ResourceLemmas2 FileLemmas FileLemmas2 FileLemmas3 FileLemmas4 FileLemmas5 FileLemmas6.
Import ListNotations.
Open Scope Z_scope.

(** For the examples: file 1 with bytes 1 .. 8, file 2 with bytes 21, 22, 23, no
    others, none open. *)
Definition sample (s : list response) : world :=
  World (fun q => if N.eqb q 1 then Some [1; 2; 3; 4; 5; 6; 7; 8]%N else
                  if N.eqb q 2 then Some [21; 22; 23]%N else None) (fun _ => None) 0 s.

Definition block4 : list N := [0; 0; 0; 0]%N.

(** The file after a successful call. *)
Definition after (x : outcome (file * list (reply answer))) : file :=
  match x with Ok (f, _) => f | _ => no_file (sample []) 0 end.

Definition made (x : outcome file) : file := match x with Ok f => f | _ => no_file (sample []) 0 end.

(* ---------------------------------------------------------------------- C48 *)

(** After any calls on a file object constructed with mode m, and whatever the
    operating system did: a read in write_only mode throws and changes nothing. *)
Theorem C48_read_refused : forall pl w q m how cap f cs f' l block n,
  new_file pl w q m how cap = Ok f -> run_file pl f cs = Ok (f', l) -> m = WriteOnly ->
  file_read pl f' block n = Ok (f', Threw InvalidAccessMode).
Proof.
  intros pl w q m how cap f cs f' l block n H R M. destruct (new_file_cases _ _ _ _ _ _ _ H) as [E _].
  destruct (run_file_tame _ _ _ _ _ R) as (_ & E2 & _). unfold file_read. now rewrite E2, E, M.
Qed.

Theorem C48_write_refused : forall pl w q m how cap f cs f' l data,
  new_file pl w q m how cap = Ok f -> run_file pl f cs = Ok (f', l) -> m = ReadOnly ->
  file_write pl f' data = Ok (f', Threw InvalidAccessMode).
Proof.
  intros pl w q m how cap f cs f' l data H R M. destruct (new_file_cases _ _ _ _ _ _ _ H) as [E _].
  destruct (run_file_tame _ _ _ _ _ R) as (_ & E2 & _). unfold file_write. now rewrite E2, E, M.
Qed.

(** The same after open. *)
Theorem C48_reopened : forall pl f q m how f1 cs f' l block n data,
  file_open pl f q m how = Ok (f1, true) -> run_file pl f1 cs = Ok (f', l) ->
  (m = WriteOnly -> file_read pl f' block n = Ok (f', Threw InvalidAccessMode)) /\
  (m = ReadOnly -> file_write pl f' data = Ok (f', Threw InvalidAccessMode)).
Proof.
  intros pl f q m how f1 cs f' l block n data H R.
  assert (E : mode f1 = m).
  { unfold file_open in H. destruct (if is_open f then file_close pl f else Ok f) as [f0| | | |]; cbn [bind] in H; try discriminate.
    destruct how, (disk (os (inner (res f0))) q); try discriminate;
      destruct (sys_open (os (inner (res f0))) q _ (mode_reads m) (mode_writes m)) as [w1 fd] in H; injection H as <- _; reflexivity. }
  destruct (run_file_tame _ _ _ _ _ R) as (_ & E2 & _).
  unfold file_read, file_write. rewrite E2, E. split; intros ->; reflexivity.
Qed.

(** In a mode that permits it, a call does not throw. *)
Theorem C48_permitted : forall pl w q m how cap f cs f' l c f2 r,
  new_file pl w q m how cap = Ok f -> run_file pl f cs = Ok (f', l) -> permits m c = true ->
  call_file pl f' c = Ok (f2, r) -> exists a, r = Returned a.
Proof.
  intros pl w q m how cap f cs f' l c f2 r H R P C. destruct (new_file_cases _ _ _ _ _ _ _ H) as [E _].
  destruct (run_file_tame _ _ _ _ _ R) as (_ & E2 & _). rewrite E in E2. clear E H R.
  destruct c as [block n|data| |n o|n|n]; cbn [call_file permits] in *.
  - unfold file_read in C. rewrite E2 in C. destruct m; try discriminate;
      (destruct (read (file_ops pl) (res f') block n) as [[[? ?] ?]| | | |]; cbn [bind answered] in C; try discriminate;
       injection C as _ <-; eauto).
  - unfold file_write in C. rewrite E2 in C. destruct m; try discriminate;
      (destruct (write (file_ops pl) (res f') data) as [[? ?]| | | |]; cbn [bind answered] in C; try discriminate;
       injection C as _ <-; eauto).
  - destruct (file_flush pl f') as [?| | | |]; cbn [bind] in C; try discriminate. injection C as _ <-. eauto.
  - destruct (file_seek pl f' n (reference o)) as [?| | | |]; cbn [bind] in C; try discriminate. injection C as _ <-. eauto.
  - injection C as _ <-. eauto.
  - injection C as _ <-. eauto.
Qed.

Example C48_example : exists f f' l,
  new_file UnixLike (sample []) 1 WriteOnly Fail 4 = Ok f /\
  run_file UnixLike f [Write [9; 9]%N; Read block4 2; SetPosition 1 Begin] = Ok (f', l) /\
  l = [Returned (Wrote 2); Threw InvalidAccessMode; Returned Done].
Proof.
  exists (made (new_file UnixLike (sample []) 1 WriteOnly Fail 4)),
    (after (run_file UnixLike (made (new_file UnixLike (sample []) 1 WriteOnly Fail 4)) [Write [9; 9]%N; Read block4 2; SetPosition 1 Begin])).
  eexists. split; [vm_compute; reflexivity|]. split; vm_compute; reflexivity.
Qed.

(* ---------------------------------------------------------------------- C49 *)

(** The operating system may fail at any call and, on Windows, transfer less than
    asked for at any call.  Reads of at most the buffer's capacity still give the
    file's bytes in order, each at most what was asked for; and if the system never
    fails, each exactly what is there.
    Missing: on Unix-like systems, reads that transfer less than asked for (refuted
    below); longer reads through a buffer (see C64). *)
Theorem C49_in_order_partial : forall pl w q l m cap rs f,
  disk w q = Some l -> len l < 2 ^ 63 -> mode_reads m = true -> Z.of_nat cap <= chunk_max pl ->
  no_short_read_on_unix pl w -> readable_sizes pl cap rs ->
  new_file pl w q m Fail cap = Ok f -> is_open f = true ->
  exists ds f', run_file pl f (read_calls rs) = Ok (f', map Returned (got_each ds rs)) /\
    Forall2 (fun d '(_, n) => len d <= n) ds rs /\
    concat ds = take (len (concat ds)) l /\
    (no_failure w -> ds = blocks l (map snd rs)).
Proof.
  intros pl w q l m cap rs f D L M C NS RS NF O.
  destruct (new_file_cases _ _ _ _ _ _ _ NF) as (_ & _ & _ & _ & R). specialize (R O).
  unfold new_file in NF.
  destruct (open_idle pl (Z.of_nat cap) _ q l m Fail (idle_new w (Some q) m cap)) as (f1 & E & _ & K & SC); try assumption.
  { left. exact D. }
  rewrite E in NF. cbn [bind] in NF. injection NF as <-.
  cbn [res inner os] in SC.
  destruct (run_reads pl cap q m _ rs Resting (Store l 0) f1 K M) as (ds & f' & X1 & X2 & X3 & X4).
  - destruct NS as [NS|NS]; [now left|right]. rewrite SC. now apply Forall_tl.
  - exact RS.
  - discriminate.
  - cbn [bytes at_] in *. rewrite drop_0 in *. exists ds, f'. split; [assumption|]. split; [assumption|]. split; [assumption|].
    intro NF. apply X4. unfold no_failure. rewrite SC. now apply Forall_tl.
Qed.

Example C49_example :
  let w := sample [InFull; AtMost 3; AtMost 1; Refuse; AtMost 2; AtMost 1] in
  disk w 1%N = Some [1; 2; 3; 4; 5; 6; 7; 8]%N /\ no_short_read_on_unix Windows w /\
  readable_sizes Windows 0 [(block4, 4); (block4, 2); (block4, 3)] /\
  exists f f', new_file Windows w 1 ReadOnly Fail 0 = Ok f /\ is_open f = true /\
    run_file Windows f (read_calls [(block4, 4); (block4, 2); (block4, 3)])
    = Ok (f', [Returned (Got [1; 2; 3; 4]%N 4); Returned (Got block4 0); Returned (Got [5; 6; 7; 0]%N 3)]).
Proof.
  cbv zeta. set (w := sample _). split; [vm_compute; reflexivity|]. split; [now left|]. split.
  { repeat constructor; vm_compute; congruence. }
  eexists (made (new_file Windows w 1 ReadOnly Fail 0)), (after (run_file Windows (made (new_file Windows w 1 ReadOnly Fail 0)) (read_calls [(block4, 4); (block4, 2); (block4, 3)]))).
  split; [vm_compute; reflexivity|]. split; vm_compute; reflexivity.
Qed.

(** On a Unix-like system, one short read: the caller asked for 4 bytes, got bytes
    8, 5, 6, 7 and is told that there are 8. *)
Theorem C49_short_read_refuted : exists f f',
  new_file UnixLike (sample [InFull; AtMost 3]) 1 ReadOnly Fail 0 = Ok f /\
  file_read UnixLike f block4 4 = Ok (f', Returned ([8; 5; 6; 7]%N, 8)).
Proof.
  exists (made (new_file UnixLike (sample [InFull; AtMost 3]) 1 ReadOnly Fail 0)).
  exists (after (run_file UnixLike (made (new_file UnixLike (sample [InFull; AtMost 3]) 1 ReadOnly Fail 0)) [Read block4 4])).
  split; vm_compute; reflexivity.
Qed.

(** With a buffer the next read leaves the buffer: undefined behaviour. *)
Theorem C49_buffer_overrun_refuted : exists f,
  new_file UnixLike (sample [InFull; AtMost 3]) 1 ReadOnly Fail 4 = Ok f /\
  run_file UnixLike f [Read block4 4; Read block4 4] = UB OutOfBoundsRead.
Proof.
  exists (made (new_file UnixLike (sample [InFull; AtMost 3]) 1 ReadOnly Fail 4)). split; vm_compute; reflexivity.
Qed.

(** Without a buffer, no behaviour of the operating system makes a read write outside
    the n bytes it was given, on either platform and after any calls. *)
Theorem C49_within_block : forall pl w q m how f cs f' l block n,
  new_file pl w q m how 0 = Ok f -> run_file pl f cs = Ok (f', l) -> mode_reads m = true ->
  0 <= n <= chunk_max pl -> n <= len block ->
  exists f2 block' k, file_read pl f' block n = Ok (f2, Returned (block', k)) /\
    len block' = len block /\ drop n block' = drop n block.
Proof.
  intros pl w q m how f cs f' l block n H R M N D.
  destruct (new_file_cases _ _ _ _ _ _ _ H) as (E1 & _ & E2 & E3 & _).
  destruct (run_file_tame _ _ _ _ _ R) as ([T1 (T2 & _)] & T3 & _).
  apply read_unbuffered_within; try assumption; try lia.
  - eapply run_unbuffered; [exact R|exact E2].
  - congruence.
  - rewrite T1. auto.
Qed.

Example C49_within_example : exists f f2,
  new_file UnixLike (sample [InFull; AtMost 3]) 1 ReadOnly Fail 0 = Ok f /\
  file_read UnixLike f (block4 ++ [77]%N) 4 = Ok (f2, Returned ([8; 5; 6; 7; 77]%N, 8)).
Proof.
  exists (made (new_file UnixLike (sample [InFull; AtMost 3]) 1 ReadOnly Fail 0)).
  exists (after (run_file UnixLike (made (new_file UnixLike (sample [InFull; AtMost 3]) 1 ReadOnly Fail 0)) [Read (block4 ++ [77]%N) 4])).
  split; vm_compute; reflexivity.
Qed.

(** On Windows a read of more than 2^32 - 1 bytes goes wrong even if the operating system
    always does what it is asked to: for every file of 2^32 bytes the first byte got is
    the file's last. *)
Theorem C49_huge_read_refuted : forall w q l block,
  disk w q = Some l -> len l = 2 ^ 32 -> len block = 2 ^ 32 -> obliging w ->
  exists f f' block', new_file Windows w q ReadOnly Fail 0 = Ok f /\
    file_read Windows f block (2 ^ 32) = Ok (f', Returned (block', 2 ^ 32)) /\
    take 1 block' = drop (2 ^ 32 - 1) l.
Proof.
  intros w q l block D L LB B.
  destruct (new_file_opens Windows w q l ReadOnly Fail 0) as (f & E & _ & B1 & K); [now left|rewrite L; reflexivity|assumption|vm_compute; discriminate|].
  destruct K as [[(c & a & Oo & A0 & (-> & -> & Lf & _ & _ & _)) Kc _ _ _ _ _] Md]. cbn [bytes at_] in *.
  destruct Oo as [(k & h & Lk & H1 & H2 & H3 & H4) Dk].
  destruct (windows_huge_read (os (inner (res f))) (descriptor (inner (res f))) k h l block) as (w' & dst' & X & X1); try assumption.
  { unfold content_of. now rewrite H1, Dk. }
  change (chunk_max Windows + 1) with (2 ^ 32) in X. change (chunk_max Windows) with (2 ^ 32 - 1) in X1.
  eexists f, _, dst'. split; [assumption|]. split; [|exact X1].
  unfold file_read. rewrite Md. unfold read. rewrite Kc. replace (0 <? Z.of_nat 0) with false by reflexivity.
  cbn [raw_read file_ops]. unfold file_read_raw. rewrite X. cbn [bind]. reflexivity.
Qed.

Lemma last_of_ones : forall n, firstn 1 (0%N :: repeat 1%N n) <> skipn n (0%N :: repeat 1%N n) \/ n = O.
Proof.
  intros [|n]; [now right|left]. intro H. cbn [firstn skipn] in H.
  assert (J : In 0%N (repeat 1%N (S n))) by (rewrite <- (firstn_skipn n (repeat 1%N (S n))); apply in_or_app; right; rewrite <- H; now left).
  apply repeat_spec in J. discriminate.
Qed.

Example C49_huge_example : exists l, len l = 2 ^ 32 /\ take 1 l <> drop (2 ^ 32 - 1) l.
Proof.
  exists (0%N :: repeat 1%N (Z.to_nat (2 ^ 32 - 1))). split.
  - unfold len. change (length (0%N :: repeat 1%N (Z.to_nat (2 ^ 32 - 1)))) with (S (length (repeat 1%N (Z.to_nat (2 ^ 32 - 1))))).
    rewrite repeat_length. lia.
  - unfold take, drop. change (Z.to_nat 1) with 1%nat. destruct (last_of_ones (Z.to_nat (2 ^ 32 - 1))) as [H|H]; [exact H|lia].
Qed.

(* ---------------------------------------------------------------------- C64 *)

(** A file object used as FileSpec.v describes, with an operating system that does
    what it is asked to: every call has the effect and the answer it would have on a
    sequence of bytes; after close the file has exactly these bytes; the position and
    (not in the middle of writes) the end are reported right; no other file changes.
    Missing: calls the discipline excludes (refuted below). *)
Theorem C64_as_bytes_partial : forall pl w q l m how cap cs,
  disk w q = Some l \/ disk w q = None /\ how = Create /\ l = [] -> len l < 2 ^ 63 ->
  obliging w -> Z.of_nat cap <= chunk_max pl -> Forall (fun c => permits m c = true) cs ->
  all_file_allowed (chunk_max pl) (Z.of_nat cap) (Store l 0) Resting cs ->
  let s := fst (file_calls (Store l 0) cs) in
  exists f f' f'', new_file pl w q m how cap = Ok f /\
    run_file pl f cs = Ok (f', map Returned (snd (file_calls (Store l 0) cs))) /\
    file_position pl f' = Ok (at_ s) /\
    (last_stage (Z.of_nat cap) Resting cs <> InWrites -> file_is_at_end pl f' = Ok (at_ s =? len (bytes s))) /\
    file_close pl f' = Ok f'' /\ is_open f'' = false /\
    disk_of f'' q = Some (bytes s) /\ (forall x, x <> q -> disk_of f'' x = disk w x).
Proof.
  intros pl w q l m how cap cs D L B C P A s.
  destruct (open_idle pl (Z.of_nat cap) _ q l m how (idle_new w (Some q) m cap) D) as (f1 & E & Pa & K & SC); try assumption.
  { assert (response_now w = InFull) by exact (hd_Forall (fun r => r = InFull) _ eq_refl B). cbn [res inner os]. congruence. }
  assert (B1 : obliging (os (inner (res f1)))) by (unfold obliging; rewrite SC; now apply Forall_tl).
  destruct (run_file_steps pl (Z.of_nat cap) q m _ cs Resting (Store l 0) f1 K B1 P A) as (f2 & R & Pa2 & B2 & K2 & W2); [discriminate|].
  destruct (close_file pl (Z.of_nat cap) q m _ _ _ f2 K2 B2 W2) as (f3 & E3 & _ & D3 & O3 & I3 & _).
  exists f1, f2, f3. split; [unfold new_file; now rewrite E|]. split; [assumption|].
  split; [apply (file_position_ok _ _ _ _ _ _ _ _ K2)|].
  split; [intro X; apply (file_at_end_ok _ _ _ _ _ _ _ _ K2); [now rewrite Pa2, Pa|assumption]|].
  split; [assumption|]. split; [assumption|]. split; [assumption|].
  intros x Hx. now rewrite O3.
Qed.

Example C64_example :
  let cs := [Read block4 3; SetPosition 10 Begin; Write [50; 51]%N; Write [52; 53; 54]%N; Flush; SetPosition 1 Begin; Read block4 2;
             SetPosition (-2) End; Write [60]%N] in
  all_file_allowed (chunk_max Windows) 4 (Store [1; 2; 3; 4; 5; 6; 7; 8]%N 0) Resting cs /\
  file_calls (Store [1; 2; 3; 4; 5; 6; 7; 8]%N 0) cs
  = (Store [1; 2; 3; 4; 5; 6; 7; 8; 0; 0; 50; 51; 52; 60; 54]%N 14,
     [Got [1; 2; 3; 0]%N 3; Done; Wrote 2; Wrote 3; Done; Done; Got [2; 3; 0; 0]%N 2; Done; Wrote 1]).
Proof.
  split; [|reflexivity]. vm_compute.
  repeat match goal with |- _ /\ _ => split | |- True => exact I | |- _ -> _ => intro end; try discriminate; try congruence;
    try (left; discriminate); try (right; congruence); try exact I.
Qed.

(** Excluded calls: a read of 5 bytes through a buffer of 2 gives the first two bytes
    twice. *)
Theorem C64_long_read_refuted : exists f f',
  new_file UnixLike (sample []) 1 ReadOnly Fail 2 = Ok f /\
  run_file UnixLike f [Read (0%N :: block4) 5] = Ok (f', [Returned (Got [1; 2; 1; 2; 3]%N 5)]).
Proof.
  exists (made (new_file UnixLike (sample []) 1 ReadOnly Fail 2)).
  exists (after (run_file UnixLike (made (new_file UnixLike (sample []) 1 ReadOnly Fail 2)) [Read (0%N :: block4) 5])).
  split; vm_compute; reflexivity.
Qed.

(** A write after a read that emptied the buffer leaves the buffer: undefined
    behaviour. *)
Theorem C64_write_after_read_refuted : exists f,
  new_file UnixLike (sample []) 1 ReadAndWrite Fail 4 = Ok f /\
  run_file UnixLike f [Read block4 4; Write [99]%N] = UB OutOfBoundsWrite.
Proof. exists (made (new_file UnixLike (sample []) 1 ReadAndWrite Fail 4)). split; reflexivity. Qed.

(** A read after a write gives bytes from before the write and the write's bytes are
    lost. *)
Theorem C64_read_after_write_refuted : exists f f' f'',
  new_file UnixLike (sample []) 1 ReadAndWrite Fail 4 = Ok f /\
  run_file UnixLike f [Write [99]%N; Read block4 2] = Ok (f', [Returned (Wrote 1); Returned (Got [1; 2; 0; 0]%N 2)]) /\
  file_close UnixLike f' = Ok f'' /\ disk_of f'' 1%N = Some [1; 2; 3; 4; 5; 6; 7; 8]%N.
Proof.
  set (f := made (new_file UnixLike (sample []) 1 ReadAndWrite Fail 4)).
  exists f, (after (run_file UnixLike f [Write [99]%N; Read block4 2])),
    (made (file_close UnixLike (after (run_file UnixLike f [Write [99]%N; Read block4 2])))).
  split; [vm_compute; reflexivity|]. split; [vm_compute; reflexivity|]. split; vm_compute; reflexivity.
Qed.

(* ---------------------------------------------------------------------- C50 *)

(** All data of the writes among cs. *)
Definition everything (cs : list call) : list N :=
  flat_map (fun c => match c with Write d => d | _ => [] end) cs.

Definition writes_and_flushes (cs : list call) : Prop :=
  Forall (fun c => match c with Write _ | Flush => True | _ => False end) cs.

(** Writes and flushes in any order, then close or destruction: the file has all the bytes, in order,
    over what was there, whatever the capacity of the buffer.
    Missing: an operating system that fails or writes less (refuted below for
    buffers; C50_unbuffered for files without one). *)
Theorem C50_written_partial : forall pl w q l m how cap cs,
  disk w q = Some l \/ disk w q = None /\ how = Create /\ l = [] -> len l < 2 ^ 63 ->
  obliging w -> Z.of_nat cap <= chunk_max pl -> mode_writes m = true -> writes_and_flushes cs ->
  Forall (fun c => match c with Write d => len d <= chunk_max pl | _ => True end) cs -> len (everything cs) < 2 ^ 63 ->
  exists f f' f'', new_file pl w q m how cap = Ok f /\
    run_file pl f cs = Ok (f', map (fun c => Returned (match c with Write d => Wrote (len d) | _ => Done end)) cs) /\
    file_close pl f' = Ok f'' /\ is_open f'' = false /\
    disk_of f'' q = Some (put l 0 (everything cs)) /\
    exists w', destroy pl f' = Ok w' /\ disk w' q = Some (put l 0 (everything cs)).
Proof.
  intros pl w q l m how cap cs D L B C M WF SZ LE.
  assert (X : forall s p, p <> InReads -> 0 <= at_ s -> at_ s + len (everything cs) < 2 ^ 63 ->
    all_file_allowed (chunk_max pl) (Z.of_nat cap) s p cs /\
    fst (file_calls s cs) = Store (put (bytes s) (at_ s) (everything cs)) (at_ s + len (everything cs)) /\
    snd (file_calls s cs) = map (fun c => match c with Write d => Wrote (len d) | _ => Done end) cs).
  { clear D L LE. induction cs as [|c cs IH]; intros s p P A0 A.
    - cbn [everything flat_map all_file_allowed file_calls fst snd map]. rewrite put_nil. change (len []) with 0.
      rewrite Z.add_0_r. destruct s. repeat split.
    - inversion WF as [|? ? W1 W2]; subst. inversion SZ as [|? ? Z1 Z2]; subst. specialize (IH W2 Z2).
      change (everything (c :: cs)) with ((match c with Write d => d | _ => [] end) ++ everything cs) in *.
      cbn [all_file_allowed file_calls map].
      assert (NS : next_stage (Z.of_nat cap) p c <> InReads).
      { unfold next_stage. destruct (Z.of_nat cap =? 0); [discriminate|]. destruct c, p; try discriminate; try contradiction; congruence. }
      destruct c as [| d | | | | ]; try contradiction.
      + rewrite len_app in A. pose proof (len_nonneg d). pose proof (len_nonneg (everything cs)).
        destruct (IH (fst (file_call s (Write d))) (next_stage (Z.of_nat cap) p (Write d)) NS) as (I1 & I2 & I3);
          [cbn [file_call fst at_]; lia|cbn [file_call fst at_]; lia|].
        split; [split; [|assumption]|].
        { cbn [file_allowed]. split; [assumption|]. split; [assumption|]. lia. }
        cbn [file_call fst] in I2, I3. cbn [file_call].
        destruct (file_calls _ cs) as [s' as'] eqn:FC. cbn [fst snd] in *. rewrite I2, I3.
        cbn [bytes at_]. rewrite put_app by lia. split; [|reflexivity]. f_equal. rewrite len_app. lia.
      + destruct (IH s (next_stage (Z.of_nat cap) p Flush) NS A0) as (I1 & I2 & I3); [exact A|].
        split; [split; [exact I|assumption]|]. cbn [file_call].
        destruct (file_calls s cs) as [s' as'] eqn:FC. cbn [fst snd app] in *. rewrite I2, I3. split; reflexivity. }
  destruct (X (Store l 0) Resting) as (A & E1 & E2); [discriminate|cbn; lia|cbn [at_]; lia|].
  assert (P : Forall (fun c => permits m c = true) cs).
  { eapply Forall_impl; [|exact WF]. intros c Hc. destruct c; try contradiction; [exact M|reflexivity]. }
  destruct (C64_as_bytes_partial pl w q l m how cap cs D L B C P A) as (f & f' & f'' & H1 & H2 & _ & _ & H3 & H4 & H5 & _).
  exists f, f', f''. rewrite E1 in H5. rewrite E2, map_map in H2.
  split; [exact H1|]. split; [exact H2|]. split; [exact H3|]. split; [exact H4|]. split; [exact H5|].
  exists (os (inner (res f''))). split; [|exact H5]. unfold destroy. now rewrite H3.
Qed.

Example C50_example : exists f f' f'',
  new_file Windows (sample []) 3 WriteOnly Create 2 = Ok f /\
  run_file Windows f [Write [1]%N; Write [2; 3; 4; 5]%N; Flush; Write [6]%N] =
    Ok (f', [Returned (Wrote 1); Returned (Wrote 4); Returned Done; Returned (Wrote 1)]) /\
  file_close Windows f' = Ok f'' /\ disk_of f'' 3%N = Some [1; 2; 3; 4; 5; 6]%N.
Proof.
  set (f := made (new_file Windows (sample []) 3 WriteOnly Create 2)).
  set (x := run_file Windows f [Write [1]%N; Write [2; 3; 4; 5]%N; Flush; Write [6]%N]).
  exists f, (after x), (made (file_close Windows (after x))).
  split; [vm_compute; reflexivity|]. split; [vm_compute; reflexivity|]. split; vm_compute; reflexivity.
Qed.

(** Without a buffer and whatever the operating system does: every write tells how
    many bytes of its data it wrote, and exactly these are in the file after close. *)
Theorem C50_unbuffered : forall pl w q l m how ds f,
  disk w q = Some l \/ disk w q = None /\ how = Create /\ l = [] -> len l < 2 ^ 63 -> mode_writes m = true ->
  Forall (fun d => len d <= chunk_max pl) ds -> len (concat ds) < 2 ^ 63 ->
  new_file pl w q m how 0 = Ok f -> is_open f = true ->
  exists ks f' f'', run_file pl f (map Write ds) = Ok (f', map (fun k => Returned (Wrote k)) ks) /\
    Forall2 (fun k d => 0 <= k <= len d) ks ds /\
    file_close pl f' = Ok f'' /\
    disk_of f'' q = Some (put l 0 (concat (map (fun '(k, d) => take k d) (combine ks ds)))) /\
    (forall x, x <> q -> disk_of f'' x = disk w x) /\ destroy pl f' = Ok (os (inner (res f''))).
Proof.
  intros pl w q l m how ds f D L M SZ LE NF O.
  destruct (new_file_cases _ _ _ _ _ _ _ NF) as (_ & _ & _ & _ & R). specialize (R O).
  unfold new_file in NF.
  destruct (open_idle pl 0 _ q l m how (idle_new w (Some q) m 0) D R) as (f1 & E & _ & K & _);
    [destruct pl; vm_compute; congruence|assumption|].
  rewrite E in NF. cbn [bind] in NF. injection NF as <-.
  destruct (run_writes pl q m _ ds _ f1 K M SZ LE) as (es & f' & X1 & X2 & X3).
  destruct (close_resting _ _ _ _ _ _ _ X3) as (f'' & Y1 & Y2 & Y3 & _).
  exists (map len es), f', f''. rewrite map_map. split; [assumption|]. cbn [bytes at_] in Y2.
  assert (Z : Forall2 (fun k d => 0 <= k <= len d) (map len es) ds /\
              concat (map (fun '(k, d) => take k d) (combine (map len es) ds)) = concat es).
  { clear - X2. induction X2 as [|e d es ds H _ [I1 I2]]; [split; [constructor|reflexivity]|].
    cbn [map combine concat]. rewrite I2, <- H. split; [|reflexivity]. constructor; [|assumption].
    split; [apply len_nonneg|]. rewrite H. pose proof (len_nonneg e). rewrite len_take by lia. lia. }
  destruct Z as [Z1 Z2]. rewrite Z2. repeat split; try assumption.
  unfold destroy. now rewrite Y1.
Qed.

Example C50_unbuffered_example : exists f f' f'',
  new_file UnixLike (sample [InFull; AtMost 2; Refuse]) 2 WriteOnly Fail 0 = Ok f /\
  run_file UnixLike f (map Write [[1; 2; 3]; [4]; [5; 6]]%N) = Ok (f', map (fun k => Returned (Wrote k)) [2; 0; 2]) /\
  file_close UnixLike f' = Ok f'' /\ disk_of f'' 2%N = Some [1; 2; 5; 6]%N.
Proof.
  set (f := made (new_file UnixLike (sample [InFull; AtMost 2; Refuse]) 2 WriteOnly Fail 0)).
  set (x := run_file UnixLike f (map Write [[1; 2; 3]; [4]; [5; 6]]%N)).
  exists f, (after x), (made (file_close UnixLike (after x))).
  split; [vm_compute; reflexivity|]. split; [vm_compute; reflexivity|]. split; vm_compute; reflexivity.
Qed.

(** With a buffer, a write that the operating system refuses is lost, and neither
    flush nor close tells. *)
Theorem C50_silent_loss_refuted : exists f f' f'',
  new_file UnixLike (sample [InFull; Refuse]) 2 WriteOnly Fail 4 = Ok f /\
  run_file UnixLike f [Write [1; 2]%N; Flush; Write [3]%N] = Ok (f', [Returned (Wrote 2); Returned Done; Returned (Wrote 1)]) /\
  file_close UnixLike f' = Ok f'' /\ disk_of f'' 2%N = Some [3; 22; 23]%N.
Proof.
  set (f := made (new_file UnixLike (sample [InFull; Refuse]) 2 WriteOnly Fail 4)).
  set (x := run_file UnixLike f [Write [1; 2]%N; Flush; Write [3]%N]).
  exists f, (after x), (made (file_close UnixLike (after x))).
  split; [vm_compute; reflexivity|]. split; [vm_compute; reflexivity|]. split; vm_compute; reflexivity.
Qed.

(* ---------------------------------------------------------------------- C51 *)

(** A file object is used as FileSpec.v describes, not left in the middle of buffered
    reads, then opened on another file (or the same again), and used: the calls
    find that file's bytes, from its beginning; the first file has what was written to
    it; the end is found if the file is the one the object was constructed with.
    Missing: opening in the middle of buffered reads, is_at_end of another file
    (both refuted below). *)
Theorem C51_reopen_partial : forall pl w q r l l2 m how m2 how2 cap cs cs2,
  disk w q = Some l \/ disk w q = None /\ how = Create /\ l = [] -> len l < 2 ^ 63 ->
  obliging w -> Z.of_nat cap <= chunk_max pl -> Forall (fun c => permits m c = true) cs ->
  all_file_allowed (chunk_max pl) (Z.of_nat cap) (Store l 0) Resting cs ->
  last_stage (Z.of_nat cap) Resting cs <> InReads ->
  let s := fst (file_calls (Store l 0) cs) in
  (r = q -> l2 = bytes s) ->
  (r <> q -> disk w r = Some l2 \/ disk w r = None /\ how2 = Create /\ l2 = []) -> len l2 < 2 ^ 63 ->
  Forall (fun c => permits m2 c = true) cs2 ->
  all_file_allowed (chunk_max pl) (Z.of_nat cap) (Store l2 0) Resting cs2 ->
  let s2 := fst (file_calls (Store l2 0) cs2) in
  exists f f1 a1 f2 f3 f4, new_file pl w q m how cap = Ok f /\ run_file pl f cs = Ok (f1, a1) /\
    file_open pl f1 r m2 how2 = Ok (f2, true) /\
    run_file pl f2 cs2 = Ok (f3, map Returned (snd (file_calls (Store l2 0) cs2))) /\
    file_position pl f3 = Ok (at_ s2) /\
    (r = q -> last_stage (Z.of_nat cap) Resting cs2 <> InWrites -> file_is_at_end pl f3 = Ok (at_ s2 =? len (bytes s2))) /\
    file_close pl f3 = Ok f4 /\ disk_of f4 r = Some (bytes s2) /\ (r <> q -> disk_of f4 q = Some (bytes s)).
Proof.
  intros pl w q r l l2 m how m2 how2 cap cs cs2 D L B C P A LS s RQ RN L2 P2 A2 s2.
  destruct (new_file_opens pl w q l m how cap D L B C) as (f1 & E & Pa & B1 & K).
  destruct (run_file_steps pl (Z.of_nat cap) q m _ cs Resting (Store l 0) f1 K B1 P A) as (f2 & R & Pa2 & B2 & K2 & W2); [discriminate|].
  destruct (close_file pl (Z.of_nat cap) q m _ _ _ f2 K2 B2 W2) as (f3 & E3 & Pa3 & D3 & O3 & I3 & B3 & Id). specialize (Id LS).
  destruct (open_idle pl (Z.of_nat cap) f3 r l2 m2 how2 Id) as (f4 & E4 & Pa4 & K4 & SC4); try assumption.
  { destruct (N.eq_dec r q) as [->|NE]; [left; rewrite D3; f_equal; symmetry; now apply RQ|]. rewrite O3 by assumption. now apply RN. }
  { assert (response_now (os (inner (res f3))) = InFull) by exact (hd_Forall (fun r => r = InFull) _ eq_refl B3). congruence. }
  assert (B4 : obliging (os (inner (res f4)))) by (unfold obliging; rewrite SC4; now apply Forall_tl).
  destruct (run_file_steps pl (Z.of_nat cap) r m2 _ cs2 Resting (Store l2 0) f4 K4 B4 P2 A2) as (f5 & R5 & Pa5 & B5 & K5 & W5); [discriminate|].
  destruct (close_file pl (Z.of_nat cap) r m2 _ _ _ f5 K5 B5 W5) as (f6 & E6 & _ & D6 & O6 & _).
  exists f1, f2, (map Returned (snd (file_calls (Store l 0) cs))), f4, f5, f6.
  split; [assumption|]. split; [assumption|].
  split; [rewrite open_closes by (eapply keeps_open; exact K2); rewrite E3; exact E4|].
  split; [assumption|]. split; [apply (file_position_ok _ _ _ _ _ _ _ _ K5)|].
  split; [intros -> X; apply (file_at_end_ok _ _ _ _ _ _ _ _ K5); [congruence|assumption]|].
  split; [assumption|]. split; [assumption|]. intros NE. rewrite O6 by congruence. exact D3.
Qed.

Example C51_example : exists f f1 a1 f2 f3,
  new_file UnixLike (sample []) 1 ReadAndWrite Fail 4 = Ok f /\
  run_file UnixLike f [Read block4 3; SetPosition 0 End; Write [9]%N] = Ok (f1, a1) /\
  file_open UnixLike f1 2 ReadOnly Fail = Ok (f2, true) /\
  run_file UnixLike f2 [Read block4 2; Read block4 2] = Ok (f3, [Returned (Got [21; 22; 0; 0]%N 2); Returned (Got [23; 0; 0; 0]%N 1)]) /\
  disk_of f3 1%N = Some [1; 2; 3; 4; 5; 6; 7; 8; 9]%N.
Proof.
  set (f := made (new_file UnixLike (sample []) 1 ReadAndWrite Fail 4)).
  set (x := run_file UnixLike f [Read block4 3; SetPosition 0 End; Write [9]%N]).
  set (f2 := match file_open UnixLike (after x) 2 ReadOnly Fail with Ok (f, _) => f | _ => f end).
  exists f, (after x). eexists. exists f2, (after (run_file UnixLike f2 [Read block4 2; Read block4 2])).
  split; [vm_compute; reflexivity|]. split; [vm_compute; reflexivity|]. split; [vm_compute; reflexivity|].
  split; vm_compute; reflexivity.
Qed.

(** Opened in the middle of reads: the next read gives a byte of the first file. *)
Theorem C51_stale_refuted : exists f f1 a1 f2 f3,
  new_file UnixLike (sample []) 1 ReadOnly Fail 4 = Ok f /\
  run_file UnixLike f [Read block4 3] = Ok (f1, a1) /\
  file_open UnixLike f1 2 ReadOnly Fail = Ok (f2, true) /\
  run_file UnixLike f2 [Read block4 1] = Ok (f3, [Returned (Got [4; 0; 0; 0]%N 1)]).
Proof.
  set (f := made (new_file UnixLike (sample []) 1 ReadOnly Fail 4)).
  set (x := run_file UnixLike f [Read block4 3]).
  set (f2 := match file_open UnixLike (after x) 2 ReadOnly Fail with Ok (f, _) => f | _ => f end).
  exists f, (after x). eexists. exists f2, (after (run_file UnixLike f2 [Read block4 1])).
  split; [vm_compute; reflexivity|]. split; [vm_compute; reflexivity|]. split; vm_compute; reflexivity.
Qed.

(** All 3 bytes of the second file have been read, but is_at_end compares with the
    first file's size. *)
Theorem C51_at_end_refuted : exists f f2 f3,
  new_file UnixLike (sample []) 1 ReadOnly Fail 4 = Ok f /\
  file_open UnixLike f 2 ReadOnly Fail = Ok (f2, true) /\
  run_file UnixLike f2 [Read block4 3] = Ok (f3, [Returned (Got [21; 22; 23; 0]%N 3)]) /\
  file_is_at_end UnixLike f3 = Ok false.
Proof.
  set (f := made (new_file UnixLike (sample []) 1 ReadOnly Fail 4)).
  set (f2 := match file_open UnixLike f 2 ReadOnly Fail with Ok (f, _) => f | _ => f end).
  exists f, f2, (after (run_file UnixLike f2 [Read block4 3])).
  split; [vm_compute; reflexivity|]. split; [vm_compute; reflexivity|]. split; vm_compute; reflexivity.
Qed.

(** On a file object made without a file and then opened, is_at_end ends the
    program. *)
Theorem C51_at_end_terminates_refuted : exists f2,
  file_open UnixLike (no_file (sample []) 4) 2 ReadOnly Fail = Ok (f2, true) /\ file_is_at_end UnixLike f2 = Terminate.
Proof.
  exists (match file_open UnixLike (no_file (sample []) 4) 2 ReadOnly Fail with Ok (f, _) => f | _ => no_file (sample []) 4 end).
  split; vm_compute; reflexivity.
Qed.

(* ---------------------------------------------------------------------- C65 *)

(** Whatever the operating system does and whatever is called: no file but the one
    opened changes, nor does any other appear or disappear. *)
Theorem C65_other_files : forall pl w q m how cap f cs f' l x,
  new_file pl w q m how cap = Ok f -> run_file pl f cs = Ok (f', l) -> x <> q ->
  disk_of f' x = disk w x /\ (forall f'', file_close pl f' = Ok f'' -> disk_of f'' x = disk w x).
Proof.
  intros pl w q m how cap f cs f' l x H R N.
  destruct (new_file_frame _ _ _ _ _ _ _ H) as [F1 F2].
  destruct (run_file_tame _ _ _ _ _ R) as ([T1 (_ & T2 & T3 & _)] & _).
  assert (Nm : option_map (fun x => file_name (snd x)) (lookup (os (inner (res f))) (descriptor (inner (res f)))) <> Some x).
  { destruct (descriptor (inner (res f))) as [k|]; [|discriminate]. destruct F2 as (_ & _ & F2 & _). unfold lookup. rewrite F2. cbn. congruence. }
  assert (D : disk_of f' x = disk w x) by (unfold disk_of; rewrite T3 by assumption; now apply F1).
  split; [assumption|]. intros f'' C. unfold file_close in C.
  destruct (file_flush pl f') as [f3| | | |] eqn:FF; cbn [bind noexcept] in C; try discriminate. injection C as <-.
  destruct (file_flush_tame _ _ _ FF) as ([U1 (_ & _ & U3 & _)] & _).
  unfold disk_of. cbn [with_sys res inner os]. transitivity (disk (os (inner (res f3))) x).
  { destruct (descriptor (inner (res f3))); reflexivity. }
  rewrite U3; [exact D|]. rewrite T1, T2. exact Nm.
Qed.

(** Two file objects on different files of one program, with calls in any order,
    each used as FileSpec.v describes: each behaves as if it were the only one.
    Missing: what C64 misses; two objects on one file. *)
Theorem C65_two_files_partial : forall pl w q r l1 l2 m1 m2 how1 how2 cap1 cap2 cs,
  q <> r ->
  disk w q = Some l1 \/ disk w q = None /\ how1 = Create /\ l1 = [] -> len l1 < 2 ^ 63 ->
  disk w r = Some l2 \/ disk w r = None /\ how2 = Create /\ l2 = [] -> len l2 < 2 ^ 63 ->
  obliging w -> Z.of_nat cap1 <= chunk_max pl -> Z.of_nat cap2 <= chunk_max pl ->
  Forall (fun c => permits m1 c = true) (calls_of true cs) -> Forall (fun c => permits m2 c = true) (calls_of false cs) ->
  all_file_allowed (chunk_max pl) (Z.of_nat cap1) (Store l1 0) Resting (calls_of true cs) ->
  all_file_allowed (chunk_max pl) (Z.of_nat cap2) (Store l2 0) Resting (calls_of false cs) ->
  exists f g w' f' g' f'' g'', new_file pl w q m1 how1 cap1 = Ok f /\
    new_file pl (os (inner (res f))) r m2 how2 cap2 = Ok g /\
    run_two pl (os (inner (res g))) f g cs =
      Ok (w', f', g', map Returned (snd (file_calls (Store l1 0) (calls_of true cs))),
                      map Returned (snd (file_calls (Store l2 0) (calls_of false cs)))) /\
    file_close pl (in_world w' f') = Ok f'' /\
    file_close pl (in_world (os (inner (res f''))) g') = Ok g'' /\
    disk_of g'' q = Some (bytes (fst (file_calls (Store l1 0) (calls_of true cs)))) /\
    disk_of g'' r = Some (bytes (fst (file_calls (Store l2 0) (calls_of false cs)))) /\
    (forall x, x <> q -> x <> r -> disk_of g'' x = disk w x).
Proof. exact two_files. Qed.

Example C65_example : exists w' f' g' la lb,
  let f := made (new_file UnixLike (sample []) 1 ReadAndWrite Fail 4) in
  let g := made (new_file UnixLike (os (inner (res f))) 2 ReadAndWrite Fail 2) in
  run_two UnixLike (os (inner (res g))) f g
    [(true, Write [90]%N); (false, Read block4 2); (true, Write [91]%N); (false, SetPosition 0 End); (true, Flush); (false, Write [50]%N)]
  = Ok (w', f', g', la, lb) /\ disk w' 1%N = Some [90; 91; 3; 4; 5; 6; 7; 8]%N /\
  lb = [Returned (Got [21; 22; 0; 0]%N 2); Returned Done; Returned (Wrote 1)].
Proof. do 5 eexists. cbv zeta. split; [vm_compute; reflexivity|]. split; vm_compute; reflexivity. Qed.

(** Two objects on one file do disturb each other. *)
Theorem C65_one_file_refuted : exists w' f' g' lb,
  let f := made (new_file UnixLike (sample []) 1 ReadAndWrite Fail 4) in
  let g := made (new_file UnixLike (os (inner (res f))) 1 ReadAndWrite Fail 4) in
  run_two UnixLike (os (inner (res g))) f g [(false, Read block4 1); (true, Write [90; 91]%N); (true, Flush); (false, Read block4 1)]
  = Ok (w', f', g', [Returned (Wrote 2); Returned Done], lb) /\ disk w' 1%N = Some [90; 91; 3; 4; 5; 6; 7; 8]%N /\
  lb = [Returned (Got [1; 0; 0; 0]%N 1); Returned (Got [2; 0; 0; 0]%N 1)].
Proof. do 4 eexists. cbv zeta. split; [vm_compute; reflexivity|]. split; vm_compute; reflexivity. Qed.

(* ---------------------------------------------------------------------- C66 *)

(** open, whatever the operating system does.  Told to fail, it never makes a file;
    told to create, it makes an empty one if there is none; it never removes bytes of a
    file; and what it returns is what is_open returns. *)
Theorem C66_open : forall pl f q m how f' b, is_open f = false -> file_open pl f q m how = Ok (f', b) ->
  is_open f' = b /\
  (forall x, x <> q -> disk_of f' x = disk_of f x) /\
  (b = false -> disk_of f' = disk_of f) /\
  (b = true -> disk_of f q = None -> how = Create /\ disk_of f' q = Some []) /\
  (forall l, disk_of f q = Some l -> disk_of f' q = Some l).
Proof.
  intros pl f q m how f' b O H. destruct (file_open_frame _ _ _ _ _ _ _ O H) as (E & F1 & F2).
  split; [congruence|]. split; [exact F1|]. unfold disk_of. subst b. unfold is_open.
  destruct (descriptor (inner (res f'))) as [k|].
  - destruct F2 as (_ & _ & _ & _ & F5 & F6). split; [discriminate|]. rewrite F5. split.
    + intros _ D. rewrite D in *. split; [now apply F6|reflexivity].
    + intros l D. now rewrite D.
  - destruct F2 as [F2 _]. split; [now intros _|]. split; [discriminate|]. intros l D. now rewrite F2.
Qed.

(** If it is there or to be created, and the operating system does not refuse, it is
    opened. *)
Theorem C66_opens : forall pl f q m how, is_open f = false ->
  hd InFull (script (os (inner (res f)))) <> Refuse -> (disk_of f q = None -> how = Create) ->
  exists f', file_open pl f q m how = Ok (f', true).
Proof.
  intros pl f q m how O R D. unfold file_open. rewrite O. cbn [bind]. unfold disk_of in D.
  assert (N : response_now (os (inner (res f))) = hd InFull (script (os (inner (res f))))) by (unfold response_now; destruct (script _); reflexivity).
  assert (X : forall create, (disk (os (inner (res f))) q = None -> create = true) ->
    exists w1 k, sys_open (os (inner (res f))) q create (mode_reads m) (mode_writes m) = (w1, Some k)).
  { intros create CR. destruct (sys_open (os (inner (res f))) q create (mode_reads m) (mode_writes m)) as [w1 fd] eqn:E.
    destruct fd as [k|]; [eauto|].
    exfalso. unfold sys_open in E. rewrite respond_eq, N in E. cbn [disk] in E.
    destruct (hd InFull (script (os (inner (res f))))); [congruence| |];
      destruct (disk (os (inner (res f))) q), create; try discriminate; specialize (CR eq_refl); discriminate. }
  destruct (X (match how with Fail => match pl with UnixLike => false | Windows => true end | Create => true end)) as (w1 & k & E).
  { intros Z. now rewrite (D Z). }
  destruct how, (disk (os (inner (res f))) q) as [l|]; try (specialize (D eq_refl); discriminate); rewrite E; eexists; reflexivity.
Qed.

(** If a file is open already, it is as if it had been closed first. *)
Theorem C66_open_again : forall pl f q m how f' b, is_open f = true -> file_open pl f q m how = Ok (f', b) ->
  exists f0, file_close pl f = Ok f0 /\ is_open f0 = false /\ file_open pl f0 q m how = Ok (f', b).
Proof.
  intros pl f q m how f' b O H. rewrite open_closes in H by assumption.
  destruct (file_close pl f) as [f0| | | |] eqn:E; cbn [bind] in H; try discriminate. exists f0.
  split; [reflexivity|]. split; [|exact H]. unfold file_close in E.
  destruct (file_flush pl f); cbn [bind noexcept] in E; try discriminate. injection E as <-. reflexivity.
Qed.

Example C66_example : exists f f',
  new_file Windows (sample []) 7 ReadOnly Fail 4 = Ok f /\ is_open f = false /\ disk_of f 7%N = None /\
  file_open Windows f 7 WriteOnly Create = Ok (f', true) /\ disk_of f' 7%N = Some [].
Proof.
  set (f := made (new_file Windows (sample []) 7 ReadOnly Fail 4)).
  exists f, (match file_open Windows f 7 WriteOnly Create with Ok (f, _) => f | _ => f end).
  split; [vm_compute; reflexivity|]. split; [vm_compute; reflexivity|]. split; [vm_compute; reflexivity|]. split; vm_compute; reflexivity.
Qed.

(* ---------------------------------------------------------------------- C67 *)

(** A file object that was closed is moved, and the old one destroyed: nothing
    happens.  Missing: file objects that are open (refuted below). *)
Theorem C67_closed_partial : forall pl f f', file_close pl f = Ok f' ->
  destroy pl (snd (move_file f')) = Ok (os (inner (res (fst (move_file f'))))).
Proof.
  intros pl f f' H. unfold file_close in H. destruct (file_flush pl f) as [f1| | | |] eqn:E; cbn [bind noexcept] in H; try discriminate.
  injection H as <-. assert (W : write_dirty (buf (res f1)) = false).
  { unfold file_flush, flush in E. destruct (write_dirty (buf (res f))) eqn:WD.
    - destruct (slice _ _ _) as [d| | | |]; cbn [bind] in E; try discriminate.
      destruct (raw_write _ _ _) as [[s k]| | | |]; cbn [bind] in E; try discriminate. injection E as <-. reflexivity.
    - cbn [bind] in E. injection E as <-. exact WD. }
  unfold destroy, file_close, file_flush, flush. cbn [with_sys move_file fst snd res inner buf write_dirty]. rewrite W. reflexivity.
Qed.

Example C67_example : exists f', file_close UnixLike (made (new_file UnixLike (sample []) 1 ReadOnly Fail 4)) = Ok f'.
Proof. eexists. vm_compute. reflexivity. Qed.

(** An open file is moved and the old object destroyed: the new one cannot read. *)
Theorem C67_closes_refuted : exists f w' f',
  new_file UnixLike (sample []) 1 ReadOnly Fail 4 = Ok f /\
  destroy UnixLike (snd (move_file f)) = Ok w' /\
  file_read UnixLike (in_world w' (fst (move_file f))) block4 4 = Ok (f', Returned (block4, 0)).
Proof.
  set (f := made (new_file UnixLike (sample []) 1 ReadOnly Fail 4)).
  set (w' := match destroy UnixLike (snd (move_file f)) with Ok w => w | _ => sample [] end).
  exists f, w', (after (run_file UnixLike (in_world w' (fst (move_file f))) [Read block4 4])).
  split; [vm_compute; reflexivity|]. split; vm_compute; reflexivity.
Qed.

(** With bytes waiting in the buffer, destroying the old object reads from the emptied
    buffer: undefined behaviour. *)
Theorem C67_buffer_refuted : exists f f' l,
  new_file UnixLike (sample []) 1 WriteOnly Fail 4 = Ok f /\
  run_file UnixLike f [Write [1; 2]%N] = Ok (f', l) /\
  destroy UnixLike (snd (move_file f')) = UB OutOfBoundsRead.
Proof.
  set (f := made (new_file UnixLike (sample []) 1 WriteOnly Fail 4)).
  exists f, (after (run_file UnixLike f [Write [1; 2]%N])). eexists.
  split; [vm_compute; reflexivity|]. split; vm_compute; reflexivity.
Qed.

(* ---------------------------------------------------------------------- C68 *)

(** On Unix-like systems a seek to before the beginning, from the beginning, is a seek to
    the beginning; whatever the file and the operating system. *)
Theorem C68_unix_begin_partial : forall f n, n < 0 ->
  file_seek UnixLike f n FromBegin = file_seek UnixLike f 0 FromBegin.
Proof.
  intros f n N. unfold file_seek, seek_raw. now replace (Z.max 0 n) with 0 by lia.
Qed.

Example C68_unix_example : exists f, file_seek UnixLike (made (new_file UnixLike (sample []) 1 ReadOnly Fail 4)) (-1) FromBegin = Ok f.
Proof. eexists. vm_compute. reflexivity. Qed.

(** All other seeks to before the beginning, not in the middle of buffered reads,
    leave everything as it is: all calls go on as if it had been a flush. *)
Theorem C68_stays_partial : forall pl w q l m how cap cs n o cs2,
  disk w q = Some l \/ disk w q = None /\ how = Create /\ l = [] -> len l < 2 ^ 63 ->
  obliging w -> Z.of_nat cap <= chunk_max pl -> Forall (fun c => permits m c = true) (cs ++ Flush :: cs2) ->
  all_file_allowed (chunk_max pl) (Z.of_nat cap) (Store l 0) Resting (cs ++ Flush :: cs2) ->
  last_stage (Z.of_nat cap) Resting cs <> InReads ->
  file_target (fst (file_calls (Store l 0) cs)) n o < 0 -> (pl = UnixLike -> o <> Begin) ->
  exists f f', new_file pl w q m how cap = Ok f /\
    run_file pl f (cs ++ SetPosition n o :: cs2) = Ok (f', map Returned (snd (file_calls (Store l 0) (cs ++ Flush :: cs2)))).
Proof.
  intros pl w q l m how cap cs n o cs2 D L B C P A LS T PB.
  destruct (new_file_opens pl w q l m how cap D L B C) as (f1 & E & Pa & B1 & K).
  apply Forall_app in P. destruct P as [P1 P2]. inversion P2 as [|? ? _ P3]; subst.
  destruct (allowed_app _ _ _ _ _ _ A) as [A1 A2]. cbn [all_file_allowed] in A2. destruct A2 as [_ A2].
  destruct (run_file_steps pl (Z.of_nat cap) q m _ cs Resting (Store l 0) f1 K B1 P1 A1) as (f2 & R & Pa2 & B2 & K2 & W2); [discriminate|].
  destruct (call_rejected _ _ _ _ _ _ _ _ n o K2 B2 W2 LS T PB) as (f3 & E3 & _ & B3 & K3).
  cbn [file_call fst] in A2.
  replace (next_stage (Z.of_nat cap) (last_stage (Z.of_nat cap) Resting cs) Flush) with Resting in A2
    by (unfold next_stage; destruct (Z.of_nat cap =? 0), (last_stage (Z.of_nat cap) Resting cs); congruence).
  destruct (run_file_steps pl (Z.of_nat cap) q m _ cs2 Resting _ f3 K3 B3 P3 A2) as (f4 & R4 & _); [discriminate|].
  exists f1, f4. split; [assumption|]. rewrite (run_file_app _ _ _ _ _ _ R). cbn [run_file]. rewrite E3. cbn [bind]. rewrite R4. cbn [bind].
  rewrite file_calls_app, map_app. cbn [file_calls file_call].
  destruct (file_calls (fst (file_calls (Store l 0) cs)) cs2) as [s5 l5]. reflexivity.
Qed.

Example C68_example : exists f f',
  new_file Windows (sample []) 1 ReadAndWrite Fail 4 = Ok f /\
  run_file Windows f ([SetPosition 2 Begin; Write [9]%N] ++ SetPosition (-4) Current :: [Read block4 2])
  = Ok (f', [Returned Done; Returned (Wrote 1); Returned Done; Returned (Got [4; 5; 0; 0]%N 2)]).
Proof.
  set (f := made (new_file Windows (sample []) 1 ReadAndWrite Fail 4)).
  exists f, (after (run_file Windows f ([SetPosition 2 Begin; Write [9]%N] ++ SetPosition (-4) Current :: [Read block4 2]))).
  split; vm_compute; reflexivity.
Qed.

(** So the same seek leads to different places on the two platforms. *)
Theorem C68_platforms_refuted : exists f f' g g',
  new_file UnixLike (sample []) 1 ReadOnly Fail 4 = Ok f /\ new_file Windows (sample []) 1 ReadOnly Fail 4 = Ok g /\
  run_file UnixLike f [SetPosition 2 Begin; SetPosition (-1) Begin; Read block4 1] = Ok (f', [Returned Done; Returned Done; Returned (Got [1; 0; 0; 0]%N 1)]) /\
  run_file Windows g [SetPosition 2 Begin; SetPosition (-1) Begin; Read block4 1] = Ok (g', [Returned Done; Returned Done; Returned (Got [3; 0; 0; 0]%N 1)]).
Proof.
  set (f := made (new_file UnixLike (sample []) 1 ReadOnly Fail 4)). set (g := made (new_file Windows (sample []) 1 ReadOnly Fail 4)).
  set (cs := [SetPosition 2 Begin; SetPosition (-1) Begin; Read block4 1]).
  exists f, (after (run_file UnixLike f cs)), g, (after (run_file Windows g cs)).
  split; [vm_compute; reflexivity|]. split; [vm_compute; reflexivity|]. split; vm_compute; reflexivity.
Qed.

(** In the middle of buffered reads a seek to before the beginning neither leads to
    the beginning nor leaves the position: it goes to where the buffer was filled. *)
Theorem C68_in_reads_refuted : exists f f',
  new_file UnixLike (sample []) 1 ReadOnly Fail 4 = Ok f /\
  run_file UnixLike f [SetPosition 2 Begin; Read block4 3; SetPosition (-99) End; Read block4 1]
  = Ok (f', [Returned Done; Returned (Got [3; 4; 5; 0]%N 3); Returned Done; Returned (Got [3; 0; 0; 0]%N 1)]).
Proof.
  set (f := made (new_file UnixLike (sample []) 1 ReadOnly Fail 4)).
  exists f, (after (run_file UnixLike f [SetPosition 2 Begin; Read block4 3; SetPosition (-99) End; Read block4 1])).
  split; vm_compute; reflexivity.
Qed.

Print Assumptions C48_read_refused.
Print Assumptions C48_write_refused.
Print Assumptions C48_reopened.
Print Assumptions C48_permitted.
Print Assumptions C49_in_order_partial.
Print Assumptions C49_short_read_refuted.
Print Assumptions C49_buffer_overrun_refuted.
Print Assumptions C49_within_block.
Print Assumptions C49_huge_read_refuted.
Print Assumptions C64_as_bytes_partial.
Print Assumptions C64_long_read_refuted.
Print Assumptions C64_write_after_read_refuted.
Print Assumptions C64_read_after_write_refuted.
Print Assumptions C50_written_partial.
Print Assumptions C50_unbuffered.
Print Assumptions C50_silent_loss_refuted.
Print Assumptions C51_reopen_partial.
Print Assumptions C51_stale_refuted.
Print Assumptions C51_at_end_refuted.
Print Assumptions C51_at_end_terminates_refuted.
Print Assumptions C65_other_files.
Print Assumptions C65_two_files_partial.
Print Assumptions C65_one_file_refuted.
Print Assumptions C66_open.
Print Assumptions C66_opens.
Print Assumptions C66_open_again.
Print Assumptions C67_closed_partial.
Print Assumptions C67_closes_refuted.
Print Assumptions C67_buffer_refuted.
Print Assumptions C68_unix_begin_partial.
Print Assumptions C68_stays_partial.
Print Assumptions C68_platforms_refuted.
Print Assumptions C68_in_reads_refuted.
