(** C156: a log survives the programs that write it. *)
From Coq Require Import NArith ZArith List Bool Lia.
From Coq Require Import ZifyBool ZifyNat ZifyN.
From Verif Require Import Base Integers ResourceSpec ResourceModel ResourceText FileSpec FileModel FileText.
From Verif Require Import ResourceLemmas ResourceLemmas2 FileLemmas FileLemmas2 FileLemmas3 FileLemmas4 CrashSpec CrashModel CrashLemmas CrashLemmas2
  FileProps CrashProps DiarySpec DiaryText DiaryLemmas.
Import ListNotations.
Open Scope Z_scope.

(** Any number of runs, one after the other, each of which ends or is killed at any time, even
    within a system call: the log has what it had before, followed by a part of each run, in
    order.  No run damages what an earlier one left; what was flushed stays; and no other
    file changes. *)
Theorem C156_log : forall pl q d rs d' l, all_leave pl q d rs d' -> holds_log d q l ->
  Forall (fun r => Forall logs (does (snd r)) /\ Forall (fun c => len (written [c]) <= chunk_max pl) (does (snd r))) rs ->
  len (l ++ concat (map (fun r => written (does (snd r))) rs)) < 2 ^ 63 ->
  exists parts, Forall2 (fun r part => survives (Z.of_nat (fst r)) (snd r) part) rs parts /\
    holds_log d' q (l ++ concat parts) /\ (forall x, x <> q -> d' x = d x).
Proof.
  intros pl q d rs d' l A. revert l. induction A as [d|d cap r d1 rs d2 Hc Lv A IH]; intros l Hl F L.
  - exists []. split; [constructor|]. split; [now rewrite app_nil_r|reflexivity].
  - inversion F as [|? ? [F1 F2] Fr]; subst. cbn [map concat fst snd] in *. rewrite app_assoc, len_app in L.
    pose proof (len_nonneg (concat (map (fun r => written (does (snd r))) rs))) as P0.
    destruct (one_run pl q cap d r d1 l Lv Hl Hc F1 F2 ltac:(lia)) as (part & S & Hd & O1).
    assert (Lp : len part <= len (written (does r))).
    { destruct S as (k & K1 & -> & _). rewrite len_take by lia. lia. }
    destruct (IH (l ++ part) Hd Fr) as (parts & S2 & H2 & O2).
    { rewrite !len_app in *. lia. }
    exists (part :: parts). split; [constructor; [exact S|exact S2]|]. split.
    + cbn [concat]. now rewrite app_assoc.
    + intros x X. now rewrite O2, O1.
Qed.
Print Assumptions C156_log.

(** Such runs exist, whatever was left on the disk: a program that logs always comes to its end
    if it is not killed, and it may be killed in every call and while it closes the file. *)
Theorem C156_runs : forall pl q cap d l cs m, holds_log d q l -> Z.of_nat cap <= chunk_max pl -> mode_writes m = true ->
  Forall logs cs -> Forall (fun c => len (written [c]) <= chunk_max pl) cs -> len (l ++ written cs) < 2 ^ 63 ->
  (exists d', leaves pl q cap d (Run cs cs true) d') /\ (exists d', leaves pl q cap d (Run cs cs false) d') /\
  forall cs1 c cs2, appends cs = cs1 ++ c :: cs2 -> exists d', leaves pl q cap d (Run cs (tl cs1) false) d'.
Proof.
  intros pl q cap d l cs m Hl Hc W Hg Hm Hs. set (w := World d (fun _ => None) 0 []).
  assert (Ll : len l < 2 ^ 63) by (rewrite len_app in Hs; pose proof (len_nonneg (written cs)); lia).
  assert (Op : disk w q = Some l \/ disk w q = None /\ Create = Create /\ l = []).
  { destruct Hl as [E|[E ->]]; [now left|right; auto]. }
  assert (B : obliging w) by constructor.
  pose proof (appends_allowed (chunk_max pl) (Z.of_nat cap) cs l Hg Hm Hs) as A. pose proof (appends_permitted m cs W Hg) as P.
  split; [|split].
  - destruct (C64_as_bytes_partial pl w q l m Create cap (appends cs) Op Ll B Hc P A) as (g & g' & g'' & F1 & F2 & _ & _ & F3 & _).
    eexists. eapply (Ended pl q cap d w m cs); eauto.
  - destruct (C128_closing pl w q l m Create cap (appends cs) Op Ll B Hc P A) as (g & g' & g'' & tries' & F1 & F2 & F3 & _ & F4).
    eexists. eapply (KilledClosing pl q cap d w m cs); eauto. constructor.
  - intros cs1 c cs2 E0.
    assert (A1 : all_file_allowed (chunk_max pl) (Z.of_nat cap) (Store l 0) Resting (cs1 ++ [c])).
    { apply allowed_begin with cs2. rewrite <- app_assoc. cbn [app]. now rewrite <- E0. }
    assert (P1 : Forall (fun c => permits m c = true) (cs1 ++ [c])).
    { rewrite E0 in P. change (c :: cs2) with ([c] ++ cs2) in P. rewrite app_assoc in P. now apply Forall_app in P. }
    destruct (C128_torn pl w q l m Create cap cs1 c Op Ll B Hc P1 A1) as (g & g' & g'' & a' & tries' & F1 & F2 & F3 & F4).
    eexists. eapply (KilledIn pl q cap d w m cs); eauto. constructor.
Qed.
Print Assumptions C156_runs.

(** Three runs with a buffer of four bytes.  The first writes [1; 2; 3], flushes, and is killed
    within the system call that the write of [4; 5; 6] and [7; 8] makes: one byte of it is there.
    The second is killed while it closes the file, before anything reaches the file.  The third
    comes to its end. *)
Definition log_runs : list (nat * run) :=
  [(4%nat, Run [Write [1; 2; 3]; Flush; Write [4; 5; 6]; Write [7; 8]]%N [Write [1; 2; 3]; Flush; Write [4; 5; 6]]%N false);
   (4%nat, Run [Write [9]]%N [Write [9]]%N false);
   (4%nat, Run [Write [10; 11]; Write [12]]%N [Write [10; 11]; Write [12]]%N true)].

Definition fresh (d : N -> option (list N)) : world := World d (fun _ => None) 0 [].

Definition got (x : outcome file) : file := match x with Ok f => f | _ => no_file (fresh (fun _ => None)) 0 end.

Definition fst_of {A} (x : outcome (file * A)) : outcome file := bind x (fun '(f, _) => Ok f).

Example C156_example : exists d', all_leave UnixLike 1 (fun _ => None) log_runs d' /\ d' 1%N = Some [1; 2; 3; 4; 10; 11; 12]%N /\
  Forall (fun r => Forall logs (does (snd r)) /\ Forall (fun c => len (written [c]) <= chunk_max UnixLike) (does (snd r))) log_runs.
Proof.
  set (f1 := got (new_file UnixLike (fresh (fun _ => None)) 1 WriteOnly Create 4)).
  set (g1 := got (fst_of (run_file UnixLike f1 (SetPosition 0 End :: [Write [1; 2; 3]; Flush; Write [4; 5; 6]]%N)))).
  set (x1 := watched_call UnixLike g1 (Write [7; 8]%N)).
  set (t1 := match x1 with Ok (_, _, [t]) => t | _ => Attempt (fresh (fun _ => None)) None [] end).
  set (d1 := left_at t1 (AtMost 1)).
  set (f2 := got (new_file UnixLike (fresh d1) 1 WriteOnly Create 4)).
  set (g2 := got (fst_of (run_file UnixLike f2 (SetPosition 0 End :: [Write [9]]%N)))).
  set (x2 := watched_close UnixLike g2).
  set (d2 := disk_of g2).
  set (f3 := got (new_file UnixLike (fresh d2) 1 WriteOnly Create 4)).
  set (g3 := got (fst_of (run_file UnixLike f3 (SetPosition 0 End :: [Write [10; 11]; Write [12]]%N)))).
  set (h3 := got (file_close UnixLike g3)).
  exists (disk_of h3). split; [|split; [vm_compute; reflexivity|]].
  - assert (R1 : exists h b, x1 = Ok (h, b, [t1])).
    { eexists (got (bind x1 (fun '(h, _, _) => Ok h))), (Returned (Wrote 2)). vm_compute. reflexivity. }
    destruct R1 as (h1 & b1 & R1).
    assert (R2 : exists h t, x2 = Ok (h, t)).
    { exists (got (fst_of x2)), (match x2 with Ok (_, t) => t | _ => [] end). vm_compute. reflexivity. }
    destruct R2 as (h2 & t2 & R2).
    assert (Cm : Z.of_nat 4 <= chunk_max UnixLike) by (vm_compute; discriminate).
    econstructor; [exact Cm| |econstructor; [exact Cm| |econstructor; [exact Cm| |constructor]]].
    + eapply (KilledIn UnixLike 1 4 (fun _ => None) (fresh (fun _ => None)) WriteOnly _
        (SetPosition 0 End :: [Write [1; 2; 3]; Flush; Write [4; 5; 6]]%N) (Write [7; 8]%N) [] f1 g1 h1
        [Returned Done; Returned (Wrote 3); Returned Done; Returned (Wrote 3)] b1 [t1] d1);
        [reflexivity|constructor|reflexivity|reflexivity|vm_compute; reflexivity|vm_compute; reflexivity|exact R1|].
      apply (WithinOne true _ [t1] t1 1); [now left|reflexivity].
    + eapply (KilledClosing UnixLike 1 4 d1 (fresh d1) WriteOnly _ f2 g2 h2 [Returned Done; Returned (Wrote 1)] t2 d2);
        [reflexivity|constructor|reflexivity|vm_compute; reflexivity|vm_compute; reflexivity|exact R2|constructor].
    + eapply (Ended UnixLike 1 4 d2 (fresh d2) WriteOnly _ f3 g3 h3 [Returned Done; Returned (Wrote 2); Returned (Wrote 1)]);
        [reflexivity|constructor|reflexivity|vm_compute; reflexivity|vm_compute; reflexivity|vm_compute; reflexivity].
  - repeat constructor; vm_compute; discriminate.
Qed.
