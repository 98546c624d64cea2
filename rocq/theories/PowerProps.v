From Coq Require Import NArith ZArith List Bool Lia.
From Coq Require Import ZifyBool ZifyNat ZifyN.
From Verif Require Import Base Integers ResourceSpec ResourceModel ResourceText FileSpec FileModel FileText.
From Verif Require Import ResourceLemmas ResourceLemmas2 FileLemmas CrashSpec CrashModel CrashLemmas2 CrashProps.
From Verif Require Import PowerSpec PowerModel PowerLemmas.
Import ListNotations.
Open Scope Z_scope.

(* ------------------------------------------------------------------- C136 *)

(** C136 says that after a power failure a file is as after all the calls up to the last
    flush, at least.  That is false (below).  What is true: a file opened anew, calls made,
    and then the power fails, before or after the file was closed.  Other files are as
    they were.  The file is missing only if it was missing before; what is found has a size
    it had and, byte for byte, what it had at some time, or zeros where it had ended.
    Partial: says only where the bytes come from, for systems that do what they are asked
    as long as there is power, and for the histories of C64. *)
Theorem C136_past_partial : forall pl w q l m how cap cs,
  disk w q = Some l \/ disk w q = None /\ how = Create /\ l = [] -> len l < 2 ^ 63 ->
  obliging w -> Z.of_nat cap <= chunk_max pl -> Forall (fun c => permits m c = true) cs ->
  all_file_allowed (chunk_max pl) (Z.of_nat cap) (Store l 0) Resting cs ->
  exists f f' open_tries closed_tries, new_file pl w q m how cap = Ok f /\
    watched_calls pl f cs = Ok (f', map Returned (snd (file_calls (Store l 0) cs)), open_tries) /\
    watched_life pl f cs = Ok (map Returned (snd (file_calls (Store l 0) cs)), closed_tries) /\
    forall d, left_by_power_failure (shown_once (disk w) (disk_of f) open_tries) d \/
              left_by_power_failure (shown_once (disk w) (disk_of f) closed_tries) d ->
      (forall x, x <> q -> d x = disk w x) /\
      (d q = None /\ disk w q = None \/ exists found, d q = Some found /\ from_the_past l cs found).
Proof.
  intros pl w q l m how cap cs D L B C P A.
  destruct (moments pl w q l m how cap D L B C cs P A) as (f & f' & t1 & E1 & R1 & M1).
  destruct (moments_closed pl w q l m how cap D L B C cs P A) as (g & t2 & E2 & R2 & M2).
  rewrite E1 in E2. injection E2 as <-. exists f, f', t1, t2. split; [exact E1|]. split; [exact R1|]. split; [exact R2|].
  intros d [H|H]; [exact (power_moments w q l how D L cs _ _ d M1 H)|exact (power_moments w q l how D L cs _ _ d M2 H)].
Qed.
Print Assumptions C136_past_partial.

Lemma unwritten : forall l cs part, Forall (fun c => match c with Write _ => False | _ => True end) cs -> begins part cs ->
  file_bytes l part = l.
Proof.
  intros l cs part F B.
  assert (G : forall part s, Forall (fun c => match c with Write _ => False | _ => True end) part -> bytes (fst (file_calls s part)) = bytes s).
  { clear. induction part as [|c part IH]; intros s F; [reflexivity|]. apply Forall_cons_iff in F as [F1 F2].
    cbn [file_calls]. specialize (IH (fst (file_call s c)) F2).
    assert (X : bytes (fst (file_call s c)) = bytes s) by (destruct c; try contradiction; reflexivity).
    destruct (file_call s c) as [s1 a]. cbn [fst] in *. destruct (file_calls s1 part). cbn [fst] in *. congruence. }
  apply G. clear G. induction B as [|d e cs|c part cs B IH]; [constructor| |].
  - apply Forall_cons_iff in F as [[] _].
  - apply Forall_cons_iff in F as [F1 F2]. constructor; auto.
Qed.

(** A file that is not written to stays as it is. *)
Theorem C136_unwritten : forall pl w q l m how cap cs,
  disk w q = Some l -> len l < 2 ^ 63 ->
  obliging w -> Z.of_nat cap <= chunk_max pl -> Forall (fun c => permits m c = true) cs ->
  all_file_allowed (chunk_max pl) (Z.of_nat cap) (Store l 0) Resting cs ->
  Forall (fun c => match c with Write _ => False | _ => True end) cs ->
  exists f tries, new_file pl w q m how cap = Ok f /\
    watched_life pl f cs = Ok (map Returned (snd (file_calls (Store l 0) cs)), tries) /\
    forall d x, left_by_power_failure (shown_once (disk w) (disk_of f) tries) d -> d x = disk w x.
Proof.
  intros pl w q l m how cap cs D L B C P A U.
  destruct (C136_past_partial pl w q l m how cap cs (or_introl D) L B C P A) as (f & f' & t1 & t2 & E & _ & R & H).
  exists f, t2. split; [exact E|]. split; [exact R|]. intros d x K. destruct (H d (or_intror K)) as [H1 H2].
  destruct (N.eq_dec x q) as [->|X]; [|now apply H1]. destruct H2 as [[_ H2]|(found & H2 & (part & B1 & Le) & Y)]; [congruence|].
  rewrite H2, D. f_equal. rewrite (unwritten l cs part U B1) in Le. apply nth_error_ext'. intro i.
  destruct (nth_error found i) as [b|] eqn:Eb.
  - destruct (Y i b Eb) as (part' & B2 & [N|[_ N]]); rewrite (unwritten l cs part' U B2) in N; [now symmetry|].
    apply nth_error_None in N. rewrite <- Le in N. apply nth_error_None in N. congruence.
  - symmetry. apply nth_error_None. rewrite <- Le. now apply nth_error_None.
Qed.
Print Assumptions C136_unwritten.

(** Cases.  The file has the bytes 1 to 8; a buffer of 4. *)
Definition careful : list call := [Write [11; 12]; Flush; SetPosition 8 Begin; Write [21; 22]; Flush]%N.

Definition answers_of (x : outcome (list (reply answer) * list attempt)) : list (reply answer) :=
  match x with Ok (a, _) => a | _ => [] end.
Definition tries_of (x : outcome (list (reply answer) * list attempt)) : list attempt :=
  match x with Ok (_, l) => l | _ => [] end.
Definition done_with (pl : platform) (cs : list call) : outcome (list (reply answer) * list attempt) :=
  watched_life pl (made (new_file pl eight 1 ReadAndWrite Fail 4)) cs.

Definition only (l : list N) : N -> option (list N) := fun q => if N.eqb q 1 then Some l else None.

Lemma one_moment : forall (past : (N -> option (list N)) -> Prop) v, past v -> left_by_power_failure past v.
Proof.
  intros past v H q. destruct (v q) as [l|] eqn:E; [|left; eauto]. right. exists l. split; [reflexivity|].
  split; [exists v, l; auto|]. intros i b N. left. exists v, l. auto.
Qed.

Example C136_example :
  disk eight 1%N = Some [1; 2; 3; 4; 5; 6; 7; 8]%N /\ obliging eight /\ Forall (fun c => permits ReadAndWrite c = true) careful /\
  all_file_allowed (chunk_max Windows) 4 (Store [1; 2; 3; 4; 5; 6; 7; 8]%N 0) Resting careful /\
  answers_of (done_with Windows careful) = map Returned [Wrote 2; Done; Done; Wrote 2; Done] /\
  map (fun a => left_at a InFull 1%N) (tries_of (done_with Windows careful)) =
    [Some [11; 12; 3; 4; 5; 6; 7; 8]%N; Some [11; 12; 3; 4; 5; 6; 7; 8; 21; 22]%N] /\
  from_the_past [1; 2; 3; 4; 5; 6; 7; 8]%N careful [11; 12; 3; 4; 5; 6; 7; 8; 0; 22]%N.
Proof.
  split; [reflexivity|]. split; [constructor|]. split; [repeat constructor|]. split.
  { vm_compute. repeat match goal with |- _ /\ _ => split | |- True => exact Logic.I | |- _ -> _ => intro end; try discriminate; congruence. }
  split; [vm_compute; reflexivity|]. split; [vm_compute; reflexivity|].
  assert (B : begins careful careful) by apply begins_self.
  split; [exists careful; split; [exact B|vm_compute; reflexivity]|].
  intros i b H. destruct (Nat.eq_dec i 8) as [->|X].
  - exists []. split; [constructor|]. right. vm_compute in H. injection H as <-. split; vm_compute; reflexivity.
  - exists careful. split; [exact B|]. left. rewrite <- H. clear - X.
    do 8 (destruct i as [|i]; [vm_compute; reflexivity|]). destruct i as [|i]; [congruence|]. destruct i as [|i]; [vm_compute; reflexivity|].
    vm_compute. now destruct i.
Qed.

(** A flush, and even the end of the file object, does not help: everything may be lost. *)
Theorem C136_flushed_refuted : forall pl, exists f answers tries d,
  new_file pl eight 1 ReadAndWrite Fail 4 = Ok f /\ watched_life pl f [Write [11; 12]; Flush]%N = Ok (answers, tries) /\
  answers = [Returned (Wrote 2); Returned Done] /\
  left_by_power_failure (shown_once (disk eight) (disk_of f) tries) d /\
  d 1%N = Some [1; 2; 3; 4; 5; 6; 7; 8]%N /\ ~ all_there [1; 2; 3; 4; 5; 6; 7; 8]%N [Write [11; 12]; Flush]%N (d 1%N).
Proof.
  intro pl. set (x := done_with pl [Write [11; 12]; Flush]%N).
  exists (made (new_file pl eight 1 ReadAndWrite Fail 4)), (answers_of x), (tries_of x), (disk eight).
  split; [destruct pl; vm_compute; reflexivity|]. split; [destruct pl; vm_compute; reflexivity|].
  split; [destruct pl; vm_compute; reflexivity|]. split; [apply one_moment; now left|].
  split; [reflexivity|]. vm_compute. discriminate.
Qed.
Print Assumptions C136_flushed_refuted.

(** What was written and flushed later may be there without what was written and flushed
    before. *)
Theorem C136_order_refuted : forall pl, exists f answers tries d,
  new_file pl eight 1 ReadAndWrite Fail 4 = Ok f /\ watched_life pl f careful = Ok (answers, tries) /\
  left_by_power_failure (shown_once (disk eight) (disk_of f) tries) d /\
  d 1%N = Some [1; 2; 3; 4; 5; 6; 7; 8; 21; 22]%N /\
  forall part, begins part careful -> ~ all_there [1; 2; 3; 4; 5; 6; 7; 8]%N part (d 1%N).
Proof.
  intro pl. set (x := done_with pl careful).
  exists (made (new_file pl eight 1 ReadAndWrite Fail 4)), (answers_of x), (tries_of x), (only [1; 2; 3; 4; 5; 6; 7; 8; 21; 22]%N).
  split; [destruct pl; vm_compute; reflexivity|]. split; [destruct pl; vm_compute; reflexivity|]. split; [|split; [reflexivity|]].
  - intro q. unfold only. destruct (N.eqb_spec q 1) as [->|X].
    + right. exists [1; 2; 3; 4; 5; 6; 7; 8; 21; 22]%N. split; [reflexivity|].
      assert (Y : exists a, In a (tries_of x) /\ left_at a InFull 1%N = Some [11; 12; 3; 4; 5; 6; 7; 8; 21; 22]%N).
      { exists (nth 1 (tries_of x) (Attempt eight None [])). split; [apply nth_In; destruct pl; vm_compute; lia|destruct pl; vm_compute; reflexivity]. }
      destruct Y as (a & Y1 & Y2).
      assert (S : shown_once (disk eight) (disk_of (made (new_file pl eight 1 ReadAndWrite Fail 4))) (tries_of x) (left_at a InFull))
        by (right; now apply AfterOne).
      split; [exists (left_at a InFull), [11; 12; 3; 4; 5; 6; 7; 8; 21; 22]%N; auto|].
      intros i b H. left.
      assert (i < 8 \/ 8 <= i)%nat as [I|I] by lia.
      * exists (disk eight), [1; 2; 3; 4; 5; 6; 7; 8]%N. split; [now left|]. split; [reflexivity|]. rewrite <- H. clear - I.
        do 8 (destruct i as [|i]; [vm_compute; reflexivity|]). lia.
      * exists (left_at a InFull), [11; 12; 3; 4; 5; 6; 7; 8; 21; 22]%N. split; [exact S|]. split; [exact Y2|]. rewrite <- H. clear - I.
        do 8 (destruct i as [|i]; [lia|]). now do 3 (destruct i as [|i]; [reflexivity|]).
    + left. split; [reflexivity|]. exists (disk eight). split; [now left|]. cbn [eight disk]. now apply N.eqb_neq in X as ->.
  - intros part B E. unfold all_there in E. change (only [1; 2; 3; 4; 5; 6; 7; 8; 21; 22]%N 1%N) with (Some [1; 2; 3; 4; 5; 6; 7; 8; 21; 22]%N) in E.
    injection E as E. unfold careful in B.
    inversion B as [|d e cs E1 E2|c part1 cs B1 E1 E2]; subst; clear B; [discriminate E| |].
    { destruct d as [|u [|v [|y d]]]; try discriminate E2; try (injection E2; intros; subst); discriminate E. }
    inversion B1 as [|d e cs E1 E2|c part2 cs B2 E1 E2]; subst; clear B1; [discriminate E|].
    inversion B2 as [|d e cs E1 E2|c part3 cs B3 E1 E2]; subst; clear B2; [discriminate E|].
    inversion B3 as [|d e cs E1 E2|c part4 cs B4 E1 E2]; subst; clear B3; [discriminate E| |].
    { destruct d as [|u [|v [|y d]]]; try discriminate E2; try (injection E2; intros; subst); discriminate E. }
    inversion B4 as [|d e cs E1 E2|c part5 cs B5 E1 E2]; subst; clear B4; [discriminate E|].
    inversion B5; subst; discriminate E.
Qed.
Print Assumptions C136_order_refuted.

(** The file may have grown without its new bytes. *)
Theorem C136_zeros_refuted : forall pl, exists f answers tries d,
  new_file pl eight 1 ReadAndWrite Fail 4 = Ok f /\ watched_life pl f careful = Ok (answers, tries) /\
  left_by_power_failure (shown_once (disk eight) (disk_of f) tries) d /\
  d 1%N = Some [11; 12; 3; 4; 5; 6; 7; 8; 0; 0]%N.
Proof.
  intro pl. set (x := done_with pl careful).
  exists (made (new_file pl eight 1 ReadAndWrite Fail 4)), (answers_of x), (tries_of x), (only [11; 12; 3; 4; 5; 6; 7; 8; 0; 0]%N).
  split; [destruct pl; vm_compute; reflexivity|]. split; [destruct pl; vm_compute; reflexivity|]. split; [|reflexivity].
  intro q. unfold only. destruct (N.eqb_spec q 1) as [->|X].
  - right. exists [11; 12; 3; 4; 5; 6; 7; 8; 0; 0]%N. split; [reflexivity|].
    assert (Y : exists a, In a (tries_of x) /\ left_at a InFull 1%N = Some [11; 12; 3; 4; 5; 6; 7; 8; 21; 22]%N).
    { exists (nth 1 (tries_of x) (Attempt eight None [])). split; [apply nth_In; destruct pl; vm_compute; lia|destruct pl; vm_compute; reflexivity]. }
    destruct Y as (a & Y1 & Y2).
    assert (S : shown_once (disk eight) (disk_of (made (new_file pl eight 1 ReadAndWrite Fail 4))) (tries_of x) (left_at a InFull))
      by (right; now apply AfterOne).
    split; [exists (left_at a InFull), [11; 12; 3; 4; 5; 6; 7; 8; 21; 22]%N; auto|].
    intros i b H. assert (i < 8 \/ 8 <= i)%nat as [I|I] by lia.
    + left. exists (left_at a InFull), [11; 12; 3; 4; 5; 6; 7; 8; 21; 22]%N. split; [exact S|]. split; [exact Y2|]. rewrite <- H. clear - I.
      do 8 (destruct i as [|i]; [vm_compute; reflexivity|]). lia.
    + right. split.
      * clear - H I. do 8 (destruct i as [|i]; [lia|]). do 2 (destruct i as [|i]; [now injection H as <-|]). now destruct i.
      * exists (disk eight). split; [now left|]. right. exists [1; 2; 3; 4; 5; 6; 7; 8]%N. split; [reflexivity|]. now apply nth_error_None.
  - left. split; [reflexivity|]. exists (disk eight). split; [now left|]. cbn [eight disk]. now apply N.eqb_neq in X as ->.
Qed.
Print Assumptions C136_zeros_refuted.
