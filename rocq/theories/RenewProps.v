(** C172: saving something in a file that has been there before. *)
From Coq Require Import NArith ZArith List Bool Lia.
From Coq Require Import ZifyBool ZifyNat ZifyN.
From Verif Require Import Base Integers ResourceSpec ResourceModel ResourceText FileSpec FileModel FileText.
From Verif Require Import ResourceLemmas ResourceLemmas2 FileProps CrashSpec CrashModel CrashLemmas2 CrashProps DiarySpec DiaryText DiaryLemmas DiaryProps
  RenewSpec RenewText RenewLemmas.
Import ListNotations.
Open Scope Z_scope.

(** C172.  "When a program opens a file, writes something and closes the file, the file holds
    what was written" is false (see below): the class has no way to shorten a file, and what
    is longer of the old content stays.

    What is there, exactly: an initial part of what each run wrote lies over what was there,
    and it is all of it if the run was not killed.  Other files stay as they are. *)
Theorem C172_saved_partial : forall pl q d rs d' l, all_save pl q d rs d' -> holds_log d q l ->
  Forall (fun r => Forall logs (does (snd r)) /\ Forall (fun c => len (written [c]) <= chunk_max pl) (does (snd r)) /\
    len (written (does (snd r))) < 2 ^ 63) rs ->
  len l < 2 ^ 63 ->
  exists parts, Forall2 (fun r part => survives (Z.of_nat (fst r)) (snd r) part) rs parts /\
    holds_log d' q (all_over l parts) /\ (forall x, x <> q -> d' x = d x).
Proof.
  intros pl q d rs d' l A. revert l. induction A as [d|d cap r d1 rs d2 Hc Lv A IH]; intros l Hl F L.
  - exists []. split; [constructor|]. split; [exact Hl|reflexivity].
  - inversion F as [|? ? (F1 & F2 & F3) Fr]; subst. cbn [fst snd] in *.
    destruct (one_save pl q cap d r d1 l Lv Hl Hc F1 F2 L F3) as (part & S & Hd & O1).
    destruct (IH (over l part) Hd Fr) as (parts & S2 & H2 & O2).
    { rewrite len_over. pose proof (survives_short _ _ _ S). lia. }
    exists (part :: parts). split; [constructor; [exact S|exact S2]|]. split; [exact H2|]. intros x X. now rewrite O2, O1.
Qed.
Print Assumptions C172_saved_partial.

(** Hence the claim holds if nothing that was there before was longer: after any number of
    runs, killed or not, one that comes to its end leaves exactly what it wrote. *)
Theorem C172_longest_partial : forall pl q d rs cap r d' l, all_save pl q d (rs ++ [(cap, r)]) d' -> holds_log d q l ->
  Forall (fun r => Forall logs (does (snd r)) /\ Forall (fun c => len (written [c]) <= chunk_max pl) (does (snd r)) /\
    len (written (does (snd r))) < 2 ^ 63) (rs ++ [(cap, r)]) ->
  len l <= len (written (does r)) -> Forall (fun r' => len (written (does (snd r'))) <= len (written (does r))) rs ->
  finished r = true -> holds_log d' q (written (does r)).
Proof.
  intros pl q d rs cap r d' l A Hl F L Ls Fi.
  assert (Lr : len (written (does r)) < 2 ^ 63) by (apply Forall_app in F; destruct F as [_ F]; inversion F as [|? ? (_ & _ & X) _]; exact X).
  destruct (C172_saved_partial pl q d _ d' l A Hl F ltac:(lia)) as (parts & P & H & _).
  apply Forall2_app_inv_l in P. destruct P as (p1 & p2 & P1 & P2 & ->). inversion P2 as [|? part ? p3 S P3]; subst. inversion P3; subst.
  cbn [fst snd] in S. destruct S as (k & K & -> & Fk & _). rewrite (Fk Fi), take_all in H by lia.
  unfold all_over in H. rewrite fold_left_app in H. cbn [fold_left] in H. rewrite over_longer in H; [exact H|].
  apply len_all_over; [exact L|]. clear - P1 Ls. induction P1 as [|x part rs p1 S P IH]; constructor.
  - inversion Ls; subst. pose proof (survives_short _ _ _ S). lia.
  - apply IH. now inversion Ls.
Qed.
Print Assumptions C172_longest_partial.

(** Such runs exist, whatever is on the disk: a program that saves comes to its end if it is not
    killed, and it may be killed in every call and while it closes the file. *)
Theorem C172_runs : forall pl q cap d l cs m, holds_log d q l -> Z.of_nat cap <= chunk_max pl -> mode_writes m = true ->
  Forall logs cs -> Forall (fun c => len (written [c]) <= chunk_max pl) cs -> len l < 2 ^ 63 -> len (written cs) < 2 ^ 63 ->
  (exists d', saves_as pl q cap d (Run cs cs true) d') /\ (exists d', saves_as pl q cap d (Run cs cs false) d') /\
  forall cs1 c cs2, cs = cs1 ++ c :: cs2 -> exists d', saves_as pl q cap d (Run cs cs1 false) d'.
Proof.
  intros pl q cap d l cs m Hl Hc W Hg Hm Ll Hs. set (w := World d (fun _ => None) 0 []).
  assert (Op : disk w q = Some l \/ disk w q = None /\ Create = Create /\ l = []).
  { destruct Hl as [E|[E ->]]; [now left|right; auto]. }
  assert (B : obliging w) by constructor.
  pose proof (saves_allowed (chunk_max pl) (Z.of_nat cap) cs [] l Resting Hg Hm Hs ltac:(discriminate)) as A.
  pose proof (saves_permitted m cs W Hg) as P. split; [|split].
  - destruct (C64_as_bytes_partial pl w q l m Create cap cs Op Ll B Hc P A) as (g & g' & g'' & F1 & F2 & _ & _ & F3 & _).
    eexists. eapply (SaveEnded pl q cap d w m cs); eauto.
  - destruct (C128_closing pl w q l m Create cap cs Op Ll B Hc P A) as (g & g' & g'' & tries' & F1 & F2 & F3 & _ & F4).
    eexists. eapply (SaveKilledClosing pl q cap d w m cs); eauto. constructor.
  - intros cs1 c cs2 E0.
    assert (A1 : all_file_allowed (chunk_max pl) (Z.of_nat cap) (Store l 0) Resting (cs1 ++ [c])).
    { apply allowed_begin with cs2. rewrite <- app_assoc. cbn [app]. now rewrite <- E0. }
    assert (P1 : Forall (fun c => permits m c = true) (cs1 ++ [c])).
    { rewrite E0 in P. change (c :: cs2) with ([c] ++ cs2) in P. rewrite app_assoc in P. now apply Forall_app in P. }
    destruct (C128_torn pl w q l m Create cap cs1 c Op Ll B Hc P1 A1) as (g & g' & g'' & a' & tries' & F1 & F2 & F3 & F4).
    eexists. eapply (SaveKilledIn pl q cap d w m cs); eauto. constructor.
Qed.
Print Assumptions C172_runs.

(** A file with the bytes 1 to 5; a run that saves [6; 7; 8; 9] and is killed within the system
    call of the flush, when two bytes are in the file; and one that saves [10]. *)
Definition some_saves : list (nat * run) :=
  [(4%nat, Run [Write [6; 7]; Write [8; 9]; Flush]%N [Write [6; 7]; Write [8; 9]]%N false);
   (4%nat, Run [Write [10]]%N [Write [10]]%N true)].
Definition five : N -> option (list N) := fun x => if (x =? 1)%N then Some [1; 2; 3; 4; 5]%N else None.

Lemma saved_over : forall pl, exists d', all_save pl 1 five some_saves d' /\ d' 1%N = Some [10; 7; 3; 4; 5]%N.
Proof.
  intro pl. set (f1 := got (new_file pl (fresh five) 1 WriteOnly Create 4)).
  set (g1 := got (fst_of (run_file pl f1 [Write [6; 7]; Write [8; 9]]%N))).
  set (x1 := watched_call pl g1 Flush).
  set (t1 := match x1 with Ok (_, _, [t]) => t | _ => Attempt (fresh (fun _ => None)) None [] end).
  set (d1 := left_at t1 (AtMost 2)).
  set (f2 := got (new_file pl (fresh d1) 1 WriteOnly Create 4)).
  set (g2 := got (fst_of (run_file pl f2 [Write [10]]%N))).
  set (h2 := got (file_close pl g2)).
  exists (disk_of h2). split; [|destruct pl; vm_compute; reflexivity].
  assert (R1 : exists h b, x1 = Ok (h, b, [t1])).
  { eexists (got (bind x1 (fun '(h, _, _) => Ok h))), (Returned Done). destruct pl; vm_compute; reflexivity. }
  destruct R1 as (h1 & b1 & R1).
  assert (Cm : Z.of_nat 4 <= chunk_max pl) by (destruct pl; vm_compute; discriminate).
  econstructor; [exact Cm| |econstructor; [exact Cm| |constructor]].
  - eapply (SaveKilledIn pl 1 4 five (fresh five) WriteOnly _ [Write [6; 7]; Write [8; 9]]%N Flush [] f1 g1 h1
      [Returned (Wrote 2); Returned (Wrote 2)] b1 [t1] d1);
      [reflexivity|constructor|reflexivity|reflexivity|destruct pl; vm_compute; reflexivity|destruct pl; vm_compute; reflexivity|exact R1|].
    apply (WithinOne true _ [t1] t1 2); [now left|reflexivity].
  - eapply (SaveEnded pl 1 4 d1 (fresh d1) WriteOnly _ f2 g2 h2 [Returned (Wrote 1)]);
      [reflexivity|constructor|reflexivity|destruct pl; vm_compute; reflexivity..].
Qed.

Example C172_hypotheses : forall pl, exists d', all_save pl 1 five some_saves d' /\ holds_log five 1 [1; 2; 3; 4; 5]%N /\
  Forall (fun r => Forall logs (does (snd r)) /\ Forall (fun c => len (written [c]) <= chunk_max pl) (does (snd r)) /\
    len (written (does (snd r))) < 2 ^ 63) some_saves /\ len [1; 2; 3; 4; 5]%N < 2 ^ 63 /\
  d' 1%N = Some (all_over [1; 2; 3; 4; 5] [[6; 7]; [10]])%N.
Proof.
  intro pl. destruct (saved_over pl) as (d' & A & D). exists d'. split; [exact A|]. split; [now left|].
  split; [|split; [reflexivity|exact D]].
  repeat constructor; try (destruct pl; vm_compute; discriminate).
Qed.

(** Six bytes are saved in this file: the hypotheses of C172_longest_partial. *)
Example C172_longest_hypotheses : forall pl, let r := Run [Write [6; 7; 8]; Write [9; 10; 11]]%N [Write [6; 7; 8]; Write [9; 10; 11]]%N true in
  (exists d', all_save pl 1 five ([] ++ [(4%nat, r)]) d') /\ len [1; 2; 3; 4; 5]%N <= len (written (does r)) /\ finished r = true.
Proof.
  intros pl r. split; [|split; [vm_compute; discriminate|reflexivity]].
  assert (Cm : Z.of_nat 4 <= chunk_max pl) by (destruct pl; vm_compute; discriminate).
  destruct (C172_runs pl 1 4 five [1; 2; 3; 4; 5]%N [Write [6; 7; 8]; Write [9; 10; 11]]%N WriteOnly) as [(d' & Lv) _];
    [now left|exact Cm|reflexivity|repeat constructor|repeat constructor; destruct pl; vm_compute; discriminate|reflexivity|reflexivity|].
  exists d'. econstructor; [exact Cm|exact Lv|constructor].
Qed.

(** The refutation, on both platforms: the last run wrote the byte 10 and closed the file, but
    the file holds five bytes. *)
Theorem C172_refuted : forall pl, exists q d rs cap r d' content, all_save pl q d (rs ++ [(cap, r)]) d' /\
  finished r = true /\ d' q = Some content /\ content <> written (does r).
Proof.
  intro pl. destruct (saved_over pl) as (d' & A & D).
  exists 1%N, five, [(4%nat, Run [Write [6; 7]; Write [8; 9]; Flush]%N [Write [6; 7]; Write [8; 9]]%N false)], 4%nat,
    (Run [Write [10]]%N [Write [10]]%N true), d', [10; 7; 3; 4; 5]%N.
  split; [exact A|]. split; [reflexivity|]. split; [exact D|]. discriminate.
Qed.
Print Assumptions C172_refuted.
