(** C174: records of one size in a file that several programs write, one after the other. *)
From Coq Require Import NArith ZArith List Bool Lia.
From Coq Require Import ZifyBool ZifyNat ZifyN.
From Verif Require Import Base Integers ResourceSpec ResourceModel ResourceText FileSpec FileModel FileText.
From Verif Require Import ResourceLemmas ResourceLemmas2 FileProps CrashSpec CrashModel CrashLemmas2 CrashProps DiarySpec DiaryText DiaryLemmas DiaryProps
  RenewSpec RenewLemmas MendSpec MendText MendLemmas.
Import ListNotations.
Open Scope Z_scope.

Lemma len_mend : forall n l part, 0 < n -> len (mend_bytes n l part) <= len l + len part.
Proof.
  intros n l part H. unfold mend_bytes. rewrite len_app, len_over, len_whole by exact H.
  pose proof (f_equal len (whole_rest n l)) as E. rewrite len_app, len_whole in E by exact H.
  pose proof (whole_bound n l H). pose proof (len_nonneg part). lia.
Qed.
Lemma whole_multiple : forall n l, 0 < n -> len (whole n l) mod n = 0.
Proof. intros n l H. rewrite len_whole by exact H. apply Z.mod_mul. lia. Qed.
Lemma multiple_app : forall n a b, 0 < n -> len a mod n = 0 -> len b mod n = 0 -> len (a ++ b) mod n = 0.
Proof. intros n a b H A B. rewrite len_app, Z.add_mod by lia. now rewrite A, B, Z.mod_0_l by lia. Qed.
Lemma wholes_multiple : forall n parts, 0 < n -> len (concat (map (whole n) parts)) mod n = 0.
Proof.
  intros n parts H. induction parts as [|part parts IH]; [now apply Z.mod_0_l; lia|]. cbn [map concat].
  apply multiple_app; [exact H|now apply whole_multiple|exact IH].
Qed.

(** C174.  "When programs append records of n bytes to a file, each whose flush has returned is
    found at a multiple of n" is false (see below): what a killed program left of a record
    moves all later ones.

    Programs that go back to the end of the last whole record before they write mend the file:
    after any number of runs, each of which ends or is killed at any time, it holds the whole
    records that were there, followed by the whole records of a part of each run, and less than
    a record behind them. *)
Theorem C174_mended_partial : forall pl q n d rs d' l, 0 < n -> all_mended pl q n d rs d' -> holds_log d q l ->
  Forall (fun r => Forall logs (does (snd r)) /\ Forall (fun c => len (written [c]) <= chunk_max pl) (does (snd r))) rs ->
  len (l ++ concat (map (fun r => written (does (snd r))) rs)) < 2 ^ 63 ->
  exists parts tail, Forall2 (fun r part => survives (Z.of_nat (fst r)) (snd r) part) rs parts /\
    holds_log d' q (whole n l ++ concat (map (whole n) parts) ++ tail) /\ len tail < n /\ (forall x, x <> q -> d' x = d x).
Proof.
  intros pl q n d rs d' l Hn A. revert l. induction A as [d|d cap r d1 rs d2 Hc Lv A IH]; intros l Hl F L.
  - exists [], (drop (len l / n * n) l). split; [constructor|]. cbn [map concat app]. rewrite whole_rest. split; [exact Hl|].
    split; [now apply len_rest|reflexivity].
  - inversion F as [|? ? [F1 F2] Fr]; subst. cbn [map concat fst snd] in *. rewrite app_assoc, len_app in L.
    pose proof (len_nonneg (concat (map (fun r => written (does (snd r))) rs))) as P0.
    destruct (one_mend pl q n cap d r d1 l Hn Lv Hl Hc F1 F2 ltac:(lia)) as (part & S & Hd & O1).
    assert (Lp : len part <= len (written (does r))) by exact (survives_short _ _ _ S).
    pose proof (len_mend n l part Hn) as Lm.
    destruct (IH (mend_bytes n l part) Hd Fr) as (parts & tail & S2 & H2 & T2 & O2).
    { rewrite !len_app in *. lia. }
    destruct (mend_split n l part Hn) as (t & Et & Lt). rewrite Et, (app_assoc (whole n l) (whole n part) t) in H2.
    rewrite whole_split in H2; [|exact Hn|apply multiple_app; [exact Hn|now apply whole_multiple..]|exact Lt].
    exists (part :: parts), tail. split; [constructor; [exact S|exact S2]|]. split.
    + cbn [map concat]. rewrite <- !app_assoc in *. exact H2.
    + split; [exact T2|]. intros x X. now rewrite O2, O1.
Qed.
Print Assumptions C174_mended_partial.

(** Hence every record whose flush has returned is found by readers. *)
Theorem C174_found_partial : forall pl q n d rs d' l cap r record, 0 < n -> all_mended pl q n d rs d' -> holds_log d q l ->
  Forall (fun r => Forall logs (does (snd r)) /\ Forall (fun c => len (written [c]) <= chunk_max pl) (does (snd r))) rs ->
  len (l ++ concat (map (fun r => written (does (snd r))) rs)) < 2 ^ 63 ->
  In (cap, r) rs -> recorded n r record ->
  exists content, d' q = Some content /\ is_record n content record.
Proof.
  intros pl q n d rs d' l cap r record Hn A Hl F L I (a & b & rest & x & D & R & Wa & Mx & Lr).
  destruct (C174_mended_partial pl q n d rs d' l Hn A Hl F L) as (parts & tail & P & H & _ & _).
  apply in_split in I. destruct I as (rs1 & rs2 & ->). assert (Lz : len record - n = 0) by lia. clear Lr.
  apply Forall2_app_inv_l in P. destruct P as (p1 & p2 & P1 & P2 & ->). inversion P2 as [|? part ? p3 S P3]; subst. cbn [fst snd] in S. assert (Lr : len record = n) by lia. clear Lz.
  assert (Ep : exists y, whole n part = x ++ record ++ y).
  { destruct S as (k & K & -> & _ & Fl & _). specialize (Fl a b R). rewrite D, written_app.
    rewrite take_app by lia. rewrite (take_all k (written a)) by exact Fl. rewrite Wa. set (z := take (k - len (x ++ record)) (written rest)).
    pose proof (whole_rest n z) as Ez. rewrite <- Ez, app_assoc. exists (whole n z). rewrite whole_split; [now rewrite <- app_assoc|exact Hn| |now apply len_rest].
    apply multiple_app; [exact Hn| |now apply whole_multiple]. apply multiple_app; [exact Hn|exact Mx|]. rewrite Lr. apply Z.mod_same. lia. }
  destruct Ep as (y & Ep). rewrite map_app, concat_app in H. cbn [map concat] in H. rewrite Ep in H.
  destruct H as [H|[_ H]].
  2: { exfalso. apply (f_equal len) in H. rewrite !len_app in H. change (len []) with 0 in H.
       pose proof (len_nonneg (whole n l)). pose proof (len_nonneg (concat (map (whole n) p1))). pose proof (len_nonneg x). pose proof (len_nonneg y).
       pose proof (len_nonneg (concat (map (whole n) p3))). pose proof (len_nonneg tail). lia. }
  eexists. split; [exact H|]. split; [exact Lr|].
  exists ((whole n l ++ concat (map (whole n) p1)) ++ x), (y ++ concat (map (whole n) p3) ++ tail). split.
  - now rewrite <- !app_assoc.
  - apply multiple_app; [exact Hn| |exact Mx]. apply multiple_app; [exact Hn|now apply whole_multiple|now apply wholes_multiple].
Qed.
Print Assumptions C174_found_partial.

(** Two programs with a buffer of eight bytes that write records of two bytes: the first is
    killed within the system call of its flush, when one byte is in the file; the second
    comes to its end. *)
Definition record_runs : list (nat * run) :=
  [(8%nat, Run [Write [1; 2]; Flush]%N [Write [1; 2]]%N false);
   (8%nat, Run [Write [3; 4]; Flush; Write [5; 6]; Flush]%N [Write [3; 4]; Flush; Write [5; 6]; Flush]%N true)].

Lemma record_3_4 : recorded 2 (Run [Write [3; 4]; Flush; Write [5; 6]; Flush]%N [Write [3; 4]; Flush; Write [5; 6]; Flush]%N true) [3; 4]%N.
Proof. exists [Write [3; 4]]%N, [Write [5; 6]; Flush]%N, [Flush; Write [5; 6]; Flush]%N, []. repeat split. Qed.

(** They meet the hypotheses of C174_found_partial if they go back to the end of the last record. *)
Example C174_hypotheses : forall pl, exists d', all_mended pl 1 2 (fun _ => None) record_runs d' /\ d' 1%N = Some [3; 4; 5; 6]%N /\
  holds_log (fun _ => None) 1 [] /\
  Forall (fun r => Forall logs (does (snd r)) /\ Forall (fun c => len (written [c]) <= chunk_max pl) (does (snd r))) record_runs /\
  len ([] ++ concat (map (fun r => written (does (snd r))) record_runs)) < 2 ^ 63 /\
  exists r, In (8%nat, r) record_runs /\ recorded 2 r [3; 4]%N.
Proof.
  intro pl. set (f1 := got (new_file pl (fresh (fun _ => None)) 1 WriteOnly Create 8)).
  set (g1 := got (fst_of (run_file pl f1 (SetPosition 0 End :: SetPosition 0 Begin :: [Write [1; 2]]%N)))).
  set (x1 := watched_call pl g1 Flush).
  set (t1 := match x1 with Ok (_, _, [t]) => t | _ => Attempt (fresh (fun _ => None)) None [] end).
  set (d1 := left_at t1 (AtMost 1)).
  set (f2 := got (new_file pl (fresh d1) 1 WriteOnly Create 8)).
  set (g2 := got (fst_of (run_file pl f2 (SetPosition 0 End :: SetPosition 0 Begin :: [Write [3; 4]; Flush; Write [5; 6]; Flush]%N)))).
  set (h2 := got (file_close pl g2)).
  assert (R1 : exists h b, x1 = Ok (h, b, [t1])).
  { eexists (got (bind x1 (fun '(h, _, _) => Ok h))), (Returned Done). destruct pl; vm_compute; reflexivity. }
  destruct R1 as (h1 & b1 & R1).
  assert (Cm : Z.of_nat 8 <= chunk_max pl) by (destruct pl; vm_compute; discriminate).
  exists (disk_of h2). split; [|split; [destruct pl; vm_compute; reflexivity|]].
  - econstructor; [exact Cm| |econstructor; [exact Cm| |constructor]].
    + eapply (MendKilledIn pl 1 2 8 (fun _ => None) (fresh (fun _ => None)) WriteOnly 0 _
        (SetPosition 0 End :: SetPosition 0 Begin :: [Write [1; 2]]%N) Flush [] f1 g1 h1 [Returned Done; Returned Done; Returned (Wrote 2)] b1 [t1] d1);
        [reflexivity|constructor|reflexivity|reflexivity|destruct pl; vm_compute; reflexivity|destruct pl; vm_compute; reflexivity
        |destruct pl; vm_compute; reflexivity|exact R1|].
      apply (WithinOne true _ [t1] t1 1); [now left|reflexivity].
    + eapply (MendEnded pl 1 2 8 d1 (fresh d1) WriteOnly 1 _ f2 g2 h2
        [Returned Done; Returned Done; Returned (Wrote 2); Returned Done; Returned (Wrote 2); Returned Done]);
        [reflexivity|constructor|reflexivity|destruct pl; vm_compute; reflexivity..].
  - split; [right; auto|]. split; [repeat constructor; destruct pl; vm_compute; discriminate|]. split; [reflexivity|].
    eexists. split; [right; left; reflexivity|exact record_3_4].
Qed.

(** The refutation, on both platforms: the same programs, but they append.  The file holds
    [1; 3; 4; 5; 6], and the record [3; 4] is not found. *)
Theorem C174_refuted : forall pl, exists q d rs d' cap r record content, all_leave pl q d rs d' /\ d q = None /\
  In (cap, r) rs /\ recorded 2 r record /\ finished r = true /\ d' q = Some content /\ ~ is_record 2 content record.
Proof.
  intro pl. set (f1 := got (new_file pl (fresh (fun _ => None)) 1 WriteOnly Create 8)).
  set (g1 := got (fst_of (run_file pl f1 (SetPosition 0 End :: [Write [1; 2]]%N)))).
  set (x1 := watched_call pl g1 Flush).
  set (t1 := match x1 with Ok (_, _, [t]) => t | _ => Attempt (fresh (fun _ => None)) None [] end).
  set (d1 := left_at t1 (AtMost 1)).
  set (f2 := got (new_file pl (fresh d1) 1 WriteOnly Create 8)).
  set (g2 := got (fst_of (run_file pl f2 (SetPosition 0 End :: [Write [3; 4]; Flush; Write [5; 6]; Flush]%N)))).
  set (h2 := got (file_close pl g2)).
  assert (R1 : exists h b, x1 = Ok (h, b, [t1])).
  { eexists (got (bind x1 (fun '(h, _, _) => Ok h))), (Returned Done). destruct pl; vm_compute; reflexivity. }
  destruct R1 as (h1 & b1 & R1).
  assert (Cm : Z.of_nat 8 <= chunk_max pl) by (destruct pl; vm_compute; discriminate).
  exists 1%N, (fun _ => None), record_runs, (disk_of h2), 8%nat. eexists. exists [3; 4]%N, [1; 3; 4; 5; 6]%N. split; [|split; [reflexivity|]].
  - econstructor; [exact Cm| |econstructor; [exact Cm| |constructor]].
    + eapply (KilledIn pl 1 8 (fun _ => None) (fresh (fun _ => None)) WriteOnly _
        (SetPosition 0 End :: [Write [1; 2]]%N) Flush [] f1 g1 h1 [Returned Done; Returned (Wrote 2)] b1 [t1] d1);
        [reflexivity|constructor|reflexivity|reflexivity|destruct pl; vm_compute; reflexivity|destruct pl; vm_compute; reflexivity|exact R1|].
      apply (WithinOne true _ [t1] t1 1); [now left|reflexivity].
    + eapply (Ended pl 1 8 d1 (fresh d1) WriteOnly _ f2 g2 h2
        [Returned Done; Returned (Wrote 2); Returned Done; Returned (Wrote 2); Returned Done]);
        [reflexivity|constructor|reflexivity|destruct pl; vm_compute; reflexivity..].
  - split; [right; left; reflexivity|]. split; [exact record_3_4|]. split; [reflexivity|].
    split; [destruct pl; vm_compute; reflexivity|]. intros (_ & a & b & E & M).
    destruct a as [|x a]; [discriminate E|]. injection E as <- E. destruct a as [|y a]; [discriminate M|]. injection E as <- E.
    destruct a as [|z a]; [discriminate E|]. injection E as <- E. destruct a as [|u a]; [discriminate M|]. injection E as <- E.
    destruct a as [|v a]; [discriminate E|]. injection E as <- E. destruct a; discriminate E.
Qed.
Print Assumptions C174_refuted.
