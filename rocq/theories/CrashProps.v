From Coq Require Import NArith ZArith List Bool Lia.
From Coq Require Import ZifyBool ZifyNat ZifyN.
From Verif Require Import Base Integers ResourceSpec ResourceModel ResourceText FileSpec FileModel FileText.
From Verif Require Import ResourceLemmas ResourceLemmas2 FileLemmas FileLemmas2 FileLemmas3 FileLemmas4 CrashSpec CrashModel CrashLemmas CrashLemmas2.
Import ListNotations.
Open Scope Z_scope.

(* ------------------------------------------------------------------- C128 *)

(** A file that has been opened, and the calls before the one that is killed. *)
Lemma started : forall pl w q l m how cap cs c,
  disk w q = Some l \/ disk w q = None /\ how = Create /\ l = [] -> len l < 2 ^ 63 ->
  obliging w -> Z.of_nat cap <= chunk_max pl -> Forall (fun c => permits m c = true) (cs ++ [c]) ->
  all_file_allowed (chunk_max pl) (Z.of_nat cap) (Store l 0) Resting (cs ++ [c]) ->
  exists f f' p, new_file pl w q m how cap = Ok f /\
    run_file pl f cs = Ok (f', map Returned (snd (file_calls (Store l 0) cs))) /\
    keeps pl (Z.of_nat cap) q m (disk w) p (state_after l cs) f' /\ pending q l cs (res f') /\
    obliging (os (inner (res f'))) /\ permits m c = true /\
    file_allowed (chunk_max pl) (Z.of_nat cap) (state_after l cs) p c /\ (p = InWrites -> mode_writes m = true).
Proof.
  intros pl w q l m how cap cs c D L B C P A.
  destruct (open_idle pl (Z.of_nat cap) _ q l m how (idle_new w (Some q) m cap) D) as (f & E & _ & K & SC); try assumption.
  { assert (response_now w = InFull) by exact (hd_Forall (fun r => r = InFull) _ eq_refl B). cbn [res inner os]. congruence. }
  apply Forall_app in P. destruct P as [P1 P2].
  assert (X : forall cs s p, all_file_allowed (chunk_max pl) (Z.of_nat cap) s p (cs ++ [c]) ->
     all_file_allowed (chunk_max pl) (Z.of_nat cap) s p cs /\
     file_allowed (chunk_max pl) (Z.of_nat cap) (fst (file_calls s cs)) (last_stage (Z.of_nat cap) p cs) c).
  { clear. induction cs as [|x cs IH]; intros s p; cbn [app all_file_allowed last_stage file_calls].
    - intros [H _]. split; [exact I|exact H].
    - intros [H1 H2]. destruct (IH _ _ H2) as [I1 I2]. split; [tauto|]. destruct (file_call s x) as [s1 a]. cbn [fst] in *.
      destruct (file_calls s1 cs) as [s2 l2]. exact I2. }
  destruct (X _ _ _ A) as [A1 A2]. clear X A.
  assert (B1 : obliging (os (inner (res f)))) by (unfold obliging in *; rewrite SC; cbn [res inner os]; now apply Forall_tl).
  destruct (kill_run pl (Z.of_nat cap) q m (disk w) l cs [] Resting f K) as (f' & E2 & B2 & K2 & Pe2 & W2); try assumption.
  { intro Y. destruct K as [K _]. rewrite (clean_unless_writing _ _ _ _ _ _ _ _ _ K) in Y by discriminate. discriminate. }
  { discriminate. }
  exists f, f', (last_stage (Z.of_nat cap) Resting cs). split; [unfold new_file; rewrite E; reflexivity|].
  split; [exact E2|]. split; [exact K2|]. split; [exact Pe2|]. split; [exact B2|].
  split; [now inversion P2|]. split; [exact A2|exact W2].
Qed.

Lemma untouched : forall pl cap q m others p l cs f, keeps pl cap q m others p (state_after l cs) f -> pending q l cs (res f) ->
  exists kept lost, may_lose cap cs kept lost /\ disk_of f q = Some (file_bytes l kept).
Proof.
  intros pl cap q m others p l cs f [K _] Pe. pose proof (capacity_nonneg (buf (res f))) as C0.
  pose proof (bpos_within _ _ _ _ _ _ _ _ _ K) as Bp. assert (Ca := ff_cap _ _ _ _ _ _ _ _ _ K).
  destruct (write_dirty (buf (res f))) eqn:D.
  - destruct (Pe D) as (kept & lost & rd & E & W & O & T & _). exists kept, lost. split; [|apply O].
    split; [assumption|]. split; [now apply no_saves|]. rewrite <- T, len_take by lia. lia.
  - exists cs, []. split; [apply lose_nothing; lia|].
    destruct (clean_disk _ _ _ _ _ _ _ _ _ K D) as [O|[_ O]]; [apply O|exact O].
Qed.

(** What one explained system call leaves: whole writes if it is not torn. *)
Lemma explained_whole : forall cap q l others cs c a r, explained cap q l others cs c a -> r = Refuse \/ r = InFull ->
  (forall x, x <> q -> left_at a r x = others x) /\
  (left_at a r q = Some (file_bytes l (cs ++ [c])) \/
   exists kept lost, may_lose cap cs kept lost /\ left_at a r q = Some (file_bytes l kept)).
Proof.
  intros cap q l others cs c a r (kept & lost & ws & M & V & W & A & H) R. destruct (H r) as (k & K1 & K2 & K3 & K4 & K5).
  split; [assumption|]. rewrite K2. destruct R as [->| ->].
  - rewrite K4 by reflexivity. rewrite take_0, put_nil. right. exists kept, lost. auto.
  - rewrite K5, take_all by (try reflexivity; lia).
    assert (E : put (bytes (state_after l kept)) (at_ (state_after l kept)) (written ws) = file_bytes l (kept ++ ws)).
    { unfold file_bytes. rewrite file_calls_fst_app. fold (state_after l kept). now rewrite state_after_writes. }
    rewrite E. destruct M as (M1 & M2 & M3). destruct V as [->|[-> ->]].
    + right. exists cs, []. split; [|now subst cs]. apply lose_nothing. pose proof (len_nonneg (written lost)). lia.
    + left. rewrite app_nil_r in M1. now subst cs.
Qed.

Lemma explained_torn : forall cap q l others cs c a r, explained cap q l others cs c a ->
  (forall x, x <> q -> left_at a r x = others x) /\
  exists kept lost part, may_lose cap cs kept lost /\ begins part (lost ++ [c]) /\
    left_at a r q = Some (file_bytes l (kept ++ part)).
Proof.
  intros cap q l others cs c a r (kept & lost & ws & M & V & W & A & H). destruct (H r) as (k & K1 & K2 & K3 & _ & _).
  split; [assumption|]. destruct (cut_writes ws k W K1) as (part & P1 & P2 & P3). exists kept, lost, part. split; [assumption|].
  split.
  - destruct V as [->|[-> ->]]; [now apply begins_more|exact P1].
  - rewrite K2, <- P3. unfold file_bytes. rewrite file_calls_fst_app. fold (state_after l kept). now rewrite state_after_writes.
Qed.

(** C128.  The process is killed during the call c, after the calls cs, before or after one
    of the system calls that c makes.  Then the file is as after all these calls, or as after
    the first of them: of the calls that had returned, none that was followed by a flush or
    a seek is lost, and at most as many bytes as the buffer holds; no write is there in part.
    No other file has changed. *)
Theorem C128_whole : forall pl w q l m how cap cs c,
  disk w q = Some l \/ disk w q = None /\ how = Create /\ l = [] -> len l < 2 ^ 63 ->
  obliging w -> Z.of_nat cap <= chunk_max pl -> Forall (fun c => permits m c = true) (cs ++ [c]) ->
  all_file_allowed (chunk_max pl) (Z.of_nat cap) (Store l 0) Resting (cs ++ [c]) ->
  exists f f' f'' a tries, new_file pl w q m how cap = Ok f /\
    run_file pl f cs = Ok (f', map Returned (snd (file_calls (Store l 0) cs))) /\
    watched_call pl f' c = Ok (f'', a, tries) /\
    forall d, left_by_kill false (disk_of f') tries d ->
      (forall x, x <> q -> d x = disk w x) /\
      (d q = Some (file_bytes l (cs ++ [c])) \/
       exists kept lost, may_lose (Z.of_nat cap) cs kept lost /\ d q = Some (file_bytes l kept)).
Proof.
  intros pl w q l m how cap cs c D L B C P A.
  destruct (started pl w q l m how cap cs c D L B C P A) as (f & f' & p & E1 & E2 & K & Pe & B2 & Pm & Al & W).
  destruct (kill_step pl (Z.of_nat cap) q m (disk w) p f' l cs c K Pe B2 Pm Al W) as (f'' & a & tries & E3 & _ & _ & _ & _ & _ & X).
  exists f, f', f'', a, tries. split; [assumption|]. split; [assumption|]. split; [assumption|]. intros d LK.
  rewrite Forall_forall in X. destruct LK as [|a' I|a' I|a' k I F]; try discriminate.
  - split; [apply (ff_others _ _ _ _ _ _ _ _ _ (proj1 K))|]. right. eapply untouched; eassumption.
  - apply explained_whole; auto.
  - apply explained_whole; auto.
Qed.
Print Assumptions C128_whole.

(** When a system call may also have been carried out in part: the file is as after an
    initial part of the calls, the last write of which may have been only begun; the same
    calls are there for sure. *)
Theorem C128_torn : forall pl w q l m how cap cs c,
  disk w q = Some l \/ disk w q = None /\ how = Create /\ l = [] -> len l < 2 ^ 63 ->
  obliging w -> Z.of_nat cap <= chunk_max pl -> Forall (fun c => permits m c = true) (cs ++ [c]) ->
  all_file_allowed (chunk_max pl) (Z.of_nat cap) (Store l 0) Resting (cs ++ [c]) ->
  exists f f' f'' a tries, new_file pl w q m how cap = Ok f /\
    run_file pl f cs = Ok (f', map Returned (snd (file_calls (Store l 0) cs))) /\
    watched_call pl f' c = Ok (f'', a, tries) /\
    forall d, left_by_kill true (disk_of f') tries d ->
      (forall x, x <> q -> d x = disk w x) /\
      exists kept lost part, may_lose (Z.of_nat cap) cs kept lost /\ begins part (lost ++ [c]) /\
        d q = Some (file_bytes l (kept ++ part)).
Proof.
  intros pl w q l m how cap cs c D L B C P A.
  destruct (started pl w q l m how cap cs c D L B C P A) as (f & f' & p & E1 & E2 & K & Pe & B2 & Pm & Al & W).
  destruct (kill_step pl (Z.of_nat cap) q m (disk w) p f' l cs c K Pe B2 Pm Al W) as (f'' & a & tries & E3 & _ & _ & _ & _ & _ & X).
  exists f, f', f'', a, tries. split; [assumption|]. split; [assumption|]. split; [assumption|]. intros d LK.
  rewrite Forall_forall in X. destruct LK as [|a' I|a' I|a' k I F]; try (apply explained_torn; auto).
  split; [apply (ff_others _ _ _ _ _ _ _ _ _ (proj1 K))|].
  destruct (untouched _ _ _ _ _ _ _ _ _ K Pe) as (kept & lost & M & E). exists kept, lost, [].
  rewrite app_nil_r. split; [assumption|]. split; [constructor|exact E].
Qed.
Print Assumptions C128_torn.

(** The same when the process is killed while the file is closed or the object destroyed. *)
Theorem C128_closing : forall pl w q l m how cap cs,
  disk w q = Some l \/ disk w q = None /\ how = Create /\ l = [] -> len l < 2 ^ 63 ->
  obliging w -> Z.of_nat cap <= chunk_max pl -> Forall (fun c => permits m c = true) cs ->
  all_file_allowed (chunk_max pl) (Z.of_nat cap) (Store l 0) Resting cs ->
  exists f f' f'' tries, new_file pl w q m how cap = Ok f /\
    run_file pl f cs = Ok (f', map Returned (snd (file_calls (Store l 0) cs))) /\
    watched_close pl f' = Ok (f'', tries) /\ file_close pl f' = Ok f'' /\
    forall torn d, left_by_kill torn (disk_of f') tries d ->
      (forall x, x <> q -> d x = disk w x) /\
      (torn = false -> exists kept lost, may_lose (Z.of_nat cap) cs kept lost /\ d q = Some (file_bytes l kept)) /\
      exists kept lost part, may_lose (Z.of_nat cap) cs kept lost /\ begins part lost /\
        d q = Some (file_bytes l (kept ++ part)).
Proof.
  intros pl w q l m how cap cs D L B C P A.
  assert (P' : Forall (fun c => permits m c = true) (cs ++ [Flush])) by (apply Forall_app; split; [assumption|repeat constructor]).
  assert (A' : all_file_allowed (chunk_max pl) (Z.of_nat cap) (Store l 0) Resting (cs ++ [Flush])).
  { revert A. clear. generalize (Store l 0), Resting. induction cs as [|c cs IH]; intros s p; cbn [app all_file_allowed]; [cbn; tauto|].
    intros [H1 H2]. split; [assumption|]. now apply IH. }
  destruct (started pl w q l m how cap cs Flush D L B C P' A') as (f & f' & p & E1 & E2 & K & Pe & B2 & Pm & Al & W).
  destruct (kill_step pl (Z.of_nat cap) q m (disk w) p f' l cs Flush K Pe B2 Pm Al W) as (f'' & a & tries & E3 & _ & _ & _ & _ & _ & X).
  pose proof (close_erased pl f') as Er. unfold watched_close in *. rewrite E3 in *. cbn [bind noexcept] in *.
  eexists f, f', _, tries. split; [assumption|]. split; [assumption|]. split; [rewrite E3; reflexivity|]. split; [now rewrite <- Er|].
  clear Er E3. rewrite Forall_forall in X.
  assert (NF : forall part lost, begins part (lost ++ [Flush]) -> exists part', begins part' lost /\ forall s, fst (file_calls s part) = fst (file_calls s part')).
  { clear. intros part lost. remember (lost ++ [Flush]) as t eqn:E. intro Bg. revert lost E.
    induction Bg as [|d e t|c part t Bg IH]; intros lost E.
    - exists []. split; [constructor|reflexivity].
    - destruct lost as [|c lost]; [discriminate|]. injection E as <- _. exists [Write d]. split; [constructor|reflexivity].
    - destruct lost as [|c' lost]; injection E as -> E.
      + exists []. split; [constructor|]. subst t. inversion Bg; subst. reflexivity.
      + destruct (IH lost E) as (part' & Q1 & Q2). exists (c' :: part'). split; [now constructor|]. intro s. cbn [file_calls].
        destruct (file_call s c') as [s1 a]. specialize (Q2 s1). destruct (file_calls s1 part), (file_calls s1 part'). exact Q2. }
  intros torn d LK.
  assert (T : (forall x, x <> q -> d x = disk w x) /\ exists kept lost part, may_lose (Z.of_nat cap) cs kept lost /\
      begins part (lost ++ [Flush]) /\ d q = Some (file_bytes l (kept ++ part))).
  { destruct LK as [|a' I|a' I|a' k I F]; try (apply explained_torn; auto).
    split; [apply (ff_others _ _ _ _ _ _ _ _ _ (proj1 K))|].
    destruct (untouched _ _ _ _ _ _ _ _ _ K Pe) as (kept & lost & M & E). exists kept, lost, [].
    rewrite app_nil_r. split; [assumption|]. split; [constructor|exact E]. }
  destruct T as (T1 & kept & lost & part & T2 & T3 & T4). split; [assumption|]. split.
  - intros ->. destruct LK as [|a' I|a' I|a' k I F]; try discriminate; [eapply untouched; eassumption| |];
      (destruct (explained_whole (Z.of_nat cap) q l (disk w) cs Flush a') with (r := Refuse) as [_ V1]; auto);
      (destruct (explained_whole (Z.of_nat cap) q l (disk w) cs Flush a') with (r := InFull) as [_ V2]; auto);
      [destruct V1 as [V|V]|destruct V2 as [V|V]]; try exact V;
      (exists cs, []; split; [apply lose_nothing; lia|]; rewrite V; f_equal; unfold file_bytes; rewrite file_calls_fst_app; reflexivity).
  - destruct (NF part lost T3) as (part' & N1 & N2). exists kept, lost, part'. split; [assumption|]. split; [assumption|].
    rewrite T4. f_equal. unfold file_bytes. now rewrite !file_calls_fst_app, N2.
Qed.
Print Assumptions C128_closing.

(** The recorded calls are those of C50 and C64, whatever happens. *)
Theorem C128_same_calls : forall pl f c,
  bind (watched_call pl f c) (fun '(f', a, _) => Ok (f', a)) = call_file pl f c /\
  bind (watched_close pl f) (fun '(f', _) => Ok f') = file_close pl f.
Proof. intros pl f c. split; [apply call_erased|apply close_erased]. Qed.
Print Assumptions C128_same_calls.

(** Cases of the theorems.  The file has the bytes 1 to 8; a buffer of 4; the calls Write
    [11; 12], Flush, Write [21; 22; 23], and then Write [31; 32], which makes the buffer flush. *)
Definition eight : world :=
  World (fun q => if N.eqb q 1 then Some [1; 2; 3; 4; 5; 6; 7; 8]%N else None) (fun _ => None) 0 [].

Definition made (x : outcome file) : file := match x with Ok f => f | _ => no_file eight 0 end.

Example C128_example :
  disk eight 1 = Some [1; 2; 3; 4; 5; 6; 7; 8]%N /\ obliging eight /\
  all_file_allowed (chunk_max UnixLike) 4 (Store [1; 2; 3; 4; 5; 6; 7; 8]%N 0) Resting
    ([Write [11; 12]; Flush; Write [21; 22; 23]] ++ [Write [31; 32]])%N /\
  exists f f' f'' a tries, new_file UnixLike eight 1 WriteOnly Fail 4 = Ok f /\
    run_file UnixLike f [Write [11; 12]; Flush; Write [21; 22; 23]]%N = Ok (f', [Returned (Wrote 2); Returned Done; Returned (Wrote 3)]) /\
    watched_call UnixLike f' (Write [31; 32]%N) = Ok (f'', a, tries) /\ length tries = 1%nat /\
    disk_of f' 1%N = Some [11; 12; 3; 4; 5; 6; 7; 8]%N /\
    map (fun t => left_at t (AtMost 1) 1%N) tries = [Some [11; 12; 21; 4; 5; 6; 7; 8]%N] /\
    map (fun t => left_at t InFull 1%N) tries = [Some [11; 12; 21; 22; 23; 6; 7; 8]%N].
Proof.
  split; [reflexivity|]. split; [constructor|]. split.
  { vm_compute. repeat match goal with |- _ /\ _ => split | |- True => exact I | |- _ -> _ => intro end; try discriminate; congruence. }
  set (f := made (new_file UnixLike eight 1 WriteOnly Fail 4)).
  set (f' := made (bind (run_file UnixLike f [Write [11; 12]; Flush; Write [21; 22; 23]]%N) (fun '(g, _) => Ok g))).
  set (x := watched_call UnixLike f' (Write [31; 32]%N)).
  exists f, f', (made (bind x (fun '(g, _, _) => Ok g))), (Returned (Wrote 2)), (match x with Ok (_, _, t) => t | _ => [] end).
  split; [vm_compute; reflexivity|]. split; [vm_compute; reflexivity|]. split; [vm_compute; reflexivity|].
  split; [vm_compute; reflexivity|]. split; [vm_compute; reflexivity|]. split; vm_compute; reflexivity.
Qed.

Example C128_closing_example :
  exists f f' f'' tries, new_file Windows eight 2 WriteOnly Create 8 = Ok f /\
    run_file Windows f [Write [1; 2]; Write [3; 4]]%N = Ok (f', [Returned (Wrote 2); Returned (Wrote 2)]) /\
    watched_close Windows f' = Ok (f'', tries) /\
    disk_of f' 2%N = Some [] /\
    map (fun t => left_at t (AtMost 3) 2%N) tries = [Some [1; 2; 3]%N] /\
    map (fun t => left_at t InFull 2%N) tries = [Some [1; 2; 3; 4]%N].
Proof.
  set (f := made (new_file Windows eight 2 WriteOnly Create 8)).
  set (f' := made (bind (run_file Windows f [Write [1; 2]; Write [3; 4]]%N) (fun '(g, _) => Ok g))).
  set (x := watched_close Windows f').
  exists f, f', (made (bind x (fun '(g, _) => Ok g))), (match x with Ok (_, t) => t | _ => [] end).
  split; [vm_compute; reflexivity|]. split; [vm_compute; reflexivity|]. split; [vm_compute; reflexivity|].
  split; [vm_compute; reflexivity|]. split; vm_compute; reflexivity.
Qed.
