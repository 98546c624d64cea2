From Coq Require Import NArith ZArith List Bool Lia.
From Coq Require Import ZifyBool ZifyNat ZifyN.
From Verif Require Import Base Integers ResourceSpec ResourceModel ResourceText FileSpec FileModel FileText.
From Verif Require Import ResourceLemmas ResourceLemmas2 FileLemmas FileLemmas2 FileLemmas3 FileLemmas4 CrashSpec CrashModel CrashLemmas CrashLemmas2 CrashProps.
From Verif Require Import PowerSpec PowerModel.
Import ListNotations.
Open Scope Z_scope.

Lemma begins_after : forall kept part rest, begins part rest -> begins (kept ++ part) (kept ++ rest).
Proof. induction kept; intros part rest B; [exact B|]. cbn [app]. constructor. auto. Qed.

Lemma begins_self : forall cs, begins cs cs.
Proof. intro cs. rewrite <- (app_nil_r cs) at 2. apply begins_all. Qed.

Lemma watched_calls_app : forall pl cs c f f' a l f'' b l',
  watched_calls pl f cs = Ok (f', a, l) -> watched_call pl f' c = Ok (f'', b, l') ->
  watched_calls pl f (cs ++ [c]) = Ok (f'', a ++ [b], l ++ l').
Proof.
  intros pl. induction cs as [|c0 cs IH]; intros c f f' a l f'' b l' H K; cbn [app watched_calls] in *.
  - injection H as <- <- <-. rewrite K. cbn [bind watched_calls]. now rewrite app_nil_r.
  - destruct (watched_call pl f c0) as [[[f1 a1] l1]| | | |]; cbn [bind] in *; try discriminate.
    destruct (watched_calls pl f1 cs) as [[[f2 a2] l2]| | | |] eqn:E; cbn [bind] in *; try discriminate.
    injection H as <- <- <-. rewrite (IH c f1 f2 a2 l2 f'' b l' E K). cbn [bind]. now rewrite app_assoc.
Qed.

Lemma run_file_erased : forall pl cs f f' a l, watched_calls pl f cs = Ok (f', a, l) -> run_file pl f cs = Ok (f', a).
Proof.
  intros pl. induction cs as [|c cs IH]; intros f f' a l H; cbn [watched_calls run_file] in *.
  - now injection H as <- <- <-.
  - rewrite <- (call_erased pl f c). destruct (watched_call pl f c) as [[[f1 a1] l1]| | | |]; cbn [bind] in *; try discriminate.
    destruct (watched_calls pl f1 cs) as [[[f2 a2] l2]| | | |] eqn:E; cbn [bind] in *; try discriminate.
    injection H as <- <- <-. now rewrite (IH _ _ _ _ E).
Qed.

Lemma allowed_front : forall M cap cs ds s p, all_file_allowed M cap s p (cs ++ ds) -> all_file_allowed M cap s p cs.
Proof. induction cs as [|c cs IH]; intros ds s p H; cbn [app all_file_allowed] in *; [exact Logic.I|]. destruct H as [H1 H2]. split; [exact H1|eauto]. Qed.

Lemma left_more : forall torn d0 l l' d, left_by_kill torn d0 (l ++ l') d -> left_by_kill torn d0 l d \/ left_by_kill torn d0 l' d.
Proof.
  intros torn d0 l l' d [|a I|a I|a k I T]; [left; constructor| | |]; apply in_app_or in I as [I|I];
    solve [left; now constructor|right; now constructor].
Qed.

Lemma nth_error_ext' : forall (A : Type) (a b : list A), (forall i, nth_error a i = nth_error b i) -> a = b.
Proof.
  induction a as [|x a IH]; intros [|y b] H; [reflexivity|discriminate (H 0%nat)|discriminate (H 0%nat)|].
  f_equal; [specialize (H 0%nat); now injection H|]. apply IH. intro i. exact (H (S i)).
Qed.

(** A moment of the disk during the history. *)
Definition a_moment (w : world) (q : N) (l : list N) (cs : list call) (d : N -> option (list N)) : Prop :=
  (forall x, x <> q -> d x = disk w x) /\ exists part, begins part cs /\ d q = Some (file_bytes l part).

Lemma moment_more : forall w q l cs c d, a_moment w q l cs d -> a_moment w q l (cs ++ c) d.
Proof. intros w q l cs c d (A & part & B & C). split; [exact A|]. exists part. split; [now apply begins_more|exact C]. Qed.

Section Moments.

Variables (pl : platform) (w : world) (q : N) (l : list N) (m : access_mode) (how : if_not_there) (cap : nat).
Hypothesis D : disk w q = Some l \/ disk w q = None /\ how = Create /\ l = [].
Hypothesis L : len l < 2 ^ 63.
Hypothesis B : obliging w.
Hypothesis C : Z.of_nat cap <= chunk_max pl.

Lemma opened_moment : exists f, new_file pl w q m how cap = Ok f /\ a_moment w q l [] (disk_of f).
Proof.
  destruct (open_idle pl (Z.of_nat cap) _ q l m how (idle_new w (Some q) m cap) D) as (f & E & _ & K & SC); try assumption.
  { assert (response_now w = InFull) by exact (hd_Forall (fun r => r = InFull) _ eq_refl B). cbn [res inner os]. congruence. }
  exists f. split; [unfold new_file; now rewrite E|].
  destruct (untouched pl (Z.of_nat cap) q m (disk w) Resting l [] f) as (kept & lost & (E1 & _) & E2).
  - exact K.
  - intro Y. destruct K as [K _]. rewrite (clean_unless_writing _ _ _ _ _ _ _ _ _ K) in Y by discriminate. discriminate.
  - symmetry in E1. apply app_eq_nil in E1 as [-> ->]. split; [|exists []; split; [constructor|exact E2]].
    intros x X. destruct K as [K _]. exact (ff_others _ _ _ _ _ _ _ _ _ K x X).
Qed.

Lemma moments : forall cs, Forall (fun c => permits m c = true) cs ->
  all_file_allowed (chunk_max pl) (Z.of_nat cap) (Store l 0) Resting cs ->
  exists f f' tries, new_file pl w q m how cap = Ok f /\
    watched_calls pl f cs = Ok (f', map Returned (snd (file_calls (Store l 0) cs)), tries) /\
    forall d, left_by_kill true (disk_of f) tries d -> a_moment w q l cs d.
Proof.
  induction cs as [|c cs IH] using rev_ind; intros P A.
  - destruct opened_moment as (f & E & M). exists f, f, []. split; [exact E|]. split; [reflexivity|].
    intros d [|a []|a []|a k []]. exact M.
  - destruct IH as (f & f1 & tries & E & R & M).
    { now apply Forall_app in P. } { now apply allowed_front in A. }
    destruct (C128_torn pl w q l m how cap cs c D L B C P A) as (g & g1 & f2 & a & more & E' & R' & W & T).
    rewrite E in E'. injection E' as <-. pose proof (run_file_erased _ _ _ _ _ _ R) as R2. rewrite R' in R2. injection R2 as <-.
    assert (An : map Returned (snd (file_calls (Store l 0) (cs ++ [c]))) = map Returned (snd (file_calls (Store l 0) cs)) ++ [a]).
    { destruct (C128_closing pl w q l m how cap (cs ++ [c]) D L B C P A) as (h & h1 & _ & _ & X1 & X2 & _).
      rewrite E in X1. injection X1 as <-. pose proof (watched_calls_app _ _ _ _ _ _ _ _ _ _ R W) as X3.
      apply run_file_erased in X3. rewrite X2 in X3. now injection X3 as _ X3. }
    exists f, f2, (tries ++ more). split; [exact E|]. rewrite An. split; [eapply watched_calls_app; eassumption|].
    intros d K. apply left_more in K as [K|K]; [apply moment_more; auto|].
    assert (K' : d = disk_of f \/ left_by_kill true (disk_of g1) more d).
    { destruct K; [now left| | |]; right; now constructor. }
    destruct K' as [->|K']; [apply moment_more, M; constructor|]. apply T in K' as (X & kept & lost & part & (Y & _) & Z1 & Z2).
    split; [exact X|]. exists (kept ++ part). split; [|exact Z2]. subst cs. rewrite <- app_assoc. now apply begins_after.
Qed.

(** The same with the end of the file object. *)
Lemma moments_closed : forall cs, Forall (fun c => permits m c = true) cs ->
  all_file_allowed (chunk_max pl) (Z.of_nat cap) (Store l 0) Resting cs ->
  exists f tries, new_file pl w q m how cap = Ok f /\ watched_life pl f cs = Ok (map Returned (snd (file_calls (Store l 0) cs)), tries) /\ forall d, left_by_kill true (disk_of f) tries d -> a_moment w q l cs d.
Proof.
  intros cs P A. destruct (moments cs P A) as (f & f1 & tries & E & R & M).
  destruct (C128_closing pl w q l m how cap cs D L B C P A) as (g & g1 & f2 & more & E' & R' & W & _ & T).
  rewrite E in E'. injection E' as <-. pose proof (run_file_erased _ _ _ _ _ _ R) as R2. rewrite R' in R2. injection R2 as <-.
  exists f, (tries ++ more). split; [exact E|]. split; [unfold watched_life; rewrite R; cbn [bind]; now rewrite W|].
  intros d K. apply left_more in K as [K|K]; [auto|].
  assert (K' : d = disk_of f \/ left_by_kill true (disk_of g1) more d).
  { destruct K; [now left| | |]; right; now constructor. }
  destruct K' as [->|K']; [apply M; constructor|]. apply T in K' as (X & _ & kept & lost & part & (Y & _) & Z1 & Z2).
  split; [exact X|]. exists (kept ++ part). split; [|exact Z2]. subst cs. now apply begins_after.
Qed.

Lemma power_moments : forall cs d1 l1 d, (forall d, left_by_kill true d1 l1 d -> a_moment w q l cs d) ->
  left_by_power_failure (shown_once (disk w) d1 l1) d ->
  (forall x, x <> q -> d x = disk w x) /\ (d q = None /\ disk w q = None \/ exists found, d q = Some found /\ from_the_past l cs found).
Proof.
  intros cs d1 l1 d M H.
  assert (Mo : forall v x, shown_once (disk w) d1 l1 v -> x <> q -> v x = disk w x).
  { intros v x [->|S] X; [reflexivity|]. now apply M in S as [S _]; apply S. }
  assert (Mq : forall v c, shown_once (disk w) d1 l1 v -> v q = Some c -> exists part, begins part cs /\ c = file_bytes l part).
  { intros v c [->|S] X.
    - destruct D as [D'|[D' _]]; [|congruence]. exists []. split; [constructor|]. rewrite D' in X. injection X as <-. reflexivity.
    - apply M in S as (_ & part & S1 & S2). exists part. split; [assumption|congruence]. }
  assert (Mn : forall v, shown_once (disk w) d1 l1 v -> v q = None -> disk w q = None).
  { intros v [->|S] X; [exact X|]. apply M in S as (_ & part & _ & S2). congruence. }
  split.
  - intros x X. destruct (H x) as [(E & v & S & V)|(found & E & (v & c & S & V & Le) & Y)].
    + rewrite E. rewrite <- (Mo v x S X). now rewrite V.
    + rewrite E. rewrite <- (Mo v x S X), V. f_equal.
      assert (Ec : forall v' c', shown_once (disk w) d1 l1 v' -> v' x = Some c' -> c' = c).
      { intros v' c' S' V'. rewrite (Mo v' x S' X) in V'. rewrite (Mo v x S X) in V. congruence. }
      assert (En : forall v', shown_once (disk w) d1 l1 v' -> v' x = Some c).
      { intros v' S'. now rewrite (Mo v' x S' X), <- (Mo v x S X). }
      apply nth_error_ext'. intro i. destruct (nth_error found i) as [b|] eqn:Eb.
      * destruct (Y i b Eb) as [(v' & c' & S' & V' & N')|(-> & v' & S' & [V'|(c' & V' & N')])].
        -- rewrite (Ec v' c' S' V') in N'. now symmetry.
        -- rewrite (En v' S') in V'. discriminate.
        -- rewrite (Ec v' c' S' V') in N'. apply nth_error_None in N'. rewrite <- Le in N'. apply nth_error_None in N'. congruence.
      * symmetry. apply nth_error_None. rewrite <- Le. now apply nth_error_None.
  - destruct (H q) as [(E & v & S & V)|(found & E & (v & c & S & V & Le) & Y)]; [left; eauto|]. right. exists found. split; [exact E|].
    split.
    + destruct (Mq v c S V) as (part & P1 & ->). exists part. auto.
    + intros i b Eb. destruct (Y i b Eb) as [(v' & c' & S' & V' & N')|(-> & v' & S' & [V'|(c' & V' & N')])].
      * destruct (Mq v' c' S' V') as (part & P1 & ->). exists part. auto.
      * pose proof (Mn v' S' V') as Dn. exists []. split; [constructor|]. right. split; [reflexivity|].
        destruct D as [D'|(_ & _ & ->)]; [congruence|]. destruct i; reflexivity.
      * destruct (Mq v' c' S' V') as (part & P1 & ->). exists part. auto.
Qed.

End Moments.
