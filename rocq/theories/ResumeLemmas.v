(** Two files of a process that is killed. *)
From Coq Require Import NArith ZArith List Bool Lia.
From Coq Require Import ZifyBool ZifyNat ZifyN.
From Verif Require Import Base Integers ResourceSpec ResourceModel ResourceText FileSpec FileModel FileText.
From Verif Require Import ResourceLemmas ResourceLemmas2 FileLemmas FileLemmas2 FileLemmas3 FileLemmas4 FileLemmas5 FileLemmas6
  CrashSpec CrashModel CrashLemmas CrashLemmas2 CrashProps.
Import ListNotations.
Open Scope Z_scope.

Lemma pending_in_world : forall q l cs f w k, pending q l cs (res f) -> descriptor (inner (res f)) = Some k ->
  table w k = table (os (inner (res f))) k -> disk w q = disk (os (inner (res f))) q -> pending q l cs (res (in_world w f)).
Proof.
  intros q l cs f w k P DS TB DK D. destruct (P D) as (kept & lost & rd & E & W & [(n & h & L & H) C] & T & A).
  exists kept, lost, rd. split; [exact E|]. split; [exact W|]. split; [|split; [exact T|exact A]].
  constructor; cbn [in_world with_sys res inner os descriptor]; [|congruence].
  exists n, h. split; [|exact H]. rewrite DS in *. unfold lookup in *. now rewrite TB.
Qed.

Lemma in_world_twice : forall w w' f, in_world w' (in_world w f) = in_world w' f.
Proof. intros w w' [[[? ? ?] ?] ? ?]. reflexivity. Qed.

(** What a call on one file leaves of the other. *)
Lemma other_kept : forall pl cap1 cap2 q r m1 m2 o1 o2 p1 p2 s1 s2 w f g c f1 a l2 done2 k1 k2,
  keeps pl cap1 q m1 o1 p1 s1 (in_world w f) -> keeps pl cap2 r m2 o2 p2 s2 (in_world w g) -> pending r l2 done2 (res (in_world w g)) ->
  descriptor (inner (res f)) = Some k1 -> descriptor (inner (res g)) = Some k2 -> k1 <> k2 -> q <> r ->
  call_file pl (in_world w f) c = Ok (f1, a) ->
  let w1 := os (inner (res f1)) in
  keeps pl cap2 r m2 (disk w1) p2 s2 (in_world w1 g) /\ pending r l2 done2 (res (in_world w1 g)) /\
  descriptor (inner (res f1)) = Some k1 /\ (forall x, x <> q -> disk w1 x = disk w x).
Proof.
  intros pl cap1 cap2 q r m1 m2 o1 o2 p1 p2 s1 s2 w f g c f1 a l2 done2 k1 k2 K1 K2 Pe D1 D2 Dk QR E w1.
  destruct (call_file_tame _ _ _ _ _ E) as ([T1 (_ & _ & T2 & T3 & _)] & _).
  rewrite (keeps_name _ _ _ _ _ _ _ _ K1) in T2. cbn [in_world with_sys res inner os descriptor] in T1, T2, T3.
  assert (X1 : table w1 k2 = table (os (inner (res (in_world w g)))) k2) by (apply T3; congruence).
  assert (X2 : disk w1 r = disk (os (inner (res (in_world w g)))) r) by (apply T2; congruence).
  rewrite <- (in_world_twice w w1 g). split; [eapply keeps_in_world; [exact K2|exact D2|exact X1|exact X2]|].
  split; [eapply pending_in_world; [exact Pe|exact D2|exact X1|exact X2]|]. split; [congruence|]. intros x X. apply T2. congruence.
Qed.

Lemma kill_two : forall pl cap1 cap2 q r m1 m2 l1 l2 cs done1 done2 w f g p1 p2 k1 k2 o1 o2,
  keeps pl cap1 q m1 o1 p1 (state_after l1 done1) (in_world w f) -> pending q l1 done1 (res (in_world w f)) ->
  keeps pl cap2 r m2 o2 p2 (state_after l2 done2) (in_world w g) -> pending r l2 done2 (res (in_world w g)) ->
  descriptor (inner (res f)) = Some k1 -> descriptor (inner (res g)) = Some k2 -> k1 <> k2 -> q <> r -> obliging w ->
  Forall (fun c => permits m1 c = true) (calls_of true cs) -> Forall (fun c => permits m2 c = true) (calls_of false cs) ->
  all_file_allowed (chunk_max pl) cap1 (state_after l1 done1) p1 (calls_of true cs) ->
  all_file_allowed (chunk_max pl) cap2 (state_after l2 done2) p2 (calls_of false cs) ->
  (p1 = InWrites -> mode_writes m1 = true) -> (p2 = InWrites -> mode_writes m2 = true) ->
  exists w' f' g' o1' o2', run_two pl w f g cs =
      Ok (w', f', g', map Returned (snd (file_calls (state_after l1 done1) (calls_of true cs))),
                      map Returned (snd (file_calls (state_after l2 done2) (calls_of false cs)))) /\
    keeps pl cap1 q m1 o1' (last_stage cap1 p1 (calls_of true cs)) (state_after l1 (done1 ++ calls_of true cs)) (in_world w' f') /\
    pending q l1 (done1 ++ calls_of true cs) (res (in_world w' f')) /\
    keeps pl cap2 r m2 o2' (last_stage cap2 p2 (calls_of false cs)) (state_after l2 (done2 ++ calls_of false cs)) (in_world w' g') /\
    pending r l2 (done2 ++ calls_of false cs) (res (in_world w' g')) /\
    (last_stage cap1 p1 (calls_of true cs) = InWrites -> mode_writes m1 = true) /\
    (last_stage cap2 p2 (calls_of false cs) = InWrites -> mode_writes m2 = true) /\
    descriptor (inner (res f')) = Some k1 /\ descriptor (inner (res g')) = Some k2 /\ obliging w' /\
    (forall x, x <> q -> x <> r -> disk w' x = disk w x).
Proof.
  intros pl cap1 cap2 q r m1 m2 l1 l2. induction cs as [|[[] c] cs IH];
    intros done1 done2 w f g p1 p2 k1 k2 o1 o2 K1 Pe1 K2 Pe2 D1 D2 Dk QR B P1 P2 A1 A2 W1 W2.
  - exists w, f, g, o1, o2. cbn [calls_of filter map last_stage run_two file_calls snd]. rewrite !app_nil_r. auto 15.
  - change (calls_of true ((true, c) :: cs)) with (c :: calls_of true cs) in *.
    change (calls_of false ((true, c) :: cs)) with (calls_of false cs) in *.
    cbn [all_file_allowed] in A1. destruct A1 as [A1 A1']. inversion P1 as [|? ? P1a P1b]; subst.
    destruct (kill_step pl cap1 q m1 o1 p1 (in_world w f) l1 done1 c K1 Pe1 B P1a A1 W1) as (f1 & a & tries & _ & E & Ea & B1 & K1' & Pe1' & _).
    destruct (other_kept _ _ _ _ _ _ _ _ _ _ _ _ _ _ _ _ _ _ _ _ _ _ _ K1 K2 Pe2 D1 D2 Dk QR E) as (K2' & Pe2' & D1' & Ot).
    set (w1 := os (inner (res f1))) in *. rewrite <- (in_world_id f1) in K1', Pe1'. fold w1 in K1', Pe1'.
    rewrite <- state_after_last in A1'.
    destruct (IH (done1 ++ [c]) done2 w1 f1 g _ _ k1 k2 _ _ K1' Pe1' K2' Pe2' D1' D2 Dk QR B1 P1b P2 A1' A2) as
      (w' & f' & g' & o1' & o2' & R & X1 & X2 & X3 & X4 & X5 & X6 & X7 & X8 & X9 & X10); [apply writes_stage; assumption|assumption|].
    exists w', f', g', o1', o2'. cbn [run_two file_calls last_stage]. rewrite E. cbn [bind]. fold w1. rewrite R. cbn [bind].
    rewrite state_after_last, Ea. rewrite <- app_assoc in X1, X2. cbn [app] in X1, X2.
    destruct (file_call (state_after l1 done1) c) as [s1' a1]. cbn [fst snd] in *. destruct (file_calls s1' (calls_of true cs)) as [s1'' l1'']. cbn [fst snd map] in *.
    split; [reflexivity|]. repeat (split; [assumption|]). intros x Q R'. rewrite X10 by assumption. now apply Ot.
  - change (calls_of false ((false, c) :: cs)) with (c :: calls_of false cs) in *.
    change (calls_of true ((false, c) :: cs)) with (calls_of true cs) in *.
    cbn [all_file_allowed] in A2. destruct A2 as [A2 A2']. inversion P2 as [|? ? P2a P2b]; subst.
    destruct (kill_step pl cap2 r m2 o2 p2 (in_world w g) l2 done2 c K2 Pe2 B P2a A2 W2) as (g1 & a & tries & _ & E & Ea & B1 & K2' & Pe2' & _).
    destruct (other_kept pl cap2 cap1 r q m2 m1 o2 o1 p2 p1 _ _ w g f c g1 a l1 done1 k2 k1 K2 K1 Pe1 D2 D1 ltac:(congruence) ltac:(congruence) E) as (K1' & Pe1' & D2' & Ot).
    set (w1 := os (inner (res g1))) in *. rewrite <- (in_world_id g1) in K2', Pe2'. fold w1 in K2', Pe2'.
    rewrite <- state_after_last in A2'.
    destruct (IH done1 (done2 ++ [c]) w1 f g1 _ _ k1 k2 _ _ K1' Pe1' K2' Pe2' D1 D2' Dk QR B1 P1 P2b A1 A2') as
      (w' & f' & g' & o1' & o2' & R & X1 & X2 & X3 & X4 & X5 & X6 & X7 & X8 & X9 & X10); [assumption|apply writes_stage; assumption|].
    exists w', f', g', o1', o2'. cbn [run_two file_calls last_stage]. rewrite E. cbn [bind]. fold w1. rewrite R. cbn [bind].
    rewrite state_after_last, Ea. rewrite <- app_assoc in X3, X4. cbn [app] in X3, X4.
    destruct (file_call (state_after l2 done2) c) as [s2' a2]. cbn [fst snd] in *. destruct (file_calls s2' (calls_of false cs)) as [s2'' l2'']. cbn [fst snd map] in *.
    split; [reflexivity|]. repeat (split; [assumption|]). intros x Q R'. rewrite X10 by assumption. now apply Ot.
Qed.

(** What the disk holds of a file when the process is killed elsewhere or here. *)
Definition remains (cap : Z) (l : list N) (cs now : list call) (found : option (list N)) : Prop :=
  exists kept lost part, may_lose cap cs kept lost /\ begins part (lost ++ now) /\ found = Some (file_bytes l (kept ++ part)).

Lemma remains_untouched : forall pl cap q m others p l cs f now d, keeps pl cap q m others p (state_after l cs) f -> pending q l cs (res f) ->
  d q = disk_of f q -> remains cap l cs now (d q).
Proof.
  intros pl cap q m others p l cs f now d K Pe E. destruct (untouched _ _ _ _ _ _ _ _ _ K Pe) as (kept & lost & M & X).
  exists kept, lost, []. rewrite app_nil_r. split; [exact M|]. split; [constructor|congruence].
Qed.

Lemma remains_here : forall pl cap q m others p l cs f c f1 a tries d torn,
  keeps pl cap q m others p (state_after l cs) f -> pending q l cs (res f) ->
  watched_call pl f c = Ok (f1, a, tries) -> Forall (explained cap q l others cs c) tries ->
  left_by_kill torn (disk_of f) tries d ->
  remains cap l cs [c] (d q) /\ forall x, x <> q -> d x = disk_of f x.
Proof.
  intros pl cap q m others p l cs f c f1 a tries d torn K Pe E X LK. rewrite Forall_forall in X.
  assert (Ot : forall x, x <> q -> others x = disk_of f x) by (intros x Hx; symmetry; now apply (ff_others _ _ _ _ _ _ _ _ _ (proj1 K))).
  assert (H : forall a r, In a tries -> remains cap l cs [c] (left_at a r q) /\ forall x, x <> q -> left_at a r x = disk_of f x).
  { intros a0 r I. destruct (explained_torn _ _ _ _ _ _ _ r (X a0 I)) as (Y1 & kept & lost & part & Y2 & Y3 & Y4). split.
    - exists kept, lost, part. auto.
    - intros x Hx. rewrite Y1 by exact Hx. now apply Ot. }
  destruct LK as [|a' I|a' I|a' k I F]; try (apply H; exact I).
  split; [|reflexivity]. eapply remains_untouched; [exact K|exact Pe|reflexivity].
Qed.
