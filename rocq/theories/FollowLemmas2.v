(** Lemmas for C147 and C148: opening both, closing; taking turns. *)
From Coq Require Import NArith ZArith List Bool Lia.
From Coq Require Import ZifyBool ZifyNat ZifyN.
From Verif Require Import Base Integers ResourceSpec ResourceModel ResourceText FileSpec FileModel FileText.
From Verif Require Import ResourceLemmas ResourceLemmas2 FileLemmas FileLemmas2 FileLemmas3 FileLemmas4 FileLemmas5 FileLemmas6.
From Verif Require Import CrashLemmas2 TextFileLemmas2 SharedSpec SharedLemmas FollowSpec FollowText FollowLemmas.
Import ListNotations.
Open Scope Z_scope.

Lemma tail_at_end : forall pl cap q m others l f, keeps pl cap q m others Resting (Store l (len l)) f -> mode_writes m = true ->
  tail pl cap q m l l f.
Proof.
  intros pl cap q m others l f [[(c & a & O & A0 & I) K CM At Fi Ot U] Md] Mw. cbn [in_stage bytes at_] in *.
  destruct I as (-> & -> & _ & _ & D & P). rewrite Mw in O.
  constructor; try assumption; [rewrite P; pose proof (capacity_nonneg (buf (res f))); lia|auto|].
  now rewrite P, take_0, app_nil_r.
Qed.

(** Two objects on one file. *)
Lemma both_open : forall pl w q l m1 m2 how cap1 cap2,
  disk w q = Some l \/ disk w q = None /\ how = Create /\ l = [] -> len l < 2 ^ 63 ->
  obliging w -> Z.of_nat cap1 <= chunk_max pl -> Z.of_nat cap2 <= chunk_max pl ->
  exists f g k1 k2 o1 o2, open_both pl w q m1 m2 how cap1 cap2 = Ok (f, g) /\
    keeps pl (Z.of_nat cap1) q m1 o1 Resting (Store l (len l)) (in_world (system_of g) f) /\
    keeps pl (Z.of_nat cap2) q m2 o2 Resting (Store l 0) (in_world (system_of g) g) /\
    descriptor (inner (res f)) = Some k1 /\ descriptor (inner (res g)) = Some k2 /\ k1 <> k2 /\
    path f = Some q /\ path g = Some q /\ obliging (system_of g) /\ (forall x, x <> q -> disk (system_of g) x = disk w x).
Proof.
  intros pl w q l m1 m2 how cap1 cap2 D L B C1 C2. unfold open_both, system_of.
  destruct (new_file_opens pl w q l m1 how cap1 D L B C1) as (f0 & E0 & Pf0 & B0 & K0).
  destruct (new_file_frame _ _ _ _ _ _ _ E0) as [F1 F2].
  destruct (descriptor (inner (res f0))) as [k1|] eqn:DF; [|pose proof (keeps_open _ _ _ _ _ _ _ _ K0) as X; unfold is_open in X; rewrite DF in X; discriminate].
  destruct F2 as (F2 & F3 & _ & _ & _ & _).
  destruct (call_file_step pl _ q m1 _ Resting _ f0 (SetPosition 0 End) K0 B0 eq_refl) as (f & E1 & Pf & B1 & K1).
  { cbn [file_allowed file_target bytes]. pose proof (len_nonneg l). split; [lia|discriminate]. }
  { discriminate. }
  destruct (call_file_tame _ _ _ _ _ E1) as ([T1 (_ & _ & T2 & T3 & T4)] & _).
  rewrite (keeps_name _ _ _ _ _ _ _ _ K0) in T2.
  cbn [call_file reference] in E1. cbn [file_call fst file_target bytes at_] in K1. rewrite Z.add_0_r in K1.
  replace (next_stage (Z.of_nat cap1) Resting (SetPosition 0 End)) with Resting in K1 by (unfold next_stage; now destruct (Z.of_nat cap1 =? 0)).
  destruct (file_seek pl f0 0 FromEnd) as [f'| | | |] eqn:E1'; cbn [bind] in E1; try discriminate. injection E1 as ->.
  assert (DL : disk (os (inner (res f))) q = Some l).
  { destruct K1 as [KK _]. destruct (clean_disk _ _ _ _ _ _ _ _ _ KK (clean_unless_writing _ _ _ _ _ _ _ _ _ KK ltac:(discriminate))) as [[_ Y]|[_ Y]]; exact Y. }
  destruct (new_file_opens pl (os (inner (res f))) q l m2 Fail cap2 (or_introl DL) L B1 C2) as (g & E2 & Pg & B2 & K2).
  destruct (new_file_frame _ _ _ _ _ _ _ E2) as [G1 G2].
  destruct (descriptor (inner (res g))) as [k2|] eqn:DG; [|pose proof (keeps_open _ _ _ _ _ _ _ _ K2) as X; unfold is_open in X; rewrite DG in X; discriminate].
  destruct G2 as (G2 & _ & _ & G3 & G4 & _). rewrite DL in G4.
  assert (KK : k1 <> k2) by lia.
  assert (DF1 : descriptor (inner (res f)) = Some k1) by congruence.
  exists f, g, k1, k2, (disk (os (inner (res g)))), (disk (os (inner (res f)))).
  rewrite E0. cbn [bind]. rewrite E1'. cbn [bind]. rewrite E2. cbn [bind]. split; [reflexivity|].
  split; [eapply keeps_in_world; [exact K1|exact DF1|now apply G3|congruence]|].
  split; [now rewrite in_world_id|]. split; [exact DF1|]. split; [exact DG|]. split; [exact KK|].
  split; [congruence|]. split; [exact Pg|]. split; [exact B2|].
  intros x X. rewrite G1, T2, F1 by congruence. reflexivity.
Qed.

(** Closing the writer. *)
Lemma close_writer : forall pl cap q m c written f, tail pl cap q m c written f -> obliging (os (inner (res f))) ->
  exists f', file_close pl f = Ok f' /\ disk_of f' q = Some written /\ is_open f' = false.
Proof.
  intros pl cap q m c written f T B. destruct (tail_flush _ _ _ _ _ _ _ T B) as (f1 & E & _ & [[_ D] _ _ _ _ _ _] & _).
  unfold file_close. rewrite E. cbn [bind noexcept]. eexists. split; [reflexivity|].
  split; [|reflexivity]. unfold disk_of, with_sys. cbn [res inner os]. unfold sys_close.
  destruct (descriptor (inner (res f1))); exact D.
Qed.

Lemma reader_at_end : forall pl wcap rcap q mw mr w f g c written got, following pl wcap rcap q mw mr w f g c written got ->
  file_is_at_end pl (in_world w g) = Ok (got =? len c) /\ disk w q = Some c /\ file_position pl (in_world w g) = Ok got.
Proof.
  intros pl wcap rcap q mw mr w f g c written got [[[_ D] _ _ _ _ _ _] (others & p & K & P) _ Pa _].
  split; [exact (file_at_end_ok _ _ _ _ _ _ _ _ K Pa P)|]. split; [exact D|]. exact (file_position_ok _ _ _ _ _ _ _ _ K).
Qed.

(* ----------------------------------------------------------------- in turns *)

(** An object that is not in the middle of writes: everything it wrote is on the disk. *)
Definition parked (pl : platform) (cap : Z) (q : N) (m : access_mode) (c : list N) (f : file) : Prop :=
  (exists a, opened (inner (res f)) q (mode_reads m) (mode_writes m) c a /\ 0 <= a < 2 ^ 63) /\
  capacity (buf (res f)) = cap /\ cap <= chunk_max pl /\ len c < 2 ^ 63 /\ write_dirty (buf (res f)) = false /\ mode f = m.

Lemma parked_keeps : forall pl cap q m others p s f, keeps pl cap q m others p s f -> p <> InWrites ->
  parked pl cap q m (bytes s) f.
Proof.
  intros pl cap q m others p s f [[(c & a & O & A0 & I) K CM At Fi Ot U] Md] P.
  assert (c = bytes s /\ write_dirty (buf (res f)) = false) as [-> D] by (destruct p; cbn [in_stage] in I; try tauto).
  split; [|auto]. exists a. split; [exact O|]. destruct p; cbn [in_stage] in I; [| |congruence]; lia.
Qed.

Lemma parked_other : forall pl cap q m c c' w w' f k, parked pl cap q m c (in_world w f) ->
  descriptor (inner (res f)) = Some k -> table w' k = table w k -> disk w' q = Some c' -> len c' < 2 ^ 63 ->
  parked pl cap q m c' (in_world w' f).
Proof.
  intros pl cap q m c c' w w' f k ((a & [(n & h & L & H) D] & A0) & K & CM & Fi & Dw & Md) DS TB DK Len.
  cbn [in_world with_sys res inner buf os descriptor mode] in *.
  split; [|cbn [in_world with_sys res inner buf os descriptor mode]; auto].
  exists a. split; [|exact A0]. cbn [in_world with_sys res inner buf os descriptor filled_last].
  constructor; cbn [os descriptor]; [|exact DK]. exists n, h. split; [|exact H]. rewrite DS in *. unfold lookup in *. now rewrite TB.
Qed.

Lemma parked_seek : forall pl cap q m c f n o, parked pl cap q m c f -> o <> Current -> 0 <= file_target (Store c 0) n o < 2 ^ 63 ->
  exists f', call_file pl f (SetPosition n o) = Ok (f', Returned Done) /\
    script (os (inner (res f'))) = script (os (inner (res f))) /\
    keeps pl cap q m (disk (os (inner (res f)))) Resting (Store c (file_target (Store c 0) n o)) f'.
Proof.
  intros pl cap q m c f n o ((a & O & A0) & K & CM & Fi & Dw & Md) No T.
  set (r0 := Resource (Sys (os (inner (res f))) (descriptor (inner (res f))) 0) (set_read_dirty (buf (res f)) true)).
  assert (F : file_for pl cap q (mode_reads m) (mode_writes m) (disk (os (inner (res f)))) Resting (Store c a) r0).
  { destruct O as [H D]. constructor; cbn [inner buf bytes at_ r0]; try assumption; try reflexivity.
    exists c, a. split; [constructor; assumption|]. split; [lia|]. cbn [in_stage bytes at_ filled_last set_read_dirty mem filled bpos read_dirty write_dirty]. auto 10. }
  destruct (seek_file_raw pl cap q _ _ _ Resting (Store c a) r0 n o F) as (X1 & X2 & _); [discriminate|congruence|destruct o; [exact T|congruence|exact T]|].
  cbn [call_file]. unfold file_seek, file_flush, flush. rewrite Dw. cbn [bind noexcept].
  eexists. split; [reflexivity|]. cbn [res inner path mode].
  assert (SR : seek_raw pl (inner r0) n (reference o) = seek_raw pl (inner (res f)) n (reference o)).
  { unfold r0. cbn [inner]. unfold seek_raw. cbn [os descriptor filled_last]. reflexivity. }
  rewrite SR in X1, X2. split; [exact X2|]. split; [|exact Md]. cbn [res].
  replace (file_target (Store c 0) n o) with (file_target (Store c a) n o) by (destruct o; [reflexivity|congruence|reflexivity]).
  exact X1.
Qed.

(** The calls on one object; the other one waits. *)
Lemma run_two_first : forall pl cs w f g f' l, run_file pl (in_world w f) cs = Ok (f', l) ->
  forall ts w2 f2 g2 la lb, run_two pl (os (inner (res f'))) f' g ts = Ok (w2, f2, g2, la, lb) ->
  cs <> [] ->
  run_two pl w f g (map (fun c => (true, c)) cs ++ ts) = Ok (w2, f2, g2, l ++ la, lb).
Proof.
  intros pl. induction cs as [|c cs IH]; intros w f g f' l H ts w2 f2 g2 la lb R N; [congruence|].
  cbn [run_file] in H. destruct (call_file pl (in_world w f) c) as [[f1 a]| | | |] eqn:E; cbn [bind] in H; try discriminate.
  destruct (run_file pl f1 cs) as [[f3 l3]| | | |] eqn:E2; cbn [bind] in H; try discriminate. injection H as <- <-.
  cbn [map app run_two]. rewrite E. cbn [bind]. destruct cs as [|c2 cs].
  - cbn [run_file] in E2. injection E2 as <- <-. cbn [map app]. rewrite R. reflexivity.
  - rewrite <- (in_world_id f1) in E2. rewrite (IH _ _ _ _ _ E2 _ _ _ _ _ _ R ltac:(discriminate)). reflexivity.
Qed.

Lemma run_two_second : forall pl cs w f g g' l, run_file pl (in_world w g) cs = Ok (g', l) ->
  forall ts w2 f2 g2 la lb, run_two pl (os (inner (res g'))) f g' ts = Ok (w2, f2, g2, la, lb) ->
  cs <> [] ->
  run_two pl w f g (map (fun c => (false, c)) cs ++ ts) = Ok (w2, f2, g2, la, l ++ lb).
Proof.
  intros pl. induction cs as [|c cs IH]; intros w f g g' l H ts w2 f2 g2 la lb R N; [congruence|].
  cbn [run_file] in H. destruct (call_file pl (in_world w g) c) as [[g1 a]| | | |] eqn:E; cbn [bind] in H; try discriminate.
  destruct (run_file pl g1 cs) as [[g3 l3]| | | |] eqn:E2; cbn [bind] in H; try discriminate. injection H as <- <-.
  cbn [map app run_two]. rewrite E. cbn [bind]. destruct cs as [|c2 cs].
  - cbn [run_file] in E2. injection E2 as <- <-. cbn [map app]. rewrite R. reflexivity.
  - rewrite <- (in_world_id g1) in E2. rewrite (IH _ _ _ _ _ E2 _ _ _ _ _ _ R ltac:(discriminate)). reflexivity.
Qed.

Lemma last_flush : forall cap cs p, last_stage cap p (cs ++ [Flush]) <> InWrites.
Proof.
  intros cap. induction cs as [|c cs IH]; intros p; cbn [app last_stage]; [|apply IH].
  unfold next_stage. destruct (cap =? 0); [discriminate|]. destruct p; discriminate.
Qed.

(** One turn. *)
Lemma turn_step : forall pl cap q m c at0 f t, parked pl cap q m c f -> obliging (os (inner (res f))) -> from t <> Current ->
  all_file_allowed (chunk_max pl) cap (Store c at0) Resting (turn_calls t) ->
  Forall (fun c => permits m c = true) (turn_calls t) ->
  exists f', run_file pl f (turn_calls t) = Ok (f', map Returned (snd (file_calls (Store c at0) (turn_calls t)))) /\
    obliging (os (inner (res f'))) /\
    parked pl cap q m (bytes (fst (file_calls (Store c at0) (turn_calls t)))) f' /\
    descriptor (inner (res f')) = descriptor (inner (res f)) /\
    disk (os (inner (res f'))) q = Some (bytes (fst (file_calls (Store c at0) (turn_calls t)))) /\
    (forall k, descriptor (inner (res f)) <> Some k -> table (os (inner (res f'))) k = table (os (inner (res f))) k) /\
    (forall x, x <> q -> disk (os (inner (res f'))) x = disk (os (inner (res f))) x).
Proof.
  intros pl cap q m c at0 f t P B Fr A Pm. unfold turn_calls in *. cbn [all_file_allowed] in A. destruct A as [A1 A2].
  inversion Pm as [|? ? _ Pm2]; subst. cbn [file_allowed] in A1. destruct A1 as [A1 _].
  assert (TT : file_target (Store c at0) (place t) (from t) = file_target (Store c 0) (place t) (from t)) by (destruct (from t); [reflexivity|congruence|reflexivity]).
  destruct (parked_seek pl cap q m c f (place t) (from t) P Fr ltac:(rewrite <- TT; exact A1)) as (f1 & E1 & S1 & K1).
  rewrite <- TT in K1.
  assert (B1 : obliging (os (inner (res f1)))) by (unfold obliging; now rewrite S1).
  cbn [file_call fst] in A2. cbn [bytes] in A2.
  replace (next_stage cap Resting (SetPosition (place t) (from t))) with Resting in A2 by (unfold next_stage; now destruct (cap =? 0)).
  destruct (run_file_steps pl cap q m _ (uses t ++ [Flush]) Resting _ f1 K1 B1 Pm2 A2 ltac:(discriminate)) as (f2 & E2 & _ & B2 & K2 & _).
  assert (E : run_file pl f (SetPosition (place t) (from t) :: uses t ++ [Flush])
    = Ok (f2, map Returned (snd (file_calls (Store c at0) (SetPosition (place t) (from t) :: uses t ++ [Flush]))))).
  { cbn [run_file file_calls]. rewrite E1. cbn [bind]. rewrite E2. cbn [bind file_call]. cbn [bytes].
    destruct (file_calls _ (uses t ++ [Flush])) as [s2 l2]. reflexivity. }
  assert (Fi : fst (file_calls (Store c at0) (SetPosition (place t) (from t) :: uses t ++ [Flush]))
     = fst (file_calls (Store c (file_target (Store c at0) (place t) (from t))) (uses t ++ [Flush]))).
  { cbn [file_calls file_call]. cbn [bytes]. destruct (file_calls _ (uses t ++ [Flush])) as [s2 l2]. reflexivity. }
  exists f2. split; [exact E|]. split; [exact B2|]. rewrite Fi.
  assert (NW := last_flush cap (uses t) Resting).
  split; [exact (parked_keeps _ _ _ _ _ _ _ _ K2 NW)|].
  destruct (run_file_tame _ _ _ _ _ E) as ([T1 (_ & _ & T2 & T3 & _)] & _).
  split; [exact T1|].
  split. { destruct K2 as [KK _]. destruct (clean_disk _ _ _ _ _ _ _ _ _ KK (clean_unless_writing _ _ _ _ _ _ _ _ _ KK NW)) as [[_ Y]|[_ Y]]; exact Y. }
  split; [exact T3|]. intros x X. apply T2.
  destruct P as ((a & [(n & h & L & H & _) _] & _) & _). rewrite L. cbn. congruence.
Qed.

Lemma answers_of_app : forall b cs ds la lb, length cs = length la ->
  answers_of b (cs ++ ds) (la ++ lb) = answers_of b cs la ++ answers_of b ds lb.
Proof.
  intros b. unfold answers_of. induction cs as [|c cs IH]; intros ds [|a la] lb L; cbn [length] in L; try discriminate; [reflexivity|].
  cbn [app combine filter fst snd]. destruct (Bool.eqb (fst c) b); cbn [map app snd]; rewrite IH by congruence; reflexivity.
Qed.

Lemma answers_same : forall b cs la, length cs = length la -> answers_of b (map (fun c => (b, c)) cs) la = la.
Proof.
  intros b. unfold answers_of. induction cs as [|c cs IH]; intros [|a la] L; cbn [length] in L; try discriminate; [reflexivity|].
  cbn [map combine filter fst snd]. rewrite eqb_reflx. cbn [map snd]. now rewrite IH by congruence.
Qed.

Lemma answers_other : forall b cs la, answers_of b (map (fun c => (negb b, c)) cs) la = [].
Proof.
  intros b. unfold answers_of. induction cs as [|c cs IH]; intros [|a la]; try reflexivity.
  cbn [map combine filter fst snd]. replace (Bool.eqb (negb b) b) with false by now destruct b. apply IH.
Qed.

Lemma file_calls_length : forall cs s, length (snd (file_calls s cs)) = length cs.
Proof.
  induction cs as [|c cs IH]; intros s; [reflexivity|]. cbn [file_calls]. destruct (file_call s c) as [s1 a].
  specialize (IH s1). destruct (file_calls s1 cs) as [s2 l]. cbn [snd length] in *. congruence.
Qed.

Lemma file_calls_both : forall cs ds s, file_calls s (cs ++ ds) =
  (fst (file_calls (fst (file_calls s cs)) ds), snd (file_calls s cs) ++ snd (file_calls (fst (file_calls s cs)) ds)).
Proof.
  induction cs as [|c cs IH]; intros ds s; cbn [app file_calls fst snd].
  - now destruct (file_calls s ds).
  - destruct (file_call s c) as [s1 a]. rewrite IH. destruct (file_calls s1 cs) as [s2 l]. reflexivity.
Qed.

Lemma turns_step : forall pl cap1 cap2 q m1 m2 ts w f g c at0 k1 k2,
  parked pl cap1 q m1 c (in_world w f) -> parked pl cap2 q m2 c (in_world w g) ->
  descriptor (inner (res f)) = Some k1 -> descriptor (inner (res g)) = Some k2 -> k1 <> k2 -> obliging w -> disk w q = Some c ->
  turns_allowed (chunk_max pl) cap1 cap2 (Store c at0) ts ->
  Forall (fun t => Forall (fun c => permits (if whose t then m1 else m2) c = true) (turn_calls t)) ts ->
  exists w' f' g', run_two pl w f g (of_turns ts) =
      Ok (w', f', g', map Returned (answers_of true (of_turns ts) (snd (file_calls (Store c at0) (map snd (of_turns ts))))),
                      map Returned (answers_of false (of_turns ts) (snd (file_calls (Store c at0) (map snd (of_turns ts)))))) /\
    disk w' q = Some (bytes (fst (file_calls (Store c at0) (map snd (of_turns ts))))) /\
    (forall x, x <> q -> disk w' x = disk w x).
Proof.
  intros pl cap1 cap2 q m1 m2. induction ts as [|t ts IH]; intros w f g c at0 k1 k2 P1 P2 D1 D2 Nk B Dq A Pm.
  - exists w, f, g. cbn. auto.
  - cbn [turns_allowed] in A. destruct A as (Fr & A1 & A2). inversion Pm as [|? ? Pm1 Pm2]; subst.
    change (of_turns (t :: ts)) with (map (fun c => (whose t, c)) (turn_calls t) ++ of_turns ts).
    rewrite map_app. replace (map snd (map (fun c => (whose t, c)) (turn_calls t))) with (turn_calls t) by (rewrite map_map; cbn; now rewrite map_id).
    rewrite file_calls_both. cbn [fst snd].
    set (s1 := fst (file_calls (Store c at0) (turn_calls t))) in *.
    assert (LL : length (map (fun c => (whose t, c)) (turn_calls t)) = length (snd (file_calls (Store c at0) (turn_calls t)))) by now rewrite map_length, file_calls_length.
    rewrite !answers_of_app by exact LL. rewrite !map_app.
    assert (S1 : s1 = Store (bytes s1) (at_ s1)) by now destruct s1.
    destruct (whose t) eqn:Wt.
    + destruct (turn_step pl cap1 q m1 c at0 _ t P1 B Fr A1 Pm1) as (f1 & E & B1 & K1 & DD & Dk & Tb & Ot). fold s1 in K1, Dk.
      cbn [in_world with_sys res inner os descriptor] in DD, Tb, Ot. rewrite S1 in A2.
      destruct (IH (os (inner (res f1))) f1 g (bytes s1) (at_ s1) k1 k2) as (w' & f' & g' & R & X1 & X2); try assumption.
      { now rewrite in_world_id. }
      { eapply parked_other; [exact P2|exact D2|apply Tb; congruence|exact Dk|apply K1]. }
      { congruence. }
      rewrite <- S1 in R, X1.
      exists w', f', g'. split.
      * rewrite (run_two_first pl (turn_calls t) w f g f1 _ E _ _ _ _ _ _ R ltac:(discriminate)).
        rewrite (answers_same true) by (now rewrite file_calls_length).
        change (map (fun c0 => (true, c0)) (turn_calls t)) with (map (fun c0 => (negb false, c0)) (turn_calls t)). rewrite (answers_other false). reflexivity.
      * split; [exact X1|]. intros x X. rewrite X2, Ot by exact X. reflexivity.
    + destruct (turn_step pl cap2 q m2 c at0 _ t P2 B Fr A1 Pm1) as (g1 & E & B1 & K1 & DD & Dk & Tb & Ot). fold s1 in K1, Dk.
      cbn [in_world with_sys res inner os descriptor] in DD, Tb, Ot. rewrite S1 in A2.
      destruct (IH (os (inner (res g1))) f g1 (bytes s1) (at_ s1) k1 k2) as (w' & f' & g' & R & X1 & X2); try assumption.
      { eapply parked_other; [exact P1|exact D1|apply Tb; congruence|exact Dk|apply K1]. }
      { now rewrite in_world_id. }
      { congruence. }
      rewrite <- S1 in R, X1.
      exists w', f', g'. split.
      * rewrite (run_two_second pl (turn_calls t) w f g g1 _ E _ _ _ _ _ _ R ltac:(discriminate)).
        rewrite (answers_same false) by (now rewrite file_calls_length).
        change (map (fun c0 => (false, c0)) (turn_calls t)) with (map (fun c0 => (negb true, c0)) (turn_calls t)). rewrite (answers_other true). reflexivity.
      * split; [exact X1|]. intros x X. rewrite X2, Ot by exact X. reflexivity.
Qed.
