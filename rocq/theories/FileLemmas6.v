(** Two files at once; what opening a file changes. *)
From Coq Require Import NArith ZArith List Bool Lia.
From Coq Require Import ZifyBool ZifyNat ZifyN.
From Verif Require Import Base Integers ResourceSpec ResourceModel ResourceText FileSpec FileModel FileText.
From Verif Require Import ResourceLemmas ResourceLemmas2 FileLemmas FileLemmas2 FileLemmas3 FileLemmas4 FileLemmas5.
Import ListNotations.
Open Scope Z_scope.

Lemma in_world_id : forall f, in_world (os (inner (res f))) f = f.
Proof. intros [[[? ? ?] ?] ? ?]. reflexivity. Qed.

Lemma keeps_in_world : forall pl cap q m others p s f w k, keeps pl cap q m others p s f ->
  descriptor (inner (res f)) = Some k -> table w k = table (os (inner (res f))) k ->
  disk w q = disk (os (inner (res f))) q -> keeps pl cap q m (disk w) p s (in_world w f).
Proof.
  intros pl cap q m others p s f w k [[(c & a & [(n & h & L & H) D] & A0 & I) K CM At Fi Ot U] Md] DS TB DK.
  split; [|exact Md]. constructor; cbn [in_world with_sys res inner buf os descriptor filled_last]; try assumption.
  - exists c, a. split; [|split; [assumption|exact I]]. constructor; cbn [os descriptor]; [|congruence].
    exists n, h. split; [|exact H]. rewrite DS in *. unfold lookup in *. now rewrite TB.
  - reflexivity.
Qed.

Lemma keeps_name : forall pl cap q m others p s f, keeps pl cap q m others p s f ->
  option_map (fun x => file_name (snd x)) (lookup (os (inner (res f))) (descriptor (inner (res f)))) = Some q.
Proof.
  intros pl cap q m others p s f [[(c & a & [(n & h & L & H & _) _] & _) _ _ _ _ _ _] _]. rewrite L. cbn. now rewrite H.
Qed.

(** Whatever holds of the first holds of the second. *)
Lemma run_two_steps : forall pl cap1 cap2 q r m1 m2 cs w f g p1 p2 s1 s2 k1 k2 o1 o2,
  keeps pl cap1 q m1 o1 p1 s1 (in_world w f) -> keeps pl cap2 r m2 o2 p2 s2 (in_world w g) ->
  descriptor (inner (res f)) = Some k1 -> descriptor (inner (res g)) = Some k2 -> k1 <> k2 -> q <> r -> obliging w ->
  Forall (fun c => permits m1 c = true) (calls_of true cs) -> Forall (fun c => permits m2 c = true) (calls_of false cs) ->
  all_file_allowed (chunk_max pl) cap1 s1 p1 (calls_of true cs) ->
  all_file_allowed (chunk_max pl) cap2 s2 p2 (calls_of false cs) ->
  (p1 = InWrites -> mode_writes m1 = true) -> (p2 = InWrites -> mode_writes m2 = true) ->
  exists w' f' g' o1' o2', run_two pl w f g cs =
      Ok (w', f', g', map Returned (snd (file_calls s1 (calls_of true cs))), map Returned (snd (file_calls s2 (calls_of false cs)))) /\
    keeps pl cap1 q m1 o1' (last_stage cap1 p1 (calls_of true cs)) (fst (file_calls s1 (calls_of true cs))) (in_world w' f') /\
    keeps pl cap2 r m2 o2' (last_stage cap2 p2 (calls_of false cs)) (fst (file_calls s2 (calls_of false cs))) (in_world w' g') /\
    (last_stage cap1 p1 (calls_of true cs) = InWrites -> mode_writes m1 = true) /\
    (last_stage cap2 p2 (calls_of false cs) = InWrites -> mode_writes m2 = true) /\
    descriptor (inner (res f')) = Some k1 /\ descriptor (inner (res g')) = Some k2 /\ obliging w' /\
    (forall x, x <> q -> x <> r -> disk w' x = disk w x).
Proof.
  intros pl cap1 cap2 q r m1 m2. induction cs as [|[[] c] cs IH]; intros w f g p1 p2 s1 s2 k1 k2 o1 o2 K1 K2 D1 D2 Dk QR B P1 P2 A1 A2 W1 W2.
  - exists w, f, g, o1, o2. cbn. auto 12.
  - change (calls_of true ((true, c) :: cs)) with (c :: calls_of true cs) in *.
    change (calls_of false ((true, c) :: cs)) with (calls_of false cs) in *.
    cbn [all_file_allowed] in A1. destruct A1 as [A1 A1']. inversion P1 as [|? ? P1a P1b]; subst.
    destruct (call_file_step pl cap1 q m1 o1 p1 s1 (in_world w f) c K1 B P1a A1 W1) as (f1 & E & _ & B1 & K1').
    destruct (call_file_tame _ _ _ _ _ E) as ([T1 (_ & _ & T2 & T3 & _)] & _).
    rewrite (keeps_name _ _ _ _ _ _ _ _ K1) in T2.
    cbn [in_world with_sys res inner os descriptor] in T1, T2, T3.
    set (w1 := os (inner (res f1))) in *.
    assert (K2' : keeps pl cap2 r m2 (disk w1) p2 s2 (in_world w1 g)).
    { replace (in_world w1 g) with (in_world w1 (in_world w g)) by (destruct g as [[[? ? ?] ?] ? ?]; reflexivity).
      eapply keeps_in_world; [exact K2|exact D2| |]; cbn [in_world with_sys res inner os].
      - apply T3. congruence.
      - apply T2. congruence. }
    assert (K1'' : keeps pl cap1 q m1 o1 (next_stage cap1 p1 c) (fst (file_call s1 c)) (in_world w1 f1)).
    { unfold w1. now rewrite in_world_id. }
    destruct (IH w1 f1 g _ _ _ _ k1 k2 _ _ K1'' K2') as (w' & f' & g' & o1' & o2' & R & X1 & X2 & X3 & X4 & X5 & X6 & X7 & X8); try assumption.
    { congruence. }
    { apply writes_stage; assumption. }
    exists w', f', g', o1', o2'. cbn [run_two file_calls last_stage]. rewrite E. cbn [bind]. fold w1. rewrite R. cbn [bind].
    destruct (file_call s1 c) as [s1' a1]. cbn [fst snd] in *. destruct (file_calls s1' (calls_of true cs)) as [s1'' l1]. cbn [fst snd map] in *.
    split; [reflexivity|]. repeat (split; [assumption|]). intros x Q R'. rewrite X8 by assumption. apply T2. congruence.
  - change (calls_of false ((false, c) :: cs)) with (c :: calls_of false cs) in *.
    change (calls_of true ((false, c) :: cs)) with (calls_of true cs) in *.
    cbn [all_file_allowed] in A2. destruct A2 as [A2 A2']. inversion P2 as [|? ? P2a P2b]; subst.
    destruct (call_file_step pl cap2 r m2 o2 p2 s2 (in_world w g) c K2 B P2a A2 W2) as (g1 & E & _ & B1 & K2').
    destruct (call_file_tame _ _ _ _ _ E) as ([T1 (_ & _ & T2 & T3 & _)] & _).
    rewrite (keeps_name _ _ _ _ _ _ _ _ K2) in T2.
    cbn [in_world with_sys res inner os descriptor] in T1, T2, T3.
    set (w1 := os (inner (res g1))) in *.
    assert (K1' : keeps pl cap1 q m1 (disk w1) p1 s1 (in_world w1 f)).
    { replace (in_world w1 f) with (in_world w1 (in_world w f)) by (destruct f as [[[? ? ?] ?] ? ?]; reflexivity).
      eapply keeps_in_world; [exact K1|exact D1| |]; cbn [in_world with_sys res inner os].
      - apply T3. congruence.
      - apply T2. congruence. }
    assert (K2'' : keeps pl cap2 r m2 o2 (next_stage cap2 p2 c) (fst (file_call s2 c)) (in_world w1 g1)).
    { unfold w1. now rewrite in_world_id. }
    destruct (IH w1 f g1 _ _ _ _ k1 k2 _ _ K1' K2'') as (w' & f' & g' & o1' & o2' & R & X1 & X2 & X3 & X4 & X5 & X6 & X7 & X8); try assumption.
    { congruence. }
    { apply writes_stage; assumption. }
    exists w', f', g', o1', o2'. cbn [run_two file_calls last_stage]. rewrite E. cbn [bind]. fold w1. rewrite R. cbn [bind].
    destruct (file_call s2 c) as [s2' a2]. cbn [fst snd] in *. destruct (file_calls s2' (calls_of false cs)) as [s2'' l2]. cbn [fst snd map] in *.
    split; [reflexivity|]. repeat (split; [assumption|]). intros x Q R'. rewrite X8 by assumption. apply T2. congruence.
Qed.

(** What opening changes. *)
Lemma sys_open_frame : forall w q create rd wr w' fd, sys_open w q create rd wr = (w', fd) ->
  (forall x, x <> q -> disk w' x = disk w x) /\
  match fd with
  | None => disk w' = disk w /\ table w' = table w /\ unused w' = unused w
  | Some k => k = unused w /\ unused w' = N.succ (unused w) /\ table w' k = Some (Handle q 0 rd wr) /\
              (forall x, x <> k -> table w' x = table w x) /\
              disk w' q = Some (match disk w q with Some l => l | None => [] end) /\
              (disk w q = None -> create = true)
  end.
Proof.
  intros w q create rd wr w' fd H. unfold sys_open in H. rewrite respond_eq in H. cbn [disk table unused script] in H. cbv zeta in H.
  assert (X : forall c rsp, (forall x, x <> q -> disk (World (disk (set_content (World (disk w) (table w) (unused w) rsp) q c))
       (set (table (set_content (World (disk w) (table w) (unused w) rsp) q c)) (unused (set_content (World (disk w) (table w) (unused w) rsp) q c)) (Some (Handle q 0 rd wr)))
       (N.succ (unused (set_content (World (disk w) (table w) (unused w) rsp) q c))) (script (set_content (World (disk w) (table w) (unused w) rsp) q c))) x = disk w x)).
  { intros c rsp x Hx. cbn [set_content disk]. now apply set_other. }
  destruct (response_now w), (disk w q) as [l|] eqn:D, create; injection H as <- <-;
    (split; [try reflexivity; try apply X|]); try (repeat split; fail);
    cbn [set_content disk table unused set_handle];
    (split; [reflexivity|]); (split; [reflexivity|]); (split; [apply set_same|]);
    (split; [intros; now apply set_other|]); (split; [rewrite set_same; reflexivity|congruence]).
Qed.

Lemma file_open_frame : forall pl f q m how f' b, is_open f = false -> file_open pl f q m how = Ok (f', b) ->
  let w := os (inner (res f)) in let w' := os (inner (res f')) in
  b = is_open f' /\
  (forall x, x <> q -> disk w' x = disk w x) /\
  match descriptor (inner (res f')) with
  | None => disk w' = disk w /\ table w' = table w
  | Some k => k = unused w /\ unused w' = N.succ (unused w) /\
              table w' k = Some (Handle q 0 (mode_reads m) (mode_writes m)) /\
              (forall x, x <> k -> table w' x = table w x) /\
              disk w' q = Some (match disk w q with Some l => l | None => [] end) /\
              (disk w q = None -> how = Create)
  end.
Proof.
  intros pl f q m how f' b O H w w'. unfold file_open in H. rewrite O in H. cbn [bind] in H. fold w in H.
  assert (N : descriptor (inner (res f)) = None) by (unfold is_open in O; destruct (descriptor (inner (res f))); congruence).
  set (create := match how with Fail => match pl with UnixLike => false | Windows => true end | Create => true end) in H.
  destruct (sys_open w q create (mode_reads m) (mode_writes m)) as [w1 fd] eqn:E.
  destruct (sys_open_frame _ _ _ _ _ _ _ E) as [F1 F2].
  destruct how.
  - destruct (disk w q) as [l|] eqn:D.
    + injection H as <- <-. subst w'. cbn [res inner os descriptor]. split; [reflexivity|]. split; [assumption|]. destruct fd; [|tauto].
      destruct F2 as (G1 & G2 & G3 & G4 & G5 & G6). repeat split; auto. discriminate.
    + injection H as <- <-. subst w'. fold w. rewrite N. split; [now rewrite O|]. split; [reflexivity|]. split; reflexivity.
  - assert (H' : Ok (File (Resource (Sys w1 fd (filled_last (inner (res f)))) (buf (res f))) (path f) m,
       is_open (File (Resource (Sys w1 fd (filled_last (inner (res f)))) (buf (res f))) (path f) m)) = Ok (f', b)).
    { destruct (disk w q); exact H. }
    injection H' as <- <-. subst w'. cbn [res inner os descriptor]. split; [reflexivity|]. split; [assumption|]. destruct fd; [|tauto].
    destruct F2 as (G1 & G2 & G3 & G4 & G5 & G6). repeat split; auto.
Qed.

Lemma new_file_frame : forall pl w q m how cap f, new_file pl w q m how cap = Ok f ->
  let w' := os (inner (res f)) in
  (forall x, x <> q -> disk w' x = disk w x) /\
  match descriptor (inner (res f)) with
  | None => disk w' = disk w /\ table w' = table w
  | Some k => k = unused w /\ unused w' = N.succ (unused w) /\
              table w' k = Some (Handle q 0 (mode_reads m) (mode_writes m)) /\
              (forall x, x <> k -> table w' x = table w x) /\
              disk w' q = Some (match disk w q with Some l => l | None => [] end) /\
              (disk w q = None -> how = Create)
  end.
Proof.
  intros pl w q m how cap f H w'. unfold new_file in H.
  destruct (file_open pl (File (Resource (Sys w None 0) (new_buffer cap)) (Some q) m) q m how) as [[f1 b]| | | |] eqn:E; cbn [bind] in H; try discriminate.
  injection H as <-. destruct (file_open_frame _ _ _ _ _ _ _ (eq_refl : is_open (File (Resource (Sys w None 0) (new_buffer cap)) (Some q) m) = false) E) as (_ & X1 & X2).
  exact (conj X1 X2).
Qed.

(** Construction of a file object when all goes well. *)
Lemma new_file_opens : forall pl w q l m how cap, 
  disk w q = Some l \/ disk w q = None /\ how = Create /\ l = [] -> len l < 2 ^ 63 ->
  obliging w -> Z.of_nat cap <= chunk_max pl ->
  exists f, new_file pl w q m how cap = Ok f /\ path f = Some q /\ obliging (os (inner (res f))) /\
    keeps pl (Z.of_nat cap) q m (disk w) Resting (Store l 0) f.
Proof.
  intros pl w q l m how cap D L B C.
  destruct (open_idle pl (Z.of_nat cap) _ q l m how (idle_new w (Some q) m cap) D) as (f1 & E & Pa & K & SC); try assumption.
  { assert (response_now w = InFull) by exact (hd_Forall (fun r => r = InFull) _ eq_refl B). cbn [res inner os]. congruence. }
  exists f1. unfold new_file. rewrite E. split; [reflexivity|]. split; [exact Pa|]. split; [|exact K].
  unfold obliging. rewrite SC. now apply Forall_tl.
Qed.

Lemma two_files : forall pl w q r l1 l2 m1 m2 how1 how2 cap1 cap2 cs,
  q <> r ->
  disk w q = Some l1 \/ disk w q = None /\ how1 = Create /\ l1 = [] -> len l1 < 2 ^ 63 ->
  disk w r = Some l2 \/ disk w r = None /\ how2 = Create /\ l2 = [] -> len l2 < 2 ^ 63 ->
  obliging w -> Z.of_nat cap1 <= chunk_max pl -> Z.of_nat cap2 <= chunk_max pl ->
  Forall (fun c => permits m1 c = true) (calls_of true cs) -> Forall (fun c => permits m2 c = true) (calls_of false cs) ->
  all_file_allowed (chunk_max pl) (Z.of_nat cap1) (Store l1 0) Resting (calls_of true cs) ->
  all_file_allowed (chunk_max pl) (Z.of_nat cap2) (Store l2 0) Resting (calls_of false cs) ->
  exists f g w' f' g' f'' g'', new_file pl w q m1 how1 cap1 = Ok f /\
    new_file pl (os (inner (res f))) r m2 how2 cap2 = Ok g /\
    run_two pl (os (inner (res g))) f g cs =
      Ok (w', f', g', map Returned (snd (file_calls (Store l1 0) (calls_of true cs))),
                      map Returned (snd (file_calls (Store l2 0) (calls_of false cs)))) /\
    file_close pl (in_world w' f') = Ok f'' /\
    file_close pl (in_world (os (inner (res f''))) g') = Ok g'' /\
    disk_of g'' q = Some (bytes (fst (file_calls (Store l1 0) (calls_of true cs)))) /\
    disk_of g'' r = Some (bytes (fst (file_calls (Store l2 0) (calls_of false cs)))) /\
    (forall x, x <> q -> x <> r -> disk_of g'' x = disk w x).
Proof.
  intros pl w q r l1 l2 m1 m2 how1 how2 cap1 cap2 cs QR D1 L1 D2 L2 B C1 C2 P1 P2 A1 A2.
  destruct (new_file_opens pl w q l1 m1 how1 cap1 D1 L1 B C1) as (f & E1 & _ & B1 & K1).
  destruct (new_file_frame _ _ _ _ _ _ _ E1) as [F1 F2].
  destruct (descriptor (inner (res f))) as [k1|] eqn:DF; [|pose proof (keeps_open _ _ _ _ _ _ _ _ K1) as X; unfold is_open in X; rewrite DF in X; discriminate].
  destruct F2 as (F2 & F3 & _ & _ & _ & _).
  destruct (new_file_opens pl (os (inner (res f))) r l2 m2 how2 cap2) as (g & E2 & _ & B2 & K2); try assumption.
  { rewrite F1 by congruence. assumption. }
  destruct (new_file_frame _ _ _ _ _ _ _ E2) as [G1 G2].
  destruct (descriptor (inner (res g))) as [k2|] eqn:DG; [|pose proof (keeps_open _ _ _ _ _ _ _ _ K2) as X; unfold is_open in X; rewrite DG in X; discriminate].
  destruct G2 as (G2 & _ & _ & G3 & _ & _).
  assert (KK : k1 <> k2) by lia.
  assert (K1' : keeps pl (Z.of_nat cap1) q m1 (disk (os (inner (res g)))) Resting (Store l1 0) (in_world (os (inner (res g))) f)).
  { eapply keeps_in_world; [exact K1|exact DF|now apply G3|now apply G1]. }
  assert (K2' : keeps pl (Z.of_nat cap2) r m2 (disk (os (inner (res f)))) Resting (Store l2 0) (in_world (os (inner (res g))) g)) by now rewrite in_world_id.
  assert (NW1 : Resting = InWrites -> mode_writes m1 = true) by discriminate.
  assert (NW2 : Resting = InWrites -> mode_writes m2 = true) by discriminate.
  destruct (run_two_steps pl (Z.of_nat cap1) (Z.of_nat cap2) q r m1 m2 cs _ f g Resting Resting _ _ k1 k2 _ _ K1' K2' DF DG KK QR B2 P1 P2 A1 A2 NW1 NW2)
    as (w' & f' & g' & o1 & o2 & R & X1 & X2 & X3 & X4 & X5 & X6 & X7 & X8).
  destruct (close_file _ _ _ _ _ _ _ _ X1 X7 X3) as (f'' & Y1 & _ & Y2 & Y3 & _ & Y4 & _).
  assert (T : table (os (inner (res f''))) k2 = table w' k2).
  { unfold file_close in Y1. destruct (file_flush pl (in_world w' f')) as [f3| | | |] eqn:FF; cbn [bind noexcept] in Y1; try discriminate.
    destruct (file_flush_tame _ _ _ FF) as ([T1 (_ & _ & _ & T2 & _)] & _). injection Y1 as <-.
    cbn [with_sys res inner os]. cbn [in_world with_sys res inner os descriptor] in T1, T2. rewrite T1, X5. cbn [sys_close set_handle table].
    rewrite set_other by congruence. apply T2. congruence. }
  assert (D3 : disk (os (inner (res f''))) r = disk w' r).
  { change (disk_of f'' r = disk w' r). rewrite Y3 by congruence.
    destruct X1 as [[_ _ _ _ _ Ot _] _]. symmetry. apply Ot. congruence. }
  assert (K3 : keeps pl (Z.of_nat cap2) r m2 (disk (os (inner (res f'')))) (last_stage (Z.of_nat cap2) Resting (calls_of false cs))
    (fst (file_calls (Store l2 0) (calls_of false cs))) (in_world (os (inner (res f''))) g')).
  { replace (in_world (os (inner (res f''))) g') with (in_world (os (inner (res f''))) (in_world w' g')) by (destruct g' as [[[? ? ?] ?] ? ?]; reflexivity).
    eapply keeps_in_world; [exact X2|exact X6|exact T|exact D3]. }
  destruct (close_file _ _ _ _ _ _ _ _ K3 Y4 X4) as (g'' & Z1 & _ & Z2 & Z3 & _).
  exists f, g, w', f', g', f'', g''. split; [assumption|]. split; [assumption|]. split; [exact R|]. split; [assumption|]. split; [assumption|].
  split; [rewrite Z3 by assumption; exact Y2|]. split; [assumption|].
  intros x N1 N2. rewrite Z3 by assumption. change (disk_of f'' x = disk w x). rewrite Y3 by assumption.
  destruct X1 as [[_ _ _ _ _ Ot _] _]. rewrite <- (Ot x N1). cbn [in_world with_sys res inner os].
  rewrite X8 by assumption. rewrite G1, F1 by assumption. reflexivity.
Qed.

(** A seek the operating system rejects. *)
Lemma seek_rejected : forall pl cap q rd wr others s r n o, file_for pl cap q rd wr others Resting s r ->
  file_target s n o < 0 -> (pl = UnixLike -> o <> Begin) ->
  let i := seek_raw pl (inner r) n (reference o) in
  file_for pl cap q rd wr others Resting s (Resource i (set_read_dirty (buf r) true)) /\ script (os i) = script (os (inner r)).
Proof.
  intros pl cap q rd wr others s r n o [(c & a & O & A0 & I) K CM At Fi Ot U] T PB i.
  destruct I as (-> & -> & I3 & I4 & I5 & I6). assert (CO := content_of_opened _ _ _ _ _ _ O).
  assert (E : i = Sys (os (inner r)) (descriptor (inner r)) 0).
  { destruct O as [(k & h & L & H1 & H2 & H3 & H4) D].
    unfold i, seek_raw. destruct o; cbn [reference file_target] in *.
    - destruct pl; [exfalso; now apply PB|]. unfold sys_seek. rewrite L. replace ((0 <=? n) && (n <? 2 ^ 63)) with false by lia. reflexivity.
    - replace (match pl with UnixLike => n | Windows => n end) with n by (destruct pl; reflexivity).
      unfold sys_seek. rewrite L, H4. replace ((0 <=? at_ s + n) && (at_ s + n <? 2 ^ 63)) with false by lia. reflexivity.
    - replace (match pl with UnixLike => n | Windows => n end) with n by (destruct pl; reflexivity).
      unfold sys_seek. rewrite L, H1, CO. change size_of with len.
      replace ((0 <=? len (bytes s) + n) && (len (bytes s) + n <? 2 ^ 63)) with false by lia. reflexivity. }
  rewrite E. clear E i. split; [|reflexivity].
  constructor; cbn [inner buf os]; try assumption; try tauto.
  exists (bytes s), (at_ s). split; [destruct O; constructor; assumption|]. split; [assumption|].
  cbn [in_stage set_read_dirty mem filled bpos read_dirty write_dirty filled_last]. tauto.
Qed.

Lemma call_rejected : forall pl cap q m others p s f n o, keeps pl cap q m others p s f ->
  obliging (os (inner (res f))) -> (p = InWrites -> mode_writes m = true) -> p <> InReads ->
  file_target s n o < 0 -> (pl = UnixLike -> o <> Begin) ->
  exists f', call_file pl f (SetPosition n o) = Ok (f', Returned Done) /\ path f' = path f /\
    obliging (os (inner (res f'))) /\ keeps pl cap q m others Resting s f'.
Proof.
  intros pl cap q m others p s f n o [S Md] B W P T PB.
  destruct (flush_file_step pl cap q _ _ others p s (res f) S B W) as (r' & E & B' & S').
  replace (match p with InReads => InReads | _ => Resting end) with Resting in S' by (destruct p; congruence).
  destruct (seek_rejected _ _ _ _ _ _ _ _ n o S' T PB) as [X1 X2].
  cbn [call_file]. unfold file_seek. rewrite E. cbn [bind noexcept]. eexists. split; [reflexivity|]. cbn [path res inner].
  split; [reflexivity|]. split; [unfold obliging; now rewrite X2|]. split; assumption.
Qed.

Lemma run_file_app : forall pl cs ds f f1 l, run_file pl f cs = Ok (f1, l) ->
  run_file pl f (cs ++ ds) = bind (run_file pl f1 ds) (fun '(f, l') => Ok (f, l ++ l')).
Proof.
  intros pl. induction cs as [|c cs IH]; intros ds f f1 l H; cbn [run_file app] in *.
  - injection H as <- <-. destruct (run_file pl f ds) as [[? ?]| | | |]; reflexivity.
  - destruct (call_file pl f c) as [[f2 a]| | | |]; cbn [bind] in *; try discriminate.
    destruct (run_file pl f2 cs) as [[f3 l3]| | | |] eqn:E; cbn [bind] in H; try discriminate. injection H as <- <-.
    rewrite (IH ds f2 f3 l3 E). destruct (run_file pl f3 ds) as [[? ?]| | | |]; reflexivity.
Qed.

Lemma allowed_app : forall most cap cs ds s p, all_file_allowed most cap s p (cs ++ ds) ->
  all_file_allowed most cap s p cs /\
  all_file_allowed most cap (fst (file_calls s cs)) (last_stage cap p cs) ds.
Proof.
  intros most cap. induction cs as [|c cs IH]; intros ds s p H; [split; [exact I|exact H]|].
  cbn [app all_file_allowed file_calls last_stage] in *. destruct H as [H1 H2]. destruct (IH _ _ _ H2) as [I1 I2].
  split; [split; assumption|]. destruct (file_call s c) as [s' a]. cbn [fst] in *. destruct (file_calls s' cs). exact I2.
Qed.

Lemma file_calls_app : forall cs ds s, snd (file_calls s (cs ++ ds)) = snd (file_calls s cs) ++ snd (file_calls (fst (file_calls s cs)) ds).
Proof.
  induction cs as [|c cs IH]; intros ds s; [reflexivity|]. cbn [app file_calls]. destruct (file_call s c) as [s' a].
  specialize (IH ds s'). destruct (file_calls s' (cs ++ ds)). destruct (file_calls s' cs). cbn [fst snd app] in *. now rewrite IH.
Qed.

(** A read of one byte more than Windows can transfer at once. *)
Lemma windows_huge_read : forall w fd k h l dst,
  lookup w fd = Some (k, h) -> readable h = true -> offset h = 0 -> content_of w (file_name h) = l ->
  len l = chunk_max Windows + 1 -> len dst = chunk_max Windows + 1 -> obliging w ->
  exists w' dst', read_blocks Windows (chunk_count Windows (chunk_max Windows + 1)) w fd dst 0 (chunk_max Windows + 1) 0
    = Ok (w', dst', chunk_max Windows + 1) /\ take 1 dst' = drop (chunk_max Windows) l.
Proof.
  intros w fd k h l dst L R Oo C Ll Ld B. set (m := chunk_max Windows) in *.
  assert (M : 0 < m) by reflexivity.
  assert (CC : exists u, chunk_count Windows (m + 1) = S (S u)) by (exists O; vm_compute; reflexivity).
  destruct CC as [u ->]. destruct (obliging_short Windows w B) as [NS NF]. cbn [read_blocks]. fold m.
  replace (m + 1 <=? 0) with false by lia. replace (Z.min (m + 1) m) with m by lia.
  destruct (read_block_got Windows w fd k h dst 0 m) as (w1 & d & X & X1 & X2 & _ & X4 & X5); try assumption; try lia.
  specialize (X4 NF). rewrite Oo, C, Z.sub_0_r in X4. change (drop 0 l) with l in X4.
  assert (Lm : len d = m) by (rewrite X4, len_take; lia).
  rewrite X. cbn [bind]. rewrite Lm, !Z.add_0_l. rewrite Z.eqb_refl. cbn [bind].
  replace (m + 1 - m) with 1 by lia. replace (1 <=? 0) with false by lia. replace (Z.min 1 m) with 1 by lia.
  destruct (obliging_short Windows w1 (X2 _ B)) as [NS1 NF1].
  set (dst1 := overwrite dst 0 d) in *.
  assert (Ld1 : len dst1 = m + 1) by (unfold dst1; rewrite len_overwrite; lia).
  destruct (read_block_got Windows w1 fd k (move_to h (offset h + len d)) dst1 0 1) as (w2 & e & Y & _ & _ & _ & Y4 & _); try assumption; try lia.
  { cbn [move_to offset]. lia. }
  specialize (Y4 NF1). cbn [move_to offset file_name] in Y4. rewrite Z.sub_0_r, Oo, Lm, Z.add_0_l in Y4.
  assert (C1 : content_of w1 (file_name h) = l) by (unfold content_of; rewrite X1; exact C). rewrite C1 in Y4.
  assert (Dl : len (drop m l) = 1) by (rewrite len_drop by lia; lia).
  rewrite take_all in Y4 by lia. subst e. rewrite Y. cbn [bind]. rewrite Dl, Z.add_0_r, Z.add_0_l.
  replace (1 =? 1) with true by reflexivity. replace (1 - 1) with 0 by lia.
  exists w2, (overwrite dst1 0 (drop m l)). split; [destruct u; reflexivity|].
  unfold overwrite. rewrite take_0. cbn [app]. rewrite <- Dl. apply take_app_exact.
Qed.
