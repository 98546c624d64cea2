(** What a kill leaves, step by step. *)
From Coq Require Import NArith ZArith List Bool Lia.
From Coq Require Import ZifyBool ZifyNat ZifyN.
From Verif Require Import Base Integers ResourceSpec ResourceModel ResourceText FileSpec FileModel FileText.
From Verif Require Import ResourceLemmas ResourceLemmas2 FileLemmas FileLemmas2 FileLemmas3 FileLemmas4 CrashSpec CrashModel CrashLemmas.
Import ListNotations.
Open Scope Z_scope.

Definition is_write (c : call) : Prop := match c with Write _ => True | _ => False end.

Definition state_after (l : list N) (cs : list call) : store := fst (file_calls (Store l 0) cs).

Lemma file_calls_fst_app : forall cs ds s, fst (file_calls s (cs ++ ds)) = fst (file_calls (fst (file_calls s cs)) ds).
Proof.
  induction cs as [|c cs IH]; intros ds s; [reflexivity|]. cbn [app file_calls].
  destruct (file_call s c) as [s1 a]. specialize (IH ds s1).
  destruct (file_calls s1 (cs ++ ds)) as [s2 l2]. destruct (file_calls s1 cs) as [s3 l3]. exact IH.
Qed.

Lemma state_after_last : forall l cs c, state_after l (cs ++ [c]) = fst (file_call (state_after l cs) c).
Proof.
  intros l cs c. unfold state_after. rewrite file_calls_fst_app. cbn [file_calls].
  destruct (file_call (fst (file_calls (Store l 0) cs)) c). reflexivity.
Qed.

Lemma written_app : forall a b, written (a ++ b) = written a ++ written b.
Proof. intros a b. unfold written. apply flat_map_app. Qed.

Lemma state_after_writes : forall ws s, Forall is_write ws -> 0 <= at_ s ->
  fst (file_calls s ws) = Store (put (bytes s) (at_ s) (written ws)) (at_ s + len (written ws)).
Proof.
  induction ws as [|c ws IH]; intros s W A.
  - cbn. rewrite Z.add_0_r. destruct s; reflexivity.
  - inversion W as [|? ? W1 W2]; subst. destruct c as [|d| | | |]; try contradiction. cbn [file_calls file_call].
    specialize (IH (Store (put (bytes s) (at_ s) d) (at_ s + len d)) W2). pose proof (len_nonneg d).
    destruct (file_calls (Store (put (bytes s) (at_ s) d) (at_ s + len d)) ws) as [s2 l2]. cbn [fst] in *.
    rewrite IH by (cbn [at_]; lia). cbn [bytes at_]. change (written (Write d :: ws)) with (d ++ written ws).
    rewrite put_app by assumption. rewrite len_app, Z.add_assoc. reflexivity.
Qed.

Lemma begins_all : forall a b, begins a (a ++ b).
Proof. induction a as [|c a IH]; intro b; constructor. apply IH. Qed.

Lemma begins_more : forall a b c, begins a b -> begins a (b ++ c).
Proof. intros a b c B. induction B; cbn [app]; constructor; assumption. Qed.

(** Any number of the bytes of some writes are those of an initial part. *)
Lemma cut_writes : forall ws k, Forall is_write ws -> 0 <= k <= len (written ws) ->
  exists part, begins part ws /\ Forall is_write part /\ written part = take k (written ws).
Proof.
  induction ws as [|c ws IH]; intros k W K.
  - exists []. split; [constructor|]. split; [constructor|]. cbn. now rewrite take_nil.
  - inversion W as [|? ? W1 W2]; subst. destruct c as [|d| | | |]; try contradiction.
    change (written (Write d :: ws)) with (d ++ written ws) in *. rewrite len_app in K. pose proof (len_nonneg d).
    destruct (Z_le_gt_dec k (len d)).
    + exists [Write (take k d)]. rewrite take_app_l by lia. split.
      * rewrite <- (take_drop k d) at 2 by lia. constructor.
      * split; [repeat constructor|]. cbn. apply app_nil_r.
    + destruct (IH (k - len d) W2 ltac:(lia)) as (part & P1 & P2 & P3). exists (Write d :: part).
      split; [now constructor|]. split; [constructor; [exact I|assumption]|].
      change (written (Write d :: part)) with (d ++ written part). rewrite P3.
      rewrite take_app, (take_all k d) by lia. reflexivity.
Qed.

(* ------------------------------------------------------------- the invariant *)

(** What waits in the buffer are the writes since the file was last written to. *)
Definition pending (q : N) (l : list N) (cs : list call) (r : resource sys) : Prop :=
  write_dirty (buf r) = true -> exists kept lost rd, cs = kept ++ lost /\ Forall is_write lost /\
    opened (inner r) q rd true (bytes (state_after l kept)) (at_ (state_after l kept)) /\
    take (bpos (buf r)) (mem (buf r)) = written lost /\ 0 <= at_ (state_after l kept).

(** A system call writes, in order, calls that may be lost, or the current call. *)
Definition explained (cap : Z) (q : N) (l : list N) (others : N -> option (list N)) (cs : list call) (c : call) (a : attempt) : Prop :=
  exists kept lost ws, may_lose cap cs kept lost /\ (ws = lost \/ lost = [] /\ ws = [c]) /\ Forall is_write ws /\
    0 <= at_ (state_after l kept) /\
    forall r, exists k, 0 <= k <= len (written ws) /\
      left_at a r q = Some (put (bytes (state_after l kept)) (at_ (state_after l kept)) (take k (written ws))) /\
      (forall x, x <> q -> left_at a r x = others x) /\ (r = Refuse -> k = 0) /\ (r = InFull -> k = len (written ws)).

Lemma bpos_within : forall pl cap q rd wr others p s r, file_for pl cap q rd wr others p s r ->
  0 <= bpos (buf r) <= capacity (buf r).
Proof.
  intros pl cap q rd wr others p s r [(c & a & O & A0 & I) K CM At Fi Ot U]. pose proof (capacity_nonneg (buf r)).
  destruct p; cbn [in_stage] in I; lia.
Qed.

Lemma clean_unless_writing : forall pl cap q rd wr others p s r, file_for pl cap q rd wr others p s r -> p <> InWrites ->
  write_dirty (buf r) = false.
Proof.
  intros pl cap q rd wr others p s r [(c & a & O & A0 & I) K CM At Fi Ot U] P.
  destruct p; cbn [in_stage] in I; try tauto.
Qed.

Lemma clean_disk : forall pl cap q rd wr others p s r, file_for pl cap q rd wr others p s r -> write_dirty (buf r) = false ->
  opened (inner r) q rd wr (bytes s) (at_ s) \/ p = InReads /\ disk (os (inner r)) q = Some (bytes s).
Proof.
  intros pl cap q rd wr others p s r [(c & a & O & A0 & I) K CM At Fi Ot U] W. destruct p; cbn [in_stage] in I.
  - destruct I as (-> & -> & _). now left.
  - right. split; [reflexivity|]. destruct I as (-> & _). apply O.
  - left. destruct I as (I1 & I2 & I3 & I4 & I5 & I6). specialize (I4 W). rewrite I4, take_0, put_nil, Z.add_0_r in *. subst. exact O.
Qed.

Lemma no_saves : forall ws, Forall is_write ws -> Forall (fun c => ~ saves c) ws.
Proof. intros ws W. eapply Forall_impl; [|exact W]. intros [| | | | |]; cbn; tauto. Qed.

Lemma lose_nothing : forall cap cs, 0 <= cap -> may_lose cap cs cs [].
Proof. intros cap cs C. split; [now rewrite app_nil_r|]. split; [constructor|]. exact C. Qed.

Lemma one_explained : forall cap q l others cs c kept lost ws s rd, may_lose cap cs kept lost ->
  (ws = lost \/ lost = [] /\ ws = [c]) -> Forall is_write ws -> 0 <= at_ (state_after l kept) ->
  opened s q rd true (bytes (state_after l kept)) (at_ (state_after l kept)) ->
  (forall x, x <> q -> disk (os s) x = others x) ->
  Forall (explained cap q l others cs c) (one s (written ws)).
Proof.
  intros cap q l others cs c kept lost ws s rd M V W A O Ot. unfold one. destruct (written ws) as [|b bs] eqn:E; [constructor|].
  rewrite <- E. constructor; [|constructor]. exists kept, lost, ws. split; [assumption|]. split; [assumption|].
  split; [assumption|]. split; [assumption|]. intro r.
  destruct (left_at_cases s q rd _ _ (written ws) r O) as (k & K1 & K2 & K3 & K4 & K5). exists k.
  split; [assumption|]. split; [assumption|]. split; [intros x X; rewrite K3; auto|]. auto.
Qed.

Lemma flush_explained : forall pl cap q rd wr others p s r l cs c, file_for pl cap q rd wr others p s r ->
  pending q l cs r -> Forall (explained cap q l others cs c) (flush_log r).
Proof.
  intros pl cap q rd wr others p s r l cs c F P. unfold flush_log. destruct (write_dirty (buf r)) eqn:D; [|constructor].
  destruct (P D) as (kept & lost & rd' & E & W & O & T & A). rewrite T.
  pose proof (bpos_within _ _ _ _ _ _ _ _ _ F) as B.
  apply one_explained with kept lost rd'; auto.
  - split; [assumption|]. split; [now apply no_saves|]. rewrite <- T, len_take by lia. rewrite <- (ff_cap _ _ _ _ _ _ _ _ _ F). lia.
  - apply (ff_others _ _ _ _ _ _ _ _ _ F).
Qed.

Lemma buffer_after : forall b d b', buffer_write b d = Ok b' -> 0 <= bpos b -> bpos b + len d <= len (mem b) ->
  take (bpos b') (mem b') = take (bpos b) (mem b) ++ d.
Proof.
  intros b d b' E B L. pose proof (len_nonneg d). unfold buffer_write in E. rewrite blit_ok in E by lia. cbn [bind] in E.
  injection E as <-. cbn [set_write_dirty mem bpos]. change size_of with len.
  unfold overwrite. rewrite app_assoc. rewrite take_app_l by (rewrite len_app, len_take by lia; lia).
  apply take_all. rewrite len_app, len_take by lia. lia.
Qed.

Lemma write_kill : forall pl cap q rd others p r l cs d r' k, file_for pl cap q rd true others p (state_after l cs) r ->
  obliging (os (inner r)) -> p <> InReads -> len d <= chunk_max pl -> pending q l cs r ->
  write (file_ops pl) r d = Ok (r', k) ->
  pending q l (cs ++ [Write d]) r' /\ Forall (explained cap q l others cs (Write d)) (write_log pl r d).
Proof.
  intros pl cap q rd others p r l cs d r' k F B P M Pe E. pose proof (bpos_within _ _ _ _ _ _ _ _ _ F) as Bp.
  assert (K := ff_cap _ _ _ _ _ _ _ _ _ F). assert (At := ff_at _ _ _ _ _ _ _ _ _ F).
  pose proof (capacity_nonneg (buf r)) as C0. pose proof (len_nonneg d).
  unfold write in E. unfold write_log. destruct (0 <? capacity (buf r)) eqn:Z.
  - unfold write_buffered in E. change size_of with len in E.
    destruct (capacity (buf r) <? bpos (buf r) + len d) eqn:Full; cbn [andb] in E.
    + destruct (flush_file_step pl cap q rd true others p _ r F B ltac:(reflexivity)) as (r1 & E1 & B1 & F1).
      rewrite E1 in E |- *. cbn [bind] in E.
      assert (D1 : write_dirty (buf r1) = false) by (eapply clean_unless_writing; [exact F1|destruct p; discriminate]).
      assert (O1 : opened (inner r1) q rd true (bytes (state_after l cs)) (at_ (state_after l cs))).
      { destruct (clean_disk _ _ _ _ _ _ _ _ _ F1 D1) as [O|[X _]]; [exact O|destruct p; congruence]. }
      destruct (capacity (buf r) <? len d) eqn:Big.
      * cbn [file_ops raw_write] in E.
        destruct (file_write_raw pl (inner r1) d) as [[s' j]| | | |] eqn:Ew; try discriminate. cbn [bind] in E. injection E as <- <-.
        split.
        { intro X. cbn [buf] in X. congruence. }
        apply Forall_app. split; [eapply flush_explained; [exact F|exact Pe]|].
        assert (X := one_explained cap q l others cs (Write d) cs [] [Write d] (inner r1) rd).
        replace (written [Write d]) with d in X by (cbn; now rewrite app_nil_r). apply X; clear X; auto.
        { apply lose_nothing. lia. }
        { repeat constructor. }
        { lia. }
        { apply (ff_others _ _ _ _ _ _ _ _ _ F1). }
      * destruct (buffer_write (buf r1) d) as [b| | | |] eqn:Ew; try discriminate. cbn [bind] in E. injection E as <- <-.
        rewrite app_nil_r. split; [|eapply flush_explained; [exact F|exact Pe]].
        intros _. exists cs, [Write d], rd. split; [reflexivity|]. split; [repeat constructor|]. cbn [inner buf].
        split; [assumption|]. split; [|lia].
        assert (K1 := ff_cap _ _ _ _ _ _ _ _ _ F1). unfold capacity in K1. change size_of with len in K1.
        assert (P0 : bpos (buf r1) = 0).
        { destruct F1 as [(? & ? & ? & ? & I) ? ? ? ? ? ?]. destruct p; cbn [in_stage] in I; [tauto|congruence|tauto]. }
        rewrite (buffer_after _ _ _ Ew) by lia. rewrite P0, take_0. cbn. now rewrite app_nil_r.
    + cbn [bind] in E. destruct (buffer_write (buf r) d) as [b| | | |] eqn:Ew; try discriminate. cbn [bind] in E. injection E as <- <-.
      split; [|constructor]. intros _. cbn [inner buf].
      assert (T : take (bpos b) (mem b) = take (bpos (buf r)) (mem (buf r)) ++ d).
      { apply buffer_after; [assumption|lia|]. unfold capacity in Full. change size_of with len in Full. lia. }
      rewrite T. destruct (write_dirty (buf r)) eqn:D.
      * destruct (Pe D) as (kept & lost & rd' & E0 & W & O & T0 & A). exists kept, (lost ++ [Write d]), rd'.
        split; [subst cs; now rewrite app_assoc|]. split; [apply Forall_app; split; [assumption|repeat constructor]|].
        split; [assumption|]. split; [|assumption]. rewrite T0, written_app. cbn. now rewrite app_nil_r.
      * assert (P0 : bpos (buf r) = 0).
        { destruct F as [(? & ? & ? & ? & I) ? ? ? ? ? ?]. destruct p; cbn [in_stage] in I; [tauto|congruence|].
          destruct I as (_ & _ & _ & I & _). now apply I. }
        exists cs, [Write d], rd. split; [reflexivity|]. split; [repeat constructor|].
        split; [|split; [rewrite P0, take_0; cbn; now rewrite app_nil_r|lia]].
        destruct (clean_disk _ _ _ _ _ _ _ _ _ F D) as [O|[X _]]; [exact O|congruence].
  - assert (Cz : cap = 0) by lia. assert (Pr := ff_unbuffered _ _ _ _ _ _ _ _ _ F Cz). subst p.
    assert (D : write_dirty (buf r) = false) by (eapply clean_unless_writing; [exact F|discriminate]).
    cbn [file_ops raw_write] in E. destruct (file_write_raw pl (inner r) d) as [[s' j]| | | |] eqn:Ew; try discriminate.
    cbn [bind] in E. injection E as <- <-. split.
    { intro X. cbn [buf] in X. congruence. }
    assert (X := one_explained cap q l others cs (Write d) cs [] [Write d] (inner r) rd).
    replace (written [Write d]) with d in X by (cbn; now rewrite app_nil_r). apply X; clear X; auto.
    + apply lose_nothing. lia.
    + repeat constructor.
    + lia.
    + destruct (clean_disk _ _ _ _ _ _ _ _ _ F D) as [O|[X _]]; [exact O|congruence].
    + apply (ff_others _ _ _ _ _ _ _ _ _ F).
Qed.

Lemma kill_step : forall pl cap q m others p f l cs c, keeps pl cap q m others p (state_after l cs) f ->
  pending q l cs (res f) -> obliging (os (inner (res f))) -> permits m c = true ->
  file_allowed (chunk_max pl) cap (state_after l cs) p c -> (p = InWrites -> mode_writes m = true) ->
  exists f' a tries, watched_call pl f c = Ok (f', a, tries) /\ call_file pl f c = Ok (f', a) /\
    a = Returned (snd (file_call (state_after l cs) c)) /\
    obliging (os (inner (res f'))) /\ keeps pl cap q m others (next_stage cap p c) (state_after l (cs ++ [c])) f' /\
    pending q l (cs ++ [c]) (res f') /\ Forall (explained cap q l others cs c) tries.
Proof.
  intros pl cap q m others p f l cs c K Pe B Pm A W.
  destruct (call_file_step pl cap q m others p _ f c K B Pm A W) as (f' & E & _ & B' & K').
  pose proof (call_erased pl f c) as Er. rewrite E in Er.
  destruct (watched_call pl f c) as [[[f1 a1] l1]| | | |] eqn:Ew; try discriminate. cbn [bind] in Er. injection Er as -> ->.
  exists f', (Returned (snd (file_call (state_after l cs) c))), l1. split; [reflexivity|]. split; [assumption|]. split; [reflexivity|].
  split; [assumption|]. rewrite state_after_last. split; [assumption|].
  assert (Cl : next_stage cap p c <> InWrites -> pending q l (cs ++ [c]) (res f')).
  { intros X Y. destruct K' as [K' _]. rewrite (clean_unless_writing _ _ _ _ _ _ _ _ _ K' X) in Y. discriminate. }
  destruct K as [K Md].
  pose proof (bpos_within _ _ _ _ _ _ _ _ _ K) as Bp. assert (Ca := ff_cap _ _ _ _ _ _ _ _ _ K). assert (Cm := ff_most _ _ _ _ _ _ _ _ _ K).
  destruct (flush_file_step pl cap q _ _ others p _ (res f) K B W) as (r1 & F1 & _ & _).
  assert (FW := flush_watch pl (res f) r1 [] Bp ltac:(lia) F1). cbn [app] in FW. fold (watch (res f)) in FW.
  destruct c as [b n|d| |n o|n|n]; cbn [watched_call file_allowed permits] in *.
  - split; [apply Cl; unfold next_stage; destruct (cap =? 0); discriminate|].
    rewrite E in Ew. cbn [bind] in Ew. injection Ew as <-. constructor.
  - destruct A as (A1 & A2 & A3). rewrite Md in Ew. rewrite Pm in K.
    unfold call_file, file_write in E. rewrite Md in E.
    destruct m; try discriminate;
      (destruct (write (file_ops pl) (res f) d) as [[r' k]| | | |] eqn:Wr; try discriminate);
      cbn [bind answered] in E; (injection E as <- _); rewrite (write_watch pl (res f) d r' k) in Ew by (try assumption; lia);
      cbn [bind inner tries] in Ew; (assert (Tr : l1 = write_log pl (res f) d) by (injection Ew; congruence)); subst l1; cbn [res];
      (eapply write_kill; [exact K|assumption|assumption|assumption|assumption|exact Wr]).
  - split; [apply Cl; unfold next_stage; destruct (cap =? 0), p; discriminate|].
    rewrite FW in Ew. cbn [bind inner tries] in Ew. injection Ew as _ <-. eapply flush_explained; [exact K|exact Pe].
  - split; [apply Cl; unfold next_stage; destruct (cap =? 0); discriminate|].
    rewrite FW in Ew. cbn [bind noexcept inner tries] in Ew. injection Ew as _ <-. eapply flush_explained; [exact K|exact Pe].
  - destruct A as (A1 & ->). split; [apply Cl; unfold next_stage; destruct (cap =? 0); discriminate|].
    rewrite E in Ew. cbn [bind] in Ew. injection Ew as <-. constructor.
  - destruct A as (A1 & ->). split; [apply Cl; unfold next_stage; destruct (cap =? 0); discriminate|].
    rewrite E in Ew. cbn [bind] in Ew. injection Ew as <-. constructor.
Qed.

Lemma kill_run : forall pl cap q m others l cs done p f, keeps pl cap q m others p (state_after l done) f ->
  pending q l done (res f) -> obliging (os (inner (res f))) -> Forall (fun c => permits m c = true) cs ->
  all_file_allowed (chunk_max pl) cap (state_after l done) p cs -> (p = InWrites -> mode_writes m = true) ->
  exists f', run_file pl f cs = Ok (f', map Returned (snd (file_calls (state_after l done) cs))) /\
    obliging (os (inner (res f'))) /\
    keeps pl cap q m others (last_stage cap p cs) (state_after l (done ++ cs)) f' /\ pending q l (done ++ cs) (res f') /\
    (last_stage cap p cs = InWrites -> mode_writes m = true).
Proof.
  intros pl cap q m others l. induction cs as [|c cs IH]; intros done p f K Pe B P A W; cbn [run_file file_calls last_stage].
  - exists f. rewrite app_nil_r. cbn [snd map]. auto.
  - destruct A as [A1 A2]. inversion P as [|? ? P1 P2]; subst.
    destruct (kill_step pl cap q m others p f l done c K Pe B P1 A1 W) as (f1 & a & t & _ & E1 & -> & B1 & K1 & Pe1 & _).
    rewrite E1. cbn [bind]. rewrite <- state_after_last in A2.
    destruct (IH _ _ f1 K1 Pe1 B1 P2 A2) as (f2 & E2 & B2 & K2 & Pe2 & W2). { apply writes_stage; assumption. }
    rewrite E2. cbn [bind]. rewrite state_after_last. destruct (file_call (state_after l done) c) as [s1 a1]. cbn [fst snd] in *.
    destruct (file_calls s1 cs) as [s2 l2]. cbn [snd map]. exists f2. rewrite <- app_assoc in K2, Pe2.
    split; [reflexivity|]. auto.
Qed.
