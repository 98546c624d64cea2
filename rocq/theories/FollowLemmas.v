(** Lemmas for C147 and C148. *)
From Coq Require Import NArith ZArith List Bool Lia.
From Coq Require Import ZifyBool ZifyNat ZifyN.
From Verif Require Import Base Integers ResourceSpec ResourceModel ResourceText FileSpec FileModel FileText.
From Verif Require Import ResourceLemmas ResourceLemmas2 FileLemmas FileLemmas2 FileLemmas3 FileLemmas4 FileLemmas5 FileLemmas6.
From Verif Require Import CrashLemmas2 TextFileLemmas2 SharedSpec SharedLemmas FollowSpec FollowText.
Import ListNotations.
Open Scope Z_scope.

(* ------------------------------------------------------ the writer at the end *)

(** What has been written is what is on the disk and then what is in the buffer. *)
Record tail (pl : platform) (cap : Z) (q : N) (m : access_mode) (c written : list N) (f : file) : Prop := {
  tl_open : opened (inner (res f)) q (mode_reads m) true c (len c);
  tl_mode : mode f = m;
  tl_cap : capacity (buf (res f)) = cap;
  tl_most : cap <= chunk_max pl;
  tl_pos : 0 <= bpos (buf (res f)) <= cap;
  tl_clean : write_dirty (buf (res f)) = false -> bpos (buf (res f)) = 0;
  tl_written : written = c ++ take (bpos (buf (res f))) (mem (buf (res f))) }.

Lemma tail_flush : forall pl cap q m c written f, tail pl cap q m c written f -> obliging (os (inner (res f))) ->
  exists f', file_flush pl f = Ok f' /\ obliging (os (inner (res f'))) /\ tail pl cap q m written written f' /\
    write_dirty (buf (res f')) = false /\ path f' = path f.
Proof.
  intros pl cap q m c written f [O M K CM P Cl W] B. unfold file_flush, flush.
  assert (LM : len (mem (buf (res f))) = cap) by (rewrite <- K; reflexivity).
  destruct (write_dirty (buf (res f))) eqn:D.
  - rewrite slice_ok by lia. cbn [bind]. rewrite drop_0. unfold file_ops. cbn [raw_write].
    assert (LT : len (take (bpos (buf (res f))) (mem (buf (res f)))) = bpos (buf (res f))) by (rewrite len_take by lia; lia).
    destruct (raw_write_full pl (inner (res f)) q _ c (len c) (take (bpos (buf (res f))) (mem (buf (res f)))) O (len_nonneg _) ltac:(lia) B)
      as (s' & E & X1 & X2 & X3 & X4).
    rewrite E. cbn [bind]. eexists. split; [reflexivity|]. cbn [res inner buf path mode]. split; [exact X4|].
    rewrite put_end, <- len_app, <- W in X1.
    split; [|split; reflexivity]. constructor; cbn [res inner buf mode set_write_dirty bpos write_dirty mem]; try assumption; try lia; try reflexivity.
    now rewrite take_0, app_nil_r.
  - cbn [bind]. eexists. split; [reflexivity|]. cbn [res path mode]. split; [assumption|].
    rewrite (Cl eq_refl), take_0, app_nil_r in W. subst c.
    split; [|split; [exact D|reflexivity]]. constructor; cbn [res mode]; try assumption.
    + intros _. exact (Cl eq_refl).
    + now rewrite (Cl eq_refl), take_0, app_nil_r.
Qed.

Lemma tail_raw : forall pl cap q m c f d, tail pl cap q m c c f -> write_dirty (buf (res f)) = false ->
  obliging (os (inner (res f))) -> len d <= chunk_max pl ->
  exists s', raw_write (file_ops pl) (inner (res f)) d = Ok (s', len d) /\ obliging (os s') /\
    forall x, tail pl cap q m (c ++ d) (c ++ d) (File (Resource s' (buf (res f))) x (mode f)).
Proof.
  intros pl cap q m c f d [O M K CM P Cl W] D B L. unfold file_ops. cbn [raw_write].
  destruct (raw_write_full pl (inner (res f)) q _ c (len c) d O (len_nonneg _) L B) as (s' & E & X1 & X2 & X3 & X4).
  exists s'. split; [exact E|]. split; [exact X4|]. intros x. rewrite put_end, <- len_app in X1.
  constructor; cbn [res inner buf mode]; try assumption. now rewrite (Cl D), take_0, app_nil_r.
Qed.

Lemma tail_write : forall pl cap q m c written f d, tail pl cap q m c written f -> mode_writes m = true ->
  obliging (os (inner (res f))) -> len d <= chunk_max pl ->
  exists f' c', file_write pl f d = Ok (f', Returned (len d)) /\ obliging (os (inner (res f'))) /\
    tail pl cap q m c' (written ++ d) f' /\ (exists x, c' = c ++ x) /\ path f' = path f.
Proof.
  intros pl cap q m c written f d T Mw B L. assert (T0 := T). destruct T as [O M K CM P Cl W].
  assert (exists r' c', write (file_ops pl) (res f) d = Ok (r', len d) /\ obliging (os (inner r')) /\
    tail pl cap q m c' (written ++ d) (File r' (path f) m) /\ (exists x, c' = c ++ x)) as (r' & c' & E & B' & T' & X).
  { pose proof (len_nonneg d). unfold write. rewrite K. destruct (0 <? cap) eqn:Z.
    - unfold write_buffered. change size_of with len. rewrite K.
      destruct (cap <? bpos (buf (res f)) + len d) eqn:Full; cbn [andb].
      + destruct (tail_flush _ _ _ _ _ _ _ T0 B) as (f1 & E1 & B1 & T1 & D1 & P1). unfold file_flush in E1.
        destruct (flush (file_ops pl) (res f)) as [r1| | | |]; cbn [bind] in E1; try discriminate. injection E1 as <-.
        cbn [bind]. cbn [res] in *. destruct (cap <? len d) eqn:Big.
        * destruct (tail_raw _ _ _ _ _ _ d T1 D1 B1 L) as (s' & E2 & B2 & T2). cbn [res] in E2. rewrite E2. cbn [bind].
          eexists _, (written ++ d). split; [reflexivity|]. split; [exact B2|]. cbn [res mode] in T2.
          split; [specialize (T2 (path f)); rewrite M in T2; exact T2|]. eexists. rewrite W, <- app_assoc. reflexivity.
        * assert (LM : len (mem (buf r1)) = cap) by (destruct T1 as [_ _ <- _ _ _ _]; reflexivity).
          assert (P0 : bpos (buf r1) = 0) by (destruct T1 as [_ _ _ _ _ Cl1 _]; exact (Cl1 D1)).
          destruct (buffer_write (buf r1) d) as [b'| | | |] eqn:Eb; [|unfold buffer_write in Eb; rewrite blit_ok in Eb by lia; discriminate..].
          assert (Y := buffer_after _ _ _ Eb ltac:(lia) ltac:(lia)).
          cbn [bind]. eexists _, written. split; [reflexivity|]. split; [exact B1|].
          destruct T1 as [O1 M1 K1 CM1 PP Cl1 W1]. cbn [res mode] in *.
          unfold buffer_write in Eb. rewrite blit_ok in Eb by lia. cbn [bind] in Eb. injection Eb as <-.
          split; [constructor; cbn [res inner buf mode set_write_dirty bpos write_dirty mem capacity]; change size_of with len; try assumption; try lia; try discriminate; try congruence|].
          -- unfold capacity in *. cbn [mem set_write_dirty]. change size_of with len in *. rewrite len_overwrite by lia. lia.
          -- cbn [set_write_dirty mem bpos] in Y. change size_of with len in Y. rewrite Y, P0, take_0. reflexivity.
          -- eexists. exact W.
      + cbn [bind]. assert (LM : len (mem (buf (res f))) = cap) by (rewrite <- K; reflexivity).
        destruct (buffer_write (buf (res f)) d) as [b'| | | |] eqn:Eb; [|unfold buffer_write in Eb; rewrite blit_ok in Eb by lia; discriminate..].
        assert (Y := buffer_after _ _ _ Eb ltac:(lia) ltac:(lia)).
        eexists _, c. split; [reflexivity|]. split; [exact B|]. split; [|exists []; now rewrite app_nil_r].
        unfold buffer_write in Eb. rewrite blit_ok in Eb by lia. cbn [bind] in Eb. injection Eb as <-.
        constructor; cbn [res inner buf mode set_write_dirty bpos write_dirty mem capacity]; change size_of with len; try assumption; try lia; try discriminate; try reflexivity.
        * unfold capacity in *. cbn [mem set_write_dirty]. change size_of with len in *. rewrite len_overwrite by lia. lia.
        * cbn [set_write_dirty mem bpos] in Y. change size_of with len in Y. rewrite W, Y, <- app_assoc. reflexivity.
    - assert (P0 : bpos (buf (res f)) = 0) by lia.
      assert (D : c = written) by (rewrite P0, take_0, app_nil_r in W; congruence).
      unfold file_ops. cbn [raw_write].
      destruct (raw_write_full pl (inner (res f)) q _ c (len c) d O (len_nonneg _) L B) as (s' & E & X1 & X2 & X3 & X4).
      rewrite E. cbn [bind]. eexists _, (c ++ d). split; [reflexivity|]. split; [exact X4|]. rewrite put_end, <- len_app in X1.
      split; [|now exists d]. constructor; cbn [res inner buf mode]; try assumption; try reflexivity.
      now rewrite P0, take_0, app_nil_r, D. }
  exists (File r' (path f) m), c'. unfold file_write. rewrite M.
  destruct m; try discriminate; rewrite E; cbn [bind]; split; [reflexivity| |reflexivity|]; cbn [res path]; auto.
Qed.

(* ------------------------------------------------------------------ the reader *)

(** More at the end of the file, or anything else if nothing of it is in the buffer. *)
Lemma reader_other : forall pl cap q m others p c at0 w w' g c' k, keeps pl cap q m others p (Store c at0) (in_world w g) ->
  descriptor (inner (res g)) = Some k -> table w' k = table w k -> disk w' q = Some c' -> len c' < 2 ^ 63 ->
  p = Resting \/ p = InReads /\ (exists x, c' = c ++ x) ->
  keeps pl cap q m (disk w') p (Store c' at0) (in_world w' g).
Proof.
  intros pl cap q m others p c at0 w w' g c' k [[(c0 & a & [(n & h & L & H) D] & A0 & I) K CM At Fi Ot U] Md] DS TB DK Len C.
  split; [|exact Md]. cbn [in_world with_sys res inner buf os descriptor filled_last bytes at_] in *.
  constructor; cbn [in_world with_sys res inner buf os descriptor filled_last bytes at_]; try assumption; [|reflexivity].
  exists c', a. split.
  - constructor; cbn [os descriptor]; [|exact DK]. exists n, h. split; [|exact H]. rewrite DS in *. unfold lookup in *. now rewrite TB.
  - split; [assumption|]. destruct C as [-> |[-> (x & ->)]]; cbn [in_stage bytes at_ in_world with_sys res inner buf os descriptor filled_last] in *.
    + destruct I as (_ & I). auto.
    + destruct I as (-> & I1 & I2 & I3 & I4 & I5 & I6 & I7 & I8).
      rewrite drop_app by lia. split; [reflexivity|]. repeat (split; [assumption|]).
      split; [rewrite len_app; pose proof (len_nonneg (drop (a - len c) x)); lia|].
      rewrite take_app_l by lia. assumption.
Qed.

(* ------------------------------------------------------------------- following *)

Record following (pl : platform) (wcap rcap : Z) (q : N) (mw mr : access_mode) (w : world) (f g : file)
    (c written : list N) (got : Z) : Prop := {
  fo_writer : tail pl wcap q mw c written (in_world w f);
  fo_reader : exists others p, keeps pl rcap q mr others p (Store c got) (in_world w g) /\ p <> InWrites;
  fo_apart : exists k1 k2, descriptor (inner (res f)) = Some k1 /\ descriptor (inner (res g)) = Some k2 /\ k1 <> k2;
  fo_path : path g = Some q;
  fo_kind : obliging w }.

Lemma in_world_twice : forall w w' f, in_world w (in_world w' f) = in_world w f.
Proof. intros w w' [[[? ? ?] ?] ? ?]. reflexivity. Qed.

Lemma tail_in_world : forall pl cap q m c written w w' f k, tail pl cap q m c written (in_world w f) ->
  descriptor (inner (res f)) = Some k -> table w' k = table w k -> disk w' q = disk w q ->
  tail pl cap q m c written (in_world w' f).
Proof.
  intros pl cap q m c written w w' f k [[(n & h & L & H) D] M K CM P Cl W] DS TB DK.
  cbn [in_world with_sys res inner buf os descriptor filled_last mode] in *.
  constructor; cbn [in_world with_sys res inner buf os descriptor filled_last mode]; try assumption.
  constructor; cbn [os descriptor]; [|congruence]. exists n, h. split; [|exact H]. rewrite DS in *. unfold lookup in *. now rewrite TB.
Qed.

Lemma writer_step : forall pl wcap rcap q mw mr w f g c written got call f1 a c' written',
  following pl wcap rcap q mw mr w f g c written got -> call_file pl (in_world w f) call = Ok (f1, a) ->
  obliging (os (inner (res f1))) -> tail pl wcap q mw c' written' f1 -> (exists x, c' = c ++ x) -> len c' < 2 ^ 63 ->
  following pl wcap rcap q mw mr (os (inner (res f1))) f1 g c' written' got.
Proof.
  intros pl wcap rcap q mw mr w f g c written got call f1 a c' written' [T (others & p & R & P) (k1 & k2 & D1 & D2 & N) Pa Ob] E B T' X L.
  destruct (call_file_tame _ _ _ _ _ E) as ([T1 (_ & _ & _ & T3 & _)] & _).
  cbn [in_world with_sys res inner os descriptor] in T1, T3.
  constructor; try assumption.
  - now rewrite in_world_id.
  - exists (disk (os (inner (res f1)))), p. split; [|exact P].
    eapply reader_other; [exact R|exact D2|apply T3; congruence|apply T'|exact L|]. destruct p; [now left|right; auto|congruence].
  - exists k1, k2. repeat split; try assumption. congruence.
Qed.

Lemma follow_step : forall pl wcap rcap q mw mr cs w f g c written got sure,
  following pl wcap rcap q mw mr w f g c written got -> mode_writes mw = true -> mode_reads mr = true ->
  Forall (moderate (chunk_max pl) rcap) cs -> len written + len (all_put cs) < 2 ^ 63 -> sure <= len c ->
  exists w' f' g' ds c', run_two pl w f g (follow_calls cs) =
      Ok (w', f', g', map Returned (put_answers cs), map Returned (got_each ds (gets cs))) /\
    pipe cs written sure got ds /\
    following pl wcap rcap q mw mr w' f' g' c' (written ++ all_put cs) (got + len (concat ds)).
Proof.
  intros pl wcap rcap q mw mr. induction cs as [|call cs IH]; intros w f g c written got sure F Mw Mr Mo L S.
  - exists w, f, g, [], c. cbn. rewrite app_nil_r, Z.add_0_r. split; [reflexivity|]. split; [constructor|exact F].
  - inversion Mo as [|? ? M1 M2]; subst. destruct call as [d| |block n]; cbn [moderate] in M1.
    + change (all_put (Put d :: cs)) with (d ++ all_put cs) in *. rewrite len_app in L.
      assert (F0 := F). destruct F as [T _ _ _ Ob].
      destruct (tail_write _ _ _ _ _ _ _ d T Mw Ob M1) as (f1 & c1 & E & B1 & T1 & X1 & _).
      assert (E' : call_file pl (in_world w f) (Write d) = Ok (f1, Returned (Wrote (len d)))) by (cbn [call_file]; rewrite E; reflexivity).
      assert (LC : len c1 <= len written + len d).
      { destruct T1 as [_ _ _ _ _ _ W]. apply (f_equal len) in W. rewrite !len_app in W. pose proof (len_nonneg (take (bpos (buf (res f1))) (mem (buf (res f1))))). lia. }
      pose proof (len_nonneg (all_put cs)).
      assert (F1 := writer_step _ _ _ _ _ _ _ _ _ _ _ _ _ _ _ _ _ F0 E' B1 T1 X1 ltac:(lia)).
      assert (LC1 : len c <= len c1) by (destruct X1 as (x & ->); rewrite len_app; pose proof (len_nonneg x); lia).
      destruct (IH _ _ _ _ _ _ sure F1 Mw Mr M2) as (w' & f' & g' & ds & c' & R & Pi & F'); [rewrite len_app; lia|lia|].
      exists w', f', g', ds, c'. change (follow_calls (Put d :: cs)) with ((true, Write d) :: follow_calls cs).
      cbn [run_two]. rewrite E'. cbn [bind]. rewrite R. cbn [bind]. split; [reflexivity|]. split; [now constructor|].
      rewrite app_assoc. exact F'.
    + change (all_put (Deliver :: cs)) with (all_put cs) in *.
      assert (F0 := F). destruct F as [T _ _ _ Ob].
      destruct (tail_flush _ _ _ _ _ _ _ T Ob) as (f1 & E & B1 & T1 & _ & _).
      assert (E' : call_file pl (in_world w f) Flush = Ok (f1, Returned Done)) by (cbn [call_file]; rewrite E; reflexivity).
      pose proof (len_nonneg (all_put cs)).
      assert (X1 : exists x, written = c ++ x) by (destruct T as [_ _ _ _ _ _ W]; eexists; exact W).
      assert (F1 := writer_step _ _ _ _ _ _ _ _ _ _ _ _ _ _ _ _ _ F0 E' B1 T1 X1 ltac:(lia)).
      destruct (IH _ _ _ _ _ _ (len written) F1 Mw Mr M2) as (w' & f' & g' & ds & c' & R & Pi & F'); [lia|lia|].
      exists w', f', g', ds, c'. change (follow_calls (Deliver :: cs)) with ((true, Flush) :: follow_calls cs).
      cbn [run_two]. rewrite E'. cbn [bind]. rewrite R. cbn [bind]. split; [reflexivity|]. split; [now constructor|]. exact F'.
    + change (all_put (Get block n :: cs)) with (all_put cs) in *.
      destruct F as [T (others & p & K & P) (k1 & k2 & D1 & D2 & Nk) Pa Ob].
      destruct (call_file_step pl rcap q mr others p (Store c got) (in_world w g) (Read block n) K Ob Mr) as (g1 & E & Pa1 & B1 & K1).
      { cbn [file_allowed]. tauto. }
      { congruence. }
      destruct (call_file_tame _ _ _ _ _ E) as ([T1 (_ & _ & _ & T3 & _)] & _).
      cbn [in_world with_sys res inner os descriptor] in T1, T3.
      cbn [file_call fst snd] in E, K1. unfold next_bytes in E, K1. cbn [bytes at_] in E, K1.
      set (d := take n (drop got c)) in *.
      assert (NW : next_stage rcap p (Read block n) <> InWrites) by (unfold next_stage; destruct (rcap =? 0); discriminate).
      assert (DQ : disk (os (inner (res g1))) q = disk w q).
      { destruct T as [[_ DT] _ _ _ _ _ _]. cbn [in_world with_sys res inner os] in DT. rewrite DT.
        destruct K1 as [KK _]. destruct (clean_disk _ _ _ _ _ _ _ _ _ KK (clean_unless_writing _ _ _ _ _ _ _ _ _ KK NW)) as [[_ Y]|[_ Y]]; exact Y. }
      assert (F1 : following pl wcap rcap q mw mr (os (inner (res g1))) f g1 c written (got + len d)).
      { constructor.
        - eapply tail_in_world; [exact T|exact D1|apply T3; congruence|exact DQ].
        - exists others, (next_stage rcap p (Read block n)). rewrite in_world_id. split; assumption.
        - exists k1, k2. repeat split; try assumption. congruence.
        - rewrite Pa1. exact Pa.
        - exact B1. }
      assert (PF : c = take (len c) written /\ len c <= len written).
      { destruct T as [_ _ _ _ _ _ W]. rewrite W. rewrite take_app_exact, len_app. split; [reflexivity|].
        pose proof (len_nonneg (take (bpos (buf (res (in_world w f)))) (mem (buf (res (in_world w f)))))). lia. }
      destruct PF as [PF1 PF2].
      destruct (IH _ _ _ _ _ _ (len c) F1 Mw Mr M2) as (w' & f' & g' & ds & c' & R & Pi & F'); [lia|lia|].
      exists w', f', g', (d :: ds), c'. change (follow_calls (Get block n :: cs)) with ((false, Read block n) :: follow_calls cs).
      cbn [run_two]. rewrite E. cbn [bind]. rewrite R. cbn [bind]. split; [reflexivity|]. split.
      * unfold d. rewrite PF1 at 1. apply PipeGet; [lia|]. rewrite <- PF1. exact Pi.
      * cbn [concat]. rewrite len_app, Z.add_assoc. exact F'.
Qed.
