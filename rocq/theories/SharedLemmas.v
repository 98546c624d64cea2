(** Resources on a container that is also used elsewhere. *)
From Coq Require Import NArith ZArith List Bool Lia ZifyBool ZifyNat ZifyN.
From Verif Require Import Base Integers ResourceSpec SharedSpec ResourceModel ResourceText SharedModel SharedText.
From Verif Require Import ResourceLemmas ResourceLemmas2 ResourceLemmas3 ResourceLemmas4.
Import ListNotations.
Open Scope Z_scope.

Lemma look_same : forall r, look_at r (content (inner r)) = r.
Proof. intros [[c e p f] b]. reflexivity. Qed.

Lemma content_of : forall w cap p s r, stands_for w cap p s r -> writing p = false -> content (inner r) = bytes s.
Proof. intros w cap p s r [_ _ _ _ _ _ _ I] P. destruct p; try discriminate; cbn [in_phase] in I; tauto. Qed.

(** A read gives the next bytes. *)
Lemma taken : forall s n block, 
  take (len (next_bytes s n)) (next_bytes s n ++ drop (len (next_bytes s n)) block) = next_bytes s n.
Proof. intros. apply take_app_exact. Qed.

(* --------------------------------------------------------------------- owner *)

(** Without a buffer only the position matters. *)
Lemma unbuffered_change : forall w s r l, stands_for w 0 Neutral s r -> at_ s <= len l -> (w | len l) ->
  len l * (w + 1) < 2 ^ 63 -> stands_for w 0 Neutral (Store l (at_ s)) (look_at r l).
Proof.
  intros w s [c b] l [W E K D A B U I] L D' B'. cbn [in_phase inner buf] in *.
  destruct I as (I1 & I2 & I3 & I4 & I5 & I6).
  unfold look_at. cbn [inner buf]. apply neutral_intro; cbn [content elem position last_fill bytes at_]; try assumption; try reflexivity. lia.
Qed.

Lemma owner_unbuffered : forall w cs s r, stands_for w 0 Neutral s (look_at r (bytes s)) ->
  within w s cs -> never_shorter w s cs ->
  exists r', run_owner r (bytes s) cs = Ok (r', fetched w s cs).
Proof.
  intros w. induction cs as [|c cs IH]; intros s r S A L.
  - eexists. reflexivity.
  - destruct c as [l|block n|n o]; cbn [run_owner fetched within never_shorter] in *.
    + destruct A as (A1 & A2 & A3). destruct L as (L1 & L2).
      apply (IH (Store l (at_ s)) r); try assumption.
      exact (unbuffered_change _ _ _ l S L1 A1 A2).
    + destruct A as (A1 & A2).
      destruct (read_step _ _ _ _ _ block n S A1 (or_introl eq_refl) (or_introl eq_refl)) as (r' & E & S').
      rewrite E. cbn [bind]. change (0 =? 0) with true in S'. cbn iota in S'.
      destruct (IH (Store (bytes s) (at_ s + len (next_bytes s n))) r') as (r2 & E2); try assumption.
      { cbn [bytes]. assert (X := content_of _ _ _ _ _ S' eq_refl). cbn [bytes] in X. rewrite <- X, look_same. rewrite X. exact S'. }
      cbn [bytes] in E2. rewrite E2. cbn [bind]. rewrite taken. eexists. reflexivity.
    + destruct A as (A1 & A2).
      assert (S' := seek_input_step _ _ _ _ _ n o S eq_refl A1 ltac:(discriminate)).
      now apply (IH (Store (bytes s) (target w s n o))).
Qed.

(** Setting the position from the beginning or the end makes the resource look at
    what is there now. *)
Lemma seek_changed : forall w cap p s r l a n o, stands_for w cap p s r -> writing p = false -> o <> Current ->
  (w | len l) -> len l * (w + 1) < 2 ^ 63 -> 0 <= target w (Store l a) n o <= len l ->
  stands_for w cap Neutral (Store l (target w (Store l a) n o)) (seek_input (look_at r l) n (reference o)).
Proof.
  intros w cap p s [c b] l a n o [W E K D A B U I] P O D' B' T. unfold seek_input, look_at. cbn [inner buf].
  cbn [inner buf] in *.
  assert (Wd : write_dirty b = false) by (destruct p; try discriminate; cbn [in_phase inner buf] in I; tauto).
  assert (Q : match reference o with
      | FromBegin => n * elem c
      | FromCurrent => position c + n * elem c
      | FromEnd => (size_of l / elem c - n) * elem c
      end = target w (Store l a) n o).
  { rewrite E. change size_of with len. destruct o; cbn [reference target bytes]; try reflexivity; [congruence|].
    destruct D' as [k D']. rewrite D'. rewrite Z.div_mul by lia. lia. }
  unfold set_position_raw. cbn [content elem position]. rewrite Q. rewrite convert_I64 by nia.
  apply neutral_intro; cbn [content elem position last_fill bytes at_ set_read_dirty read_dirty write_dirty bpos]; try assumption; try reflexivity.
Qed.

Lemma owner_buffered : forall w cap cs s r changed p l0 a0,
  stands_for w cap p (Store l0 a0) (look_at r l0) -> writing p = false ->
  (w | len (bytes s)) -> len (bytes s) * (w + 1) < 2 ^ 63 ->
  (changed = false -> s = Store l0 a0) ->
  within w s cs -> repositioned cap changed cs ->
  exists r', run_owner r (bytes s) cs = Ok (r', fetched w s cs).
Proof.
  intros w cap. induction cs as [|c cs IH]; intros s r changed p l0 a0 S P D B H A L.
  - eexists. reflexivity.
  - destruct c as [l|block n|n o]; cbn [run_owner fetched within repositioned] in *.
    + destruct A as (A1 & A2 & A3).
      apply (IH (Store l (at_ s)) r true p l0 a0); try assumption. discriminate.
    + destruct A as (A1 & A2). destruct L as (L1 & L2 & L3). specialize (H L1). subst s. cbn [bytes at_] in *.
      assert (Ph : p = Neutral \/ p = Reading) by (destruct p; auto; discriminate).
      destruct (read_step _ _ _ _ _ block n S A1 (or_intror L2) Ph) as (r' & E & S').
      rewrite E. cbn [bind]. cbn [bytes at_] in S'.
      assert (P' : writing (if cap =? 0 then Neutral else Reading) = false) by (destruct (cap =? 0); reflexivity).
      assert (X := content_of _ _ _ _ _ S' P'). cbn [bytes] in X.
      destruct (IH (Store l0 (a0 + len (next_bytes (Store l0 a0) n))) r' false _ l0 (a0 + len (next_bytes (Store l0 a0) n))
        ltac:(rewrite <- X, look_same, X; exact S') P' D B ltac:(reflexivity) A2 L3) as (r2 & E2).
      cbn [bytes] in E2. rewrite E2. cbn [bind]. rewrite taken. eexists. reflexivity.
    + destruct A as (A1 & A2). destruct L as (L1 & L2). destruct s as [l a]. cbn [bytes at_] in *.
      assert (S' := seek_changed _ _ _ _ _ l a n o S P L1 D B A1).
      assert (X := content_of _ _ _ _ _ S' eq_refl). cbn [bytes] in X.
      refine (IH (Store l (target w (Store l a) n o)) _ false Neutral l _ _ eq_refl D B _ A2 L2).
      * rewrite <- X at 2. rewrite look_same. exact S'.
      * reflexivity.
Qed.

(* ---------------------------------------------------------------------- pipe *)

(** What is appended to the container does not disturb a reader. *)
Lemma reader_grows : forall w cap p l x a r, stands_for w cap p (Store l a) (look_at r l) -> writing p = false ->
  (w | len (l ++ x)) -> len (l ++ x) * (w + 1) < 2 ^ 63 ->
  stands_for w cap p (Store (l ++ x) a) (look_at r (l ++ x)).
Proof.
  intros w cap p l x a [c b] [W E K D A B U I] P D' B'. cbn [look_at inner buf bytes at_ elem] in *.
  pose proof (len_nonneg x). assert (Lx := len_app l x).
  constructor; cbn [look_at inner buf bytes at_ elem]; try assumption; try lia.
  destruct p; try discriminate; unfold look_at in *; cbn [in_phase inner buf bytes at_ content elem position last_fill] in *.
  - tauto.
  - destruct I as (_ & I2 & I3 & I4 & I5 & I6 & I7 & I8 & I9 & I10).
    split; [reflexivity|]. do 7 (split; [assumption || lia|]). split; [lia|].
    rewrite I10. rewrite drop_app by lia. rewrite take_app by lia.
    assert (Y : filled b - len (drop (a - bpos b) l) <= 0) by (rewrite len_drop by lia; lia).
    replace (take (filled b - len (drop (a - bpos b) l)) (drop (a - bpos b - len l) x)) with (@nil N).
    + now rewrite app_nil_r.
    + unfold take. replace (Z.to_nat _) with 0%nat by lia. reflexivity.
Qed.

(** A container only gets longer. *)
Lemma blit_len : forall m off d m', blit m off d = Ok m' -> len m' = len m.
Proof.
  intros m off d m' H. unfold blit in H. change size_of with len in H.
  destruct ((0 <=? off) && (off + len d <=? len m)) eqn:X; try discriminate. injection H as <-.
  assert (0 <= off /\ off + len d <= len m) as [X1 X2] by lia. pose proof (len_nonneg d).
  change (firstn (Z.to_nat off) m) with (take off m). change (skipn (Z.to_nat (off + len d)) m) with (drop (off + len d) m).
  rewrite !len_app, len_take, len_drop by lia. lia.
Qed.

Lemma container_write_longer : forall c d c' k, container_write c d = Ok (c', k) -> len (content c) <= len (content c').
Proof.
  intros c d c' k H. unfold container_write in H.
  destruct (blit _ (position c) d) as [m| | | |] eqn:X; try discriminate. cbn [bind] in H. injection H as <- <-.
  cbn [content]. rewrite (blit_len _ _ _ _ X). destruct (size_of (content c) <? _); [|lia].
  rewrite len_app. pose proof (len_nonneg (repeat 0%N (Z.to_nat (size_of d / elem c * elem c)))). lia.
Qed.

Lemma flush_longer : forall r r', flush container_ops r = Ok r' -> len (content (inner r)) <= len (content (inner r')).
Proof.
  intros r r' H. unfold flush in H. destruct (write_dirty (buf r)); [|injection H as <-; lia].
  destruct (slice _ _ _) as [d| | | |]; try discriminate. cbn [bind] in H. unfold container_ops in H. cbn [raw_write] in H.
  destruct (container_write (inner r) d) as [[c k]| | | |] eqn:X; try discriminate. cbn [bind] in H. injection H as <-.
  cbn [inner]. exact (container_write_longer _ _ _ _ X).
Qed.

Lemma write_longer : forall r d r' k, write container_ops r d = Ok (r', k) ->
  len (content (inner r)) <= len (content (inner r')).
Proof.
  assert (Raw : forall c b d r' k, bind (raw_write container_ops c d) (fun '(s, k) => Ok (Resource s b, k)) = Ok (r', k) ->
    len (content c) <= len (content (inner r'))).
  { intros c b d r' k H. unfold container_ops in H. cbn [raw_write] in H.
    destruct (container_write c d) as [[c' k']| | | |] eqn:X; try discriminate. cbn [bind] in H. injection H as <- <-.
    exact (container_write_longer _ _ _ _ X). }
  intros r d r' k H. unfold write in H. destruct (0 <? capacity (buf r)); [|exact (Raw _ _ _ _ _ H)].
  unfold write_buffered in H.
  assert (F : exists r1, (if capacity (buf r) <? bpos (buf r) + size_of d then flush container_ops r else Ok r) = Ok r1 /\
    len (content (inner r)) <= len (content (inner r1))).
  { destruct (capacity (buf r) <? bpos (buf r) + size_of d).
    - destruct (flush container_ops r) as [r1| | | |] eqn:X; try discriminate. exists r1. split; [reflexivity|].
      exact (flush_longer _ _ X).
    - exists r. split; [reflexivity|lia]. }
  destruct F as (r1 & E & L). rewrite E in H. cbn [bind] in H.
  destruct ((capacity (buf r) <? bpos (buf r) + size_of d) && (capacity (buf r) <? size_of d)).
  - apply Raw in H. lia.
  - destruct (buffer_write (buf r1) d) as [b| | | |]; try discriminate. cbn [bind] in H. injection H as <- <-. exact L.
Qed.

Lemma prefix_of_both : forall (a b x y : list N), a ++ x = b ++ y -> len a <= len b -> exists z, b = a ++ z.
Proof.
  intros a b x y H L. exists (drop (len a) b). 
  assert (T : take (len a) (b ++ y) = a) by (rewrite <- H; apply take_app_exact).
  rewrite take_app_l in T by (pose proof (len_nonneg a); lia). rewrite <- T at 1. symmetry. apply take_drop.
Qed.

Definition piped (w wcap rcap : Z) (written : list N) (got : Z) (s : shared) : Prop :=
  exists po p, stands_for w wcap po (Store written (len written)) (writer s) /\ (po = Neutral \/ po = Appending) /\
    owned s = content (inner (writer s)) /\
    stands_for w rcap p (Store (owned s) got) (look_at (reader s) (owned s)) /\ writing p = false.

Lemma delivered_whole : forall w cap p l r, stands_for w cap p (Store l (len l)) r -> p = Neutral \/ p = Appending ->
  (w | len (content (inner r))) /\ exists rest, l = content (inner r) ++ rest.
Proof.
  intros w cap p l r [W E K D A B U I] [-> | ->]; cbn [in_phase bytes at_] in *.
  - destruct I as (I1 & _). rewrite I1. split; [assumption|]. exists []. now rewrite app_nil_r.
  - destruct I as (I1 & I2 & I3 & I4 & I5 & I6 & I7 & I8). split; [|eauto].
    assert (Q : len l = len (content (inner r)) + bpos (buf r)) by lia.
    destruct D as [x D]. destruct I7 as [y Y]. exists (x - y). lia.
Qed.

(** The writer's part of a step. *)
Lemma piped_writer : forall w wcap rcap written got s po r' written',
  piped w wcap rcap written got s ->
  stands_for w wcap po (Store written' (len written')) r' -> po = Neutral \/ po = Appending ->
  (exists d, written' = written ++ d) -> len (content (inner (writer s))) <= len (content (inner r')) ->
  piped w wcap rcap written' got (Shared (content (inner r')) r' (reader s)).
Proof.
  intros w wcap rcap written got s po r' written' (po0 & p & S & Po & O & R & P) S' Po' [d D] L.
  exists po, p. cbn [writer owned reader]. split; [exact S'|]. split; [exact Po'|]. split; [reflexivity|].
  split; [|exact P].
  destruct (delivered_whole _ _ _ _ _ S Po) as (_ & x & X). destruct (delivered_whole _ _ _ _ _ S' Po') as (Wh & y & Y).
  destruct (prefix_of_both (content (inner (writer s))) (content (inner r')) (x ++ d) y) as [z Z]; [|exact L|].
  { rewrite app_assoc, <- X, <- D. exact Y. }
  rewrite Z in *. rewrite O in R. apply reader_grows; try assumption.
  assert (B := sf_fits _ _ _ _ _ S'). assert (W := sf_width _ _ _ _ _ S'). cbn [bytes] in B. rewrite Y, len_app in B.
  pose proof (len_nonneg y). pose proof (len_nonneg (content (inner (writer s)) ++ z)). nia.
Qed.

Lemma piped_look : forall w wcap rcap written got s, piped w wcap rcap written got s ->
  look_at (writer s) (owned s) = writer s.
Proof. intros w wcap rcap written got s (po & p & S & Po & O & R & P). rewrite O. apply look_same. Qed.

Lemma piped_put : forall w wcap rcap written got s d, piped w wcap rcap written got s ->
  (w | len d) -> (len written + len d) * (w + 1) < 2 ^ 63 ->
  exists s' k, shared_write s d = Ok (s', k) /\ piped w wcap rcap (written ++ d) got s' /\
    len (owned s) <= len (owned s').
Proof.
  intros w wcap rcap written got s d V D B. unfold shared_write. rewrite (piped_look _ _ _ _ _ _ V).
  assert (V' := V). destruct V' as (po & p & S & Po & O & R & P).
  assert (Np : next_phase wcap (Store written (len written)) po (Write d) = Neutral \/
               next_phase wcap (Store written (len written)) po (Write d) = Appending).
  { unfold next_phase. cbn [at_ bytes]. rewrite Z.eqb_refl. destruct (wcap =? 0); destruct Po as [-> | ->]; auto. }
  destruct (write_step _ _ _ _ _ d S) as (r' & E & S').
  - destruct Po; congruence.
  - cbn [bytes at_]. rewrite overwrite_end, len_app. lia.
  - cbn [bytes at_]. destruct Np as [-> | ->]; [right|]; try split; try reflexivity; assumption.
  - rewrite E. cbn [bind]. cbn [bytes at_] in S'. rewrite overwrite_end in S'.
    replace (len written + len d) with (len (written ++ d)) in S' by apply len_app.
    assert (L := write_longer _ _ _ _ E). eexists. eexists. split; [reflexivity|]. split.
    + apply (piped_writer _ _ _ _ _ _ _ _ _ V S' Np); [eauto|exact L].
    + cbn [owned]. rewrite O. exact L.
Qed.

Lemma piped_flush : forall w wcap rcap written got s, piped w wcap rcap written got s ->
  exists s', shared_flush s = Ok s' /\ piped w wcap rcap written got s' /\ owned s' = written.
Proof.
  intros w wcap rcap written got s V. unfold shared_flush. rewrite (piped_look _ _ _ _ _ _ V).
  assert (V' := V). destruct V' as (po & p & S & Po & O & R & P).
  destruct (flush_step _ _ _ _ _ S) as (r' & E & S').
  assert (S2 : stands_for w wcap Neutral (Store written (len written)) r') by (destruct Po; subst; exact S').
  rewrite E. cbn [bind]. assert (L := flush_longer _ _ E). eexists. split; [reflexivity|]. split.
  - apply (piped_writer _ _ _ _ _ _ _ _ _ V S2 (or_introl eq_refl)); [exists []; now rewrite app_nil_r|exact L].
  - cbn [owned]. exact (content_of _ _ _ _ _ S2 eq_refl).
Qed.

Lemma piped_get : forall w wcap rcap written got s block n, piped w wcap rcap written got s ->
  0 <= n <= len block -> rcap = 0 \/ n <= rcap ->
  let d := take n (drop got (owned s)) in
  exists s' b k, shared_read s block n = Ok (s', b, k) /\ take k b = d /\
    piped w wcap rcap written (got + len d) s' /\ owned s' = owned s.
Proof.
  intros w wcap rcap written got s block n (po & p & S & Po & O & R & P) N C d. unfold shared_read.
  assert (Ph : p = Neutral \/ p = Reading) by (destruct p; auto; discriminate).
  destruct (read_step _ _ _ _ _ block n R N C Ph) as (r' & E & S').
  change (next_bytes (Store (owned s) got) n) with d in *. cbn [bytes at_] in *.
  rewrite E. cbn [bind]. do 3 eexists. split; [reflexivity|]. split; [apply take_app_exact|]. split; [|reflexivity].
  assert (P' : writing (if rcap =? 0 then Neutral else Reading) = false) by (destruct (rcap =? 0); reflexivity).
  assert (X := content_of _ _ _ _ _ S' P'). cbn [bytes] in X.
  exists po, (if rcap =? 0 then Neutral else Reading). cbn [writer reader owned].
  split; [exact S|]. split; [exact Po|]. split; [exact O|]. split; [|exact P'].
  rewrite <- X, look_same, X. exact S'.
Qed.

Lemma piped_prefix : forall w wcap rcap written got s, piped w wcap rcap written got s ->
  owned s = take (len (owned s)) written /\ len (owned s) <= len written.
Proof.
  intros w wcap rcap written got s (po & p & S & Po & O & R & P).
  destruct (delivered_whole _ _ _ _ _ S Po) as (_ & x & X). rewrite <- O in X. split.
  - rewrite X. now rewrite take_app_exact.
  - rewrite X, len_app. pose proof (len_nonneg x). lia.
Qed.

Lemma pipe_runs : forall w wcap rcap cs written got sure s, piped w wcap rcap written got s ->
  Forall (proper w) cs -> rcap = 0 \/ Forall (at_most rcap) cs ->
  (len written + len (all_put cs)) * (w + 1) < 2 ^ 63 -> sure <= len (owned s) ->
  exists s' answers, run_pipe shared_read s cs = Ok (s', answers) /\ pipe cs written sure got answers /\
    piped w wcap rcap (written ++ all_put cs) (got + len (concat answers)) s'.
Proof.
  intros w wcap rcap. induction cs as [|c cs IH]; intros written got sure s V F C B L.
  - exists s, []. split; [reflexivity|]. split; [constructor|].
    cbn [all_put flat_map concat]. rewrite app_nil_r. change (len []) with 0. now rewrite Z.add_0_r.
  - apply Forall_cons_iff in F. destruct F as [Fc Fs].
    assert (Cs : rcap = 0 \/ Forall (at_most rcap) cs) by (destruct C as [C|C]; [auto|right; now apply Forall_cons_iff in C]).
    assert (W : 1 <= w) by (destruct V as (po & p & S & _); exact (sf_width _ _ _ _ _ S)).
    pose proof (len_nonneg written). pose proof (len_nonneg (all_put cs)).
    destruct c as [d| |block n]; cbn [run_pipe proper at_most] in *.
    + change (all_put (Put d :: cs)) with (d ++ all_put cs) in *. rewrite len_app in B. pose proof (len_nonneg d).
      destruct (piped_put _ _ _ _ _ _ d V Fc ltac:(nia)) as (s1 & k & E & V1 & L1). rewrite E. cbn [bind].
      destruct (IH (written ++ d) got sure s1 V1 Fs Cs) as (s2 & ans & R & Q & V2).
      { rewrite len_app. lia. } { lia. }
      exists s2, ans. split; [exact R|]. split; [constructor; exact Q|]. rewrite app_assoc. exact V2.
    + change (all_put (Deliver :: cs)) with (all_put cs) in *.
      destruct (piped_flush _ _ _ _ _ _ V) as (s1 & E & V1 & O1). rewrite E. cbn [bind].
      destruct (IH written got (len written) s1 V1 Fs Cs B) as (s2 & ans & R & Q & V2).
      { rewrite O1. lia. }
      exists s2, ans. split; [exact R|]. split; [constructor; exact Q|exact V2].
    + change (all_put (Get block n :: cs)) with (all_put cs) in *.
      assert (Cn : rcap = 0 \/ n <= rcap) by (destruct C as [C|C]; [auto|right; now apply Forall_cons_iff in C]).
      destruct (piped_get _ _ _ _ _ _ block n V Fc Cn) as (s1 & b & k & E & T & V1 & O1). rewrite E. cbn [bind].
      destruct (piped_prefix _ _ _ _ _ _ V) as (Pf & Pl).
      destruct (IH written _ (len (owned s)) s1 V1 Fs Cs B) as (s2 & ans & R & Q & V2).
      { rewrite O1. lia. }
      rewrite R. cbn [bind]. eexists. eexists. split; [reflexivity|]. split.
      * rewrite T. rewrite Pf in Q at 2 |- *. 
        apply (PipeGet block n cs written sure got (len (owned s)) ans); [lia|]. exact Q.
      * cbn [concat]. rewrite T, len_app, Z.add_assoc. exact V2.
Qed.

(** With the writer tied to the reader. *)
Lemma queue_runs : forall w wcap rcap cs written got s, piped w wcap rcap written got s ->
  Forall (proper w) cs -> rcap = 0 \/ Forall (at_most rcap) cs ->
  (len written + len (all_put cs)) * (w + 1) < 2 ^ 63 ->
  exists s', run_pipe shared_read_tied s cs = Ok (s', queue (drop got written) cs).
Proof.
  intros w wcap rcap. induction cs as [|c cs IH]; intros written got s V F C B.
  - eexists. reflexivity.
  - apply Forall_cons_iff in F. destruct F as [Fc Fs].
    assert (Cs : rcap = 0 \/ Forall (at_most rcap) cs) by (destruct C as [C|C]; [auto|right; now apply Forall_cons_iff in C]).
    assert (W : 1 <= w) by (destruct V as (po & p & S & _); exact (sf_width _ _ _ _ _ S)).
    assert (Gt : 0 <= got <= len written).
    { destruct (piped_prefix _ _ _ _ _ _ V) as (_ & Pl). destruct V as (po & p & S & Po & O & R & P).
      assert (A := sf_at _ _ _ _ _ R). cbn [at_ bytes] in A. lia. }
    pose proof (len_nonneg written). pose proof (len_nonneg (all_put cs)).
    destruct c as [d| |block n]; cbn [run_pipe proper at_most queue] in *.
    + change (all_put (Put d :: cs)) with (d ++ all_put cs) in *. rewrite len_app in B. pose proof (len_nonneg d).
      destruct (piped_put _ _ _ _ _ _ d V Fc ltac:(nia)) as (s1 & k & E & V1 & L1). rewrite E. cbn [bind].
      destruct (IH (written ++ d) got s1 V1 Fs Cs) as (s2 & R). { rewrite len_app. lia. }
      exists s2. rewrite R. rewrite drop_app by lia.
      replace (drop (got - len written) d) with d; [reflexivity|].
      unfold drop. replace (Z.to_nat (got - len written)) with 0%nat by lia. reflexivity.
    + change (all_put (Deliver :: cs)) with (all_put cs) in *.
      destruct (piped_flush _ _ _ _ _ _ V) as (s1 & E & V1 & O1). rewrite E. cbn [bind].
      exact (IH written got s1 V1 Fs Cs B).
    + change (all_put (Get block n :: cs)) with (all_put cs) in *.
      assert (Cn : rcap = 0 \/ n <= rcap) by (destruct C as [C|C]; [auto|right; now apply Forall_cons_iff in C]).
      unfold shared_read_tied at 1. destruct (piped_flush _ _ _ _ _ _ V) as (s0 & E0 & V0 & O0). rewrite E0. cbn [bind].
      destruct (piped_get _ _ _ _ _ _ block n V0 Fc Cn) as (s1 & b & k & E & T & V1 & O1). rewrite E. cbn [bind].
      destruct (IH written _ s1 V1 Fs Cs B) as (s2 & R). rewrite R. cbn [bind]. exists s2. rewrite T, O0. f_equal. f_equal. f_equal. f_equal.
      pose proof (len_nonneg (take n (drop got written))).
      rewrite <- drop_drop by lia. apply drop_min. lia.
Qed.

(** What the relation says about all of the bytes. *)
Lemma pipe_prefix : forall cs written sure got answers, pipe cs written sure got answers ->
  0 <= got <= sure -> sure <= len written ->
  exists rest, drop got (written ++ all_put cs) = concat answers ++ rest.
Proof.
  intros cs written sure got answers H. induction H as [written sure got|data cs written sure got answers H IH|cs written sure got answers H IH|block n cs written sure got delivered answers A d H IH]; intros G L.
  - eexists. reflexivity.
  - change (all_put (Put data :: cs)) with (data ++ all_put cs). rewrite app_assoc. apply IH; [assumption|].
    rewrite len_app. pose proof (len_nonneg data). lia.
  - change (all_put (Deliver :: cs)) with (all_put cs). apply IH; lia.
  - change (all_put (Get block n :: cs)) with (all_put cs). cbn [concat].
    assert (Ld : 0 <= len d <= delivered - got).
    { split; [apply len_nonneg|]. unfold d. unfold take at 1, len. rewrite firstn_length.
      assert (X := len_drop got (take delivered written) ltac:(lia)). rewrite len_take in X by lia. unfold len in X. lia. }
    destruct IH as (rest & R); [lia|lia|]. exists rest.
    rewrite <- drop_drop in R by lia. rewrite <- (take_drop (len d) (drop got (written ++ all_put cs))).
    rewrite R, app_assoc. f_equal. f_equal.
    (* the part that was got *)
    rewrite drop_app by lia. rewrite take_app_l by (rewrite len_drop by lia; lia).
    assert (Z : d = take (len d) (drop got (take delivered written))) by (unfold d; now rewrite take_len_take).
    rewrite Z at 2. rewrite <- (take_drop delivered written) at 1. rewrite drop_app by (rewrite ?len_take; lia).
    rewrite take_app_l; [reflexivity|]. rewrite len_drop, len_take by lia. lia.
Qed.

Lemma pipe_all : forall block n cs written sure got answers,
  pipe (cs ++ [Deliver; Get block n]) written sure got answers ->
  0 <= got <= sure -> sure <= len written -> len written + len (all_put cs) <= n ->
  drop got (written ++ all_put cs) = concat answers.
Proof.
  intros block n. induction cs as [|c cs IH]; intros written sure got answers H G L N.
  - cbn [app all_put flat_map] in *. rewrite app_nil_r. change (len []) with 0 in N.
    inversion H as [| |? ? ? ? ? H1|]; subst. inversion H1 as [| | |? ? ? ? ? ? dl ? A d H2 J1 J2 J3 J4]; subst.
    inversion H2; subst. cbn [concat]. rewrite app_nil_r. unfold d.
    rewrite (take_all dl) by lia. symmetry. apply take_all. rewrite len_drop by lia. lia.
  - assert (Lc := len_nonneg (all_put cs)). destruct c as [d| |b m]; cbn [app] in H.
    + change (all_put (Put d :: cs)) with (d ++ all_put cs) in *. rewrite len_app in N. pose proof (len_nonneg d).
      inversion H; subst. rewrite app_assoc. apply (IH _ sure); try assumption; rewrite len_app; lia.
    + change (all_put (Deliver :: cs)) with (all_put cs) in *. inversion H; subst.
      apply (IH _ (len written)); try assumption; lia.
    + change (all_put (Get b m :: cs)) with (all_put cs) in *.
      inversion H as [| | |? ? ? ? ? ? dl ans A d H2 J1 J2 J3 J4]; subst. cbn [concat].
      assert (Ld : 0 <= len d <= dl - got).
      { split; [apply len_nonneg|]. unfold d. unfold take at 1, len. rewrite firstn_length.
        assert (X := len_drop got (take dl written) ltac:(lia)). rewrite len_take in X by lia. unfold len in X. lia. }
      assert (R := IH written dl (got + len d) ans H2 ltac:(lia) ltac:(lia) N).
      rewrite <- drop_drop in R by lia. rewrite <- (take_drop (len d) (drop got (written ++ all_put cs))).
      rewrite R. f_equal.
      rewrite drop_app by lia. rewrite take_app_l by (rewrite len_drop by lia; lia).
      assert (Z : d = take (len d) (drop got (take dl written))) by (unfold d; now rewrite take_len_take).
      rewrite Z at 2. rewrite <- (take_drop dl written) at 1. rewrite drop_app by (rewrite ?len_take; lia).
      rewrite take_app_l; [reflexivity|]. rewrite len_drop, len_take by lia. lia.
Qed.

(** Going to the end first. *)
Lemma piped_start : forall w wcap rcap l, 1 <= w -> (w | len l) -> len l * (w + 1) < 2 ^ 63 ->
  exists s, shared_seek (share l w wcap rcap) 0 FromEnd = Ok s /\
    piped w (Z.of_nat wcap) (Z.of_nat rcap) l 0 s /\ owned s = l.
Proof.
  intros w wcap rcap l W D B. unfold shared_seek, share. cbn [writer owned reader].
  assert (S := fresh w wcap l W D B). assert (Q := fresh w rcap l W D B). pose proof (len_nonneg l).
  change (look_at (new_resource l w wcap) l) with (new_resource l w wcap).
  destruct (seek_output_step _ _ _ _ _ 0 End S) as (r' & E & S'); [discriminate|cbn [target bytes]; lia|].
  change (reference End) with FromEnd in E. rewrite E. cbn [bind bytes target] in *.
  replace (len l - 0 * w) with (len l) in S' by lia. eexists. split; [reflexivity|]. cbn [owned].
  assert (X := content_of _ _ _ _ _ S' eq_refl). cbn [bytes] in X. split; [|exact X].
  exists Neutral, Neutral. cbn [writer reader owned]. split; [exact S'|]. split; [auto|]. split; [reflexivity|].
  rewrite X. split; [exact Q|reflexivity].
Qed.

(** The end as the reader sees it. *)
Lemma piped_end : forall wcap rcap written got s, piped 1 wcap rcap written got s ->
  is_at_end (look_at (reader s) (owned s)) = (got =? len (owned s)).
Proof.
  intros wcap rcap written got s (po & p & S & Po & O & R & P).
  apply (at_end_ok _ _ _ _ _ R); [auto|]. destruct p; try discriminate.
Qed.

(* --------------------------------------------------------------------- rounds *)

Lemma put_all_ok : forall w cap ds written po s,
  stands_for w cap po (Store written (len written)) (writer s) -> po = Neutral \/ po = Appending ->
  owned s = content (inner (writer s)) -> Forall (fun d => (w | len d)) ds ->
  (len written + len (concat ds)) * (w + 1) < 2 ^ 63 ->
  exists s' po', put_all s ds = Ok s' /\ (po' = Neutral \/ po' = Appending) /\
    stands_for w cap po' (Store (written ++ concat ds) (len (written ++ concat ds))) (writer s') /\
    owned s' = content (inner (writer s')).
Proof.
  intros w cap. induction ds as [|d ds IH]; intros written po s S Po O F B.
  - cbn [concat put_all]. rewrite app_nil_r. eauto 10.
  - cbn [concat put_all] in *. rewrite len_app in B. apply Forall_cons_iff in F. destruct F as [Fd Fs].
    assert (W := sf_width _ _ _ _ _ S).
    pose proof (len_nonneg written). pose proof (len_nonneg d). pose proof (len_nonneg (concat ds)).
    unfold shared_write. rewrite O, look_same.
    assert (Np : next_phase cap (Store written (len written)) po (Write d) = Neutral \/
                 next_phase cap (Store written (len written)) po (Write d) = Appending).
    { unfold next_phase. cbn [at_ bytes]. rewrite Z.eqb_refl. destruct (cap =? 0); destruct Po as [-> | ->]; auto. }
    destruct (write_step _ _ _ _ _ d S) as (r' & E & S').
    + destruct Po; congruence.
    + cbn [bytes at_]. rewrite overwrite_end, len_app. nia.
    + cbn [bytes at_]. destruct Np as [-> | ->]; [right|]; try split; try reflexivity; assumption.
    + rewrite E. cbn [bind]. cbn [bytes at_] in S'. rewrite overwrite_end in S'.
      replace (len written + len d) with (len (written ++ d)) in S' by apply len_app.
      rewrite app_assoc. apply (IH (written ++ d) _ (Shared (content (inner r')) r' (reader s)) S' Np); try assumption; [reflexivity|].
      rewrite len_app. lia.
Qed.

Lemma rounds_ok : forall w cap rs s, stands_for w cap Neutral (Store [] 0) (writer s) -> owned s = [] ->
  Forall (Forall (fun d => (w | len d))) rs -> Forall (fun ds => len (concat ds) * (w + 1) < 2 ^ 63) rs ->
  rounds true s rs = Ok (map (@concat N) rs).
Proof.
  intros w cap. induction rs as [|ds rs IH]; intros s S O F B; [reflexivity|].
  apply Forall_cons_iff in F. destruct F as [Fd Fs]. apply Forall_cons_iff in B. destruct B as [Bd Bs].
  cbn [rounds map]. change (Store [] 0) with (Store [] (len [])) in S.
  assert (C := content_of _ _ _ _ _ S eq_refl). cbn [bytes] in C.
  destruct (put_all_ok w cap ds [] Neutral s S (or_introl eq_refl) ltac:(congruence) Fd) as (s1 & po & E & Po & S1 & O1).
  { change (len []) with 0. exact Bd. }
  cbn [app] in S1. rewrite E. cbn [bind].
  unfold shared_flush. rewrite O1, look_same. destruct (flush_step _ _ _ _ _ S1) as (r' & E' & S').
  assert (S2 : stands_for w cap Neutral (Store (concat ds) (len (concat ds))) r') by (destruct Po; subst; exact S').
  rewrite E'. cbn [bind owned writer reader]. unfold shared_seek at 1. cbn [owned writer reader].
  (* an empty container and the old position *)
  assert (T : exists r2, seek_output (look_at r' []) 0 FromBegin = Ok r2 /\ stands_for w cap Neutral (Store [] 0) r2).
  { destruct S2 as [W El K D A B U I]. cbn [in_phase] in I. destruct I as (I1 & I2 & I3 & I4 & I5 & I6).
    destruct r' as [c b]. cbn [inner buf] in *. unfold seek_output, flush, look_at. cbn [inner buf]. rewrite I5. cbn [bind noexcept inner buf].
    eexists. split; [reflexivity|]. unfold set_position_raw. cbn [content elem position]. rewrite Z.mul_0_l.
    apply neutral_intro; cbn [content elem position last_fill bytes at_]; try assumption; try reflexivity.
    - exists 0. reflexivity.
    - split; [lia|]. change (len []) with 0. lia. }
  destruct T as (r2 & E2 & S3). rewrite E2. cbn [bind].
  rewrite (IH (Shared (content (inner r2)) r2 (reader s1)) S3); try assumption.
  - cbn [bind]. f_equal. f_equal. exact (content_of _ _ _ _ _ S2 eq_refl).
  - cbn [owned]. exact (content_of _ _ _ _ _ S3 eq_refl).
Qed.
