(** Proofs about tied objects that are copied and moved about. *)
From Coq Require Import NArith ZArith List Bool Lia ZifyBool ZifyNat ZifyN.
From Verif Require Import Base Integers ResourceModel ResourceSpec ResourceLemmas ResourceLemmas2 ResourceLemmas3
  ResourceLemmas4 SharedModel TieSpec TieModel TieText.
Import ListNotations.
Open Scope Z_scope.

(** An output that holds everything written to container c. *)
Definition writing (l : list N) (now : list N) (r : resource container) : Prop :=
  exists cap p, stands_for 1 cap p (Store l (len l)) (look_at r now) /\ (p = Neutral \/ p = Appending).

(** An input with that much left to read. *)
Definition reading_from (rest : list N) (cap : Z) (r : resource container) : Prop :=
  exists l a p, stands_for 1 cap p (Store l a) r /\ (p = Neutral \/ p = Reading) /\ rest = drop a l.

Record as_ideal (s : ideal) (w : world) : Prop := AsIdeal {
  ai_out : forall o c, writes_to s o = Some c ->
    exists r, outputs w o = Some (c, r) /\ writing (text s c) (holds w c) r;
  ai_one : forall o o' c, writes_to s o = Some c -> writes_to s o' = Some c -> o = o';
  ai_in : forall i rest cap tie, inputs s i = Some (rest, cap, tie) ->
    exists r, sources w i = Some (tie, r) /\ reading_from rest cap r }.

Lemma at_same : forall (A : Type) (f : N -> A) a v, at_name f a v a = v.
Proof. intros. unfold at_name. now rewrite N.eqb_refl. Qed.

Lemma at_other : forall (A : Type) (f : N -> A) a v x, x <> a -> at_name f a v x = f x.
Proof. intros A f a v x H. unfold at_name. apply N.eqb_neq in H. now rewrite H. Qed.

Lemma set_same : forall (A : Type) (f : N -> A) a v, set_at f a v a = v.
Proof. intros. unfold set_at. now rewrite N.eqb_refl. Qed.

Lemma set_other : forall (A : Type) (f : N -> A) a v x, x <> a -> set_at f a v x = f x.
Proof. intros A f a v x H. unfold set_at. apply N.eqb_neq in H. now rewrite H. Qed.

Lemma look_at_same : forall r, look_at r (content (inner r)) = r.
Proof. intros [[c e p f] b]. reflexivity. Qed.

Lemma look_at_twice : forall r l, look_at (look_at r l) (content (inner (look_at r l))) = look_at r l.
Proof. intros. apply look_at_same. Qed.

(** The steps of one output. *)
Lemma writing_new : forall cap, writing [] [] (new_resource [] 1 cap).
Proof.
  intros cap. exists (Z.of_nat cap), Neutral. split; [|auto].
  change (look_at (new_resource [] 1 cap) []) with (new_resource [] 1 cap).
  apply fresh; [lia|apply Z.divide_1_l|vm_compute; reflexivity].
Qed.

Lemma writing_flush : forall l now r, writing l now r ->
  exists r', flush container_ops (look_at r now) = Ok r' /\ content (inner r') = l /\
    writing l (content (inner r')) r'.
Proof.
  intros l now r (cap & p & S & P). destruct (flush_step _ _ _ _ _ S) as (r' & E & S'). exists r'.
  assert (S2 : stands_for 1 cap Neutral (Store l (len l)) r') by (destruct P as [-> | ->]; exact S').
  split; [exact E|]. split.
  - destruct S2 as [_ _ _ _ _ _ _ I]. cbn [in_phase bytes] in I. tauto.
  - exists cap, Neutral. rewrite look_at_same. auto.
Qed.

Lemma writing_write : forall l now r data, writing l now r -> len (l ++ data) * 2 < 2 ^ 63 ->
  exists r' k, write container_ops (look_at r now) data = Ok (r', k) /\
    writing (l ++ data) (content (inner r')) r'.
Proof.
  intros l now r d (cap & p & S & P) B. rewrite len_app in B.
  pose proof (len_nonneg l). pose proof (len_nonneg d).
  assert (Np : next_phase cap (Store l (len l)) p (Write d) = Neutral \/
               next_phase cap (Store l (len l)) p (Write d) = Appending).
  { unfold next_phase. cbn [at_ bytes]. rewrite Z.eqb_refl. destruct (cap =? 0); destruct P as [-> | ->]; auto. }
  destruct (write_step _ _ _ _ _ d S) as (r' & E & S').
  - destruct P; congruence.
  - cbn [bytes at_]. rewrite overwrite_end, len_app. lia.
  - cbn [bytes at_]. destruct Np as [-> | ->]; [right|]; try split; try reflexivity; apply Z.divide_1_l.
  - exists r', (len d). split; [exact E|]. cbn [bytes at_] in S'. rewrite overwrite_end in S'.
    replace (len l + len d) with (len (l ++ d)) in S' by apply len_app.
    exists cap, (next_phase cap (Store l (len l)) p (Write d)). rewrite look_at_same. auto.
Qed.

(** The steps of one input. *)
Lemma reading_new : forall data cap, len data * 2 < 2 ^ 63 ->
  reading_from data (Z.of_nat cap) (new_resource data 1 cap).
Proof.
  intros data cap B. exists data, 0, Neutral.
  split; [apply fresh; [lia|apply Z.divide_1_l|lia]|]. split; [auto|now rewrite drop_0].
Qed.

Lemma reading_read : forall rest cap r block n, reading_from rest cap r ->
  0 <= n <= len block -> cap = 0 \/ n <= cap ->
  exists r' b k, read container_ops r block n = Ok (r', b, k) /\ take k b = take n rest /\
    reading_from (drop n rest) cap r'.
Proof.
  intros rest cap r block n (l & a & p & S & P & ->) Hn C.
  destruct (read_step _ _ _ _ _ block n S Hn C P) as (r' & E & S'). cbn [bytes at_] in S'.
  assert (0 <= a) by (destruct S; cbn in *; lia).
  pose proof (len_nonneg (next_bytes (Store l a) n)).
  exists r', (next_bytes (Store l a) n ++ drop (len (next_bytes (Store l a) n)) block), (len (next_bytes (Store l a) n)).
  split; [exact E|]. split; [apply take_app_exact|].
  exists l, (a + len (next_bytes (Store l a) n)), (if cap =? 0 then Neutral else Reading).
  split; [exact S'|]. split; [destruct (cap =? 0); auto|].
  rewrite <- (drop_drop (len (next_bytes (Store l a) n)) a l) by lia. symmetry.
  unfold next_bytes. cbn [bytes at_]. apply drop_min. lia.
Qed.

(** One output changes. *)
Lemma output_changes : forall s w o c r l,
  as_ideal s w -> writes_to s o = Some c -> writing l (content (inner r)) r ->
  as_ideal (Ideal (writes_to s) (at_name (text s) c l) (inputs s))
    (World (set_at (holds w) c (content (inner r))) (set_at (outputs w) o (Some (c, r))) (sources w)).
Proof.
  intros s w o c r l [A1 A2 A3] O W. split; cbn [writes_to text inputs holds outputs sources].
  - intros x d X. destruct (N.eq_dec x o) as [->|X1].
    + rewrite O in X. injection X as <-. exists r. rewrite ?set_same, ?at_same. auto.
    + assert (d <> c) by (intros ->; apply X1; eapply A2; eassumption).
      destruct (A1 x d X) as (q & Q1 & Q2). exists q. rewrite ?set_other, ?at_other by assumption. auto.
  - exact A2.
  - exact A3.
Qed.

Lemma same_text : forall s w c, as_ideal (Ideal (writes_to s) (at_name (text s) c (text s c)) (inputs s)) w ->
  as_ideal s w.
Proof.
  intros s w c [A1 A2 A3]. split; [|exact A2|exact A3]. intros o d X. destruct (A1 o d X) as (r & R1 & R2).
  exists r. split; [exact R1|]. cbn [text] in R2. destruct (N.eq_dec d c) as [->|D].
  - now rewrite at_same in R2.
  - now rewrite at_other in R2 by assumption.
Qed.

Lemma flush_at_ok : forall s w o c, as_ideal s w -> writes_to s o = Some c ->
  exists w', flush_at w o = Ok w' /\ as_ideal s w' /\ container_of w' o = Some (text s c) /\ sources w' = sources w.
Proof.
  intros s w o c A O. destruct (ai_out _ _ A o c O) as (r & R & W).
  destruct (writing_flush _ _ _ W) as (r' & E & C & W'). unfold flush_at. rewrite R, E. cbn [bind].
  eexists. split; [reflexivity|]. split; [|split; [|reflexivity]].
  - apply same_text with (c := c). apply output_changes; assumption.
  - unfold container_of. cbn [outputs holds]. rewrite !set_same. cbn [option_map]. now rewrite set_same, C.
Qed.

(** An output is handed on. *)
Lemma output_handed_on : forall s w o o' c r q,
  as_ideal s w -> writes_to s o = Some c -> o <> o' -> outputs w o = Some (c, r) ->
  as_ideal (Ideal (at_name (at_name (writes_to s) o' (writes_to s o)) o None) (text s) (inputs s))
    (World (holds w) (set_at (set_at (outputs w) o' (Some (c, r))) o q) (sources w)).
Proof.
  intros s w o o' c r q [A1 A2 A3] O D R. split; cbn [writes_to text inputs holds outputs sources].
  - intros x d X. destruct (N.eq_dec x o) as [->|X1]; [rewrite at_same in X; discriminate|].
    rewrite at_other in X by assumption. rewrite set_other by assumption.
    destruct (N.eq_dec x o') as [->|X2].
    + rewrite at_same in X. rewrite set_same. rewrite X in O. injection O as <-.
      destruct (A1 o d X) as (q' & Q1 & Q2). rewrite R in Q1. injection Q1 as <-. eauto.
    + rewrite at_other in X by assumption. rewrite set_other by assumption. auto.
  - assert (K : forall x d, at_name (at_name (writes_to s) o' (writes_to s o)) o None x = Some d ->
        x = o' /\ writes_to s o = Some d \/ x <> o' /\ x <> o /\ writes_to s x = Some d).
    { intros x d X. destruct (N.eq_dec x o) as [->|X1]; [rewrite at_same in X; discriminate|].
      rewrite at_other in X by assumption. destruct (N.eq_dec x o') as [->|X2].
      - rewrite at_same in X. auto.
      - rewrite at_other in X by assumption. auto. }
    intros x y d X Y. apply K in X, Y. destruct X as [(-> & X)|(X1 & X2 & X)], Y as [(-> & Y)|(Y1 & Y2 & Y)].
    + reflexivity.
    + exfalso. apply Y2. eapply A2; eassumption.
    + exfalso. apply X2. eapply A2; eassumption.
    + eapply A2; eassumption.
  - exact A3.
Qed.

(** One input changes. *)
Lemma input_changes : forall s w i rest cap tie r,
  as_ideal s w -> reading_from rest cap r ->
  as_ideal (Ideal (writes_to s) (text s) (at_name (inputs s) i (Some (rest, cap, tie))))
    (World (holds w) (outputs w) (set_at (sources w) i (Some (tie, r)))).
Proof.
  intros s w i rest cap tie r [A1 A2 A3] R. split; cbn [writes_to text inputs holds outputs sources]; [exact A1|exact A2|].
  intros x rest' cap' tie' X. destruct (N.eq_dec x i) as [->|X1].
  - rewrite at_same in X. injection X as <- <- <-. rewrite set_same. eauto.
  - rewrite at_other in X by assumption. rewrite set_other by assumption. auto.
Qed.

(** One input goes. *)
Lemma input_goes : forall s w i v, as_ideal s w ->
  as_ideal (Ideal (writes_to s) (text s) (at_name (inputs s) i None))
    (World (holds w) (outputs w) (set_at (sources w) i v)).
Proof.
  intros s w i v [A1 A2 A3]. split; cbn [writes_to text inputs holds outputs sources]; [exact A1|exact A2|].
  intros x rest' cap' tie' X. destruct (N.eq_dec x i) as [->|X1].
  - rewrite at_same in X. discriminate.
  - rewrite at_other in X by assumption. rewrite set_other by assumption. auto.
Qed.

Lemma deed_ok : forall twice s w d, as_ideal s w -> sensible (twice = false) s d ->
  exists w' ans, do_deed twice w d = Ok (w', ans) /\ as_ideal (next s d) w' /\ seen w' d ans = expected s d.
Proof.
  intros twice s w d A Sn.
  destruct d as [o c cap|o o'|o o'|o|o data|o|i data cap|i o|i i'|i i'|i i'|i|i block n];
    cbn [sensible do_deed next expected] in *.
  - eexists _, _. split; [reflexivity|]. split; [|reflexivity]. destruct A as [A1 A2 A3].
    split; cbn [writes_to text inputs holds outputs sources].
    + intros x d X. destruct (N.eq_dec x o) as [->|X1].
      * rewrite at_same in X. injection X as <-. rewrite ?set_same, ?at_same. eexists. split; [reflexivity|]. apply writing_new.
      * rewrite at_other in X by assumption. assert (D : d <> c) by (intros ->; exact (Sn x X1 X)).
        rewrite ?set_other, ?at_other by assumption. auto.
    + assert (K : forall x d, at_name (writes_to s) o (Some c) x = Some d ->
          x = o /\ d = c \/ x <> o /\ d <> c /\ writes_to s x = Some d).
      { intros x d X. destruct (N.eq_dec x o) as [->|X1].
        - rewrite at_same in X. injection X as <-. auto.
        - rewrite at_other in X by assumption. right. split; [exact X1|]. split; [|exact X].
          intros ->. exact (Sn x X1 X). }
      intros x y d X Y. apply K in X, Y. destruct X as [(-> & X)|(X1 & X2 & X)], Y as [(-> & Y)|(Y1 & Y2 & Y)].
      * reflexivity.
      * contradiction.
      * contradiction.
      * eapply A2; eassumption.
    + exact A3.
  - destruct Sn as (O & D). destruct (writes_to s o) as [c|] eqn:E; [|congruence].
    destruct (ai_out _ _ A o c E) as (r & R & _). rewrite R. eexists _, _. split; [reflexivity|].
    split; [|reflexivity]. rewrite <- E. eapply output_handed_on; eassumption.
  - destruct Sn as (-> & O & D). destruct (writes_to s o) as [c|] eqn:E; [|congruence].
    destruct (ai_out _ _ A o c E) as (r & R & _). rewrite R. eexists _, _. split; [reflexivity|].
    split; [|reflexivity]. rewrite <- E. cbn [assigned]. eapply output_handed_on; eassumption.
  - eexists _, _. split; [reflexivity|]. split; [|reflexivity]. destruct A as [A1 A2 A3].
    split; cbn [writes_to text inputs holds outputs sources].
    + intros x d X. destruct (N.eq_dec x o) as [->|X1]; [rewrite at_same in X; discriminate|].
      rewrite at_other in X by assumption. rewrite set_other by assumption. auto.
    + intros x y d X Y.
      destruct (N.eq_dec x o) as [->|X1]; [rewrite at_same in X; discriminate|]. rewrite at_other in X by assumption.
      destruct (N.eq_dec y o) as [->|Y1]; [rewrite at_same in Y; discriminate|]. rewrite at_other in Y by assumption.
      eapply A2; eassumption.
    + exact A3.
  - destruct Sn as (c & O & B). rewrite O. destruct (ai_out _ _ A o c O) as (r & R & W).
    destruct (writing_write _ _ _ data W B) as (r' & k & E & W').
    unfold write_at. rewrite R, E. cbn [bind]. eexists _, _. split; [reflexivity|].
    split; [|reflexivity]. now apply output_changes.
  - destruct (writes_to s o) as [c|] eqn:E; [|congruence].
    destruct (flush_at_ok s w o c A E) as (w' & F & A' & C & _). rewrite F. cbn [bind].
    eexists _, _. split; [reflexivity|]. split; [exact A'|]. cbn [seen]. now rewrite C.
  - eexists _, _. split; [reflexivity|]. split; [|reflexivity]. apply input_changes; [exact A|]. now apply reading_new.
  - destruct (inputs s i) as [[[rest cap] tie]|] eqn:E; [|congruence].
    destruct (ai_in _ _ A _ _ _ _ E) as (r & R & F). rewrite R. eexists _, _. split; [reflexivity|].
    split; [|reflexivity]. now apply input_changes.
  - destruct (inputs s i) as [[[rest cap] tie]|] eqn:E; [|congruence].
    destruct (ai_in _ _ A _ _ _ _ E) as (r & R & F). rewrite R. eexists _, _. split; [reflexivity|].
    split; [|reflexivity]. now apply input_changes.
  - destruct Sn as (I & D). destruct (inputs s i) as [[[rest cap] tie]|] eqn:E; [|congruence].
    destruct (ai_in _ _ A _ _ _ _ E) as (r & R & F). rewrite R. eexists _, _. split; [reflexivity|].
    split; [|reflexivity].
    exact (input_goes _ _ i (Some (tie, moved_from r)) (input_changes s w i' rest cap tie r A F)).
  - destruct Sn as (-> & I & D). destruct (inputs s i) as [[[rest cap] tie]|] eqn:E; [|congruence].
    destruct (ai_in _ _ A _ _ _ _ E) as (r & R & F). rewrite R. eexists _, _. split; [reflexivity|].
    split; [|reflexivity]. cbn [assigned].
    exact (input_goes _ _ i (Some (tie, moved_from r)) (input_changes s w i' rest cap tie r A F)).
  - eexists _, _. split; [reflexivity|]. split; [|reflexivity]. now apply input_goes.
  - destruct Sn as (rest & cap & tie & I & Hn & C & T). rewrite I.
    destruct (ai_in _ _ A _ _ _ _ I) as (r & R & F).
    destruct (reading_read _ _ _ block n F Hn C) as (r' & b & k & Rd & Tk & F').
    unfold read_at. rewrite R. destruct tie as [o|]; cbn [sound_tie tied_text] in *.
    + destruct (writes_to s o) as [c|] eqn:E; [|congruence].
      destruct (flush_at_ok s w o c A E) as (w' & Fl & A' & Co & _). rewrite Fl. cbn [bind]. rewrite Rd. cbn [bind].
      eexists _, _. split; [reflexivity|]. split; [now apply input_changes|].
      cbn [seen]. rewrite Tk. unfold tied_container. cbn [sources]. rewrite set_same.
      unfold container_of in *. cbn [outputs holds]. rewrite Co. reflexivity.
    + cbn [bind]. rewrite Rd. cbn [bind]. eexists _, _. split; [reflexivity|]. split; [now apply input_changes|].
      cbn [seen]. rewrite Tk. unfold tied_container. cbn [sources]. now rewrite set_same.
Qed.

Lemma live_ok : forall twice ds s w, as_ideal s w -> all_sensible (twice = false) s ds ->
  live twice w ds = Ok (expectations s ds).
Proof.
  intros twice. induction ds as [|d ds IH]; intros s w A H; cbn [live expectations]; [reflexivity|].
  destruct H as (H1 & H2). destruct (deed_ok twice s w d A H1) as (w' & ans & E & A' & S). rewrite E. cbn [bind].
  rewrite (IH _ _ A' H2). cbn [bind]. now rewrite S.
Qed.

Lemma empty_ok : as_ideal nothing_yet empty_world.
Proof. split; cbn; intros; discriminate. Qed.
