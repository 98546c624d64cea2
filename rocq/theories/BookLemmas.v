(** Lemmas for C144. *)
From Coq Require Import NArith ZArith List Bool Lia ZifyBool ZifyNat ZifyN.
From Verif Require Import Base Integers UnicodeSpec UnicodeModel UnicodeText
  ResourceSpec ResourceModel ResourceText ResourceLemmas ResourceLemmas2 ResourceLemmas3
  StreamSpec StreamModel StreamText StreamLemmas StreamLemmas2 StreamLemmas3 StreamLemmas4 StreamLemmas5
  FileSpec FileModel FileText FileLemmas FileLemmas2 FileLemmas3 FileLemmas4
  TextFileSpec TextFileModel TextFileText TextFileLemmas TextFileLemmas2
  RecoverSpec RecoverModel RecoverLemmas SameText SameLemmas BookSpec BookText.
Import ListNotations.
Open Scope Z_scope.

(** A container resource with the bytes [l], of which [rest] are to come. *)
Definition fixed_left (cap : Z) (l rest : list N) (r : resource container) : Prop :=
  exists p, stands_for 1 cap p (Store l (len l - len rest)) r /\ (p = Neutral \/ p = Reading) /\
    drop (len l - len rest) l = rest.

Lemma fixed_good_source : forall cap l, good_source container_source (biggest_read cap) (fixed_left cap l).
Proof.
  intros cap l. split.
  - intros rest r block n (p & S & P & E) Np B. cbn [container_source source_read].
    assert (N : 0 <= n <= len block) by lia.
    destruct (read_step _ _ _ _ _ block n S N) as (r' & X & S').
    + unfold biggest_read in B. destruct (Z.eqb_spec cap 0); [left|right]; assumption.
    + assumption.
    + unfold next_bytes in *. cbn [at_ bytes] in *. rewrite E in *. exists r'. split; [exact X|].
      pose proof (sf_at _ _ _ _ _ S) as A. cbn [at_ bytes] in A.
      pose proof (len_nonneg rest). rewrite len_take in * by lia.
      assert (D : len l - len (drop n rest) = len l - len rest + Z.min n (len rest)).
      { rewrite len_drop by lia. lia. }
      unfold fixed_left. rewrite D. eexists. split; [exact S'|]. split; [destruct (cap =? 0); auto|].
      rewrite <- E at 3. rewrite <- drop_drop by lia. rewrite E. destruct (Z.le_ge_cases n (len rest)).
      * now rewrite Z.min_l by lia.
      * rewrite Z.min_r by lia. now rewrite !drop_all by lia.
  - intros rest r (p & S & P & E). cbn [container_source source_at_end]. f_equal.
    rewrite (at_end_ok _ _ _ _ _ S); [|now left|destruct P as [-> | ->]; discriminate]. cbn [at_ bytes]. lia.
Qed.

Lemma fixed_new : forall cap l, len l < 2 ^ 62 -> fixed_left (Z.of_nat cap) l l (new_resource l 1 cap).
Proof.
  intros cap l B. exists Neutral. rewrite Z.sub_diag. split; [|split; [now left|apply drop_0]].
  apply fresh; [lia|apply Z.divide_1_l|lia].
Qed.

Lemma fixed_tell : forall cap l rest r, fixed_left cap l rest r -> get_position r = len l - len rest /\ len rest <= len l /\
  rest = drop (len l - len rest) l.
Proof.
  intros cap l rest r (p & S & P & E). rewrite (position_ok _ _ _ _ _ S) by now left. split; [reflexivity|].
  pose proof (sf_at _ _ _ _ _ S) as A. cbn [at_ bytes] in A. split; [lia|now symmetry].
Qed.

Lemma fixed_go : forall cap l rest r i, fixed_left cap l rest r -> 0 <= i <= len l ->
  fixed_left cap l (drop i l) (seek_input r i FromBegin).
Proof.
  intros cap l rest r i (p & S & P & E) I. exists Neutral. rewrite len_drop by lia.
  replace (len l - Z.max 0 (len l - i)) with i by lia. split; [|split; [now left|reflexivity]].
  pose proof (seek_input_step 1 cap p (Store l (len l - len rest)) r i Begin S) as X. cbn [target bytes at_ reference] in X.
  rewrite Z.mul_1_r in X. apply X; [destruct P as [-> | ->]; reflexivity|exact I|discriminate].
Qed.

Lemma file_tell : forall Pr pl cap q m others c rest f, file_left Pr pl cap q m others c rest f ->
  file_position pl f = Ok (len c - len rest) /\ len rest <= len c /\ rest = drop (len c - len rest) c.
Proof.
  intros Pr pl cap q m others c rest f (p & s & K & Pa & Pw & Bs & At & Dr & Fr).
  pose proof (ff_at _ _ _ _ _ _ _ _ _ (proj1 K)) as A0.
  assert (L : len rest = len c - at_ s) by (rewrite <- Dr, len_drop by lia; lia).
  rewrite (file_position_ok _ _ _ _ _ _ _ _ K). split; [f_equal; lia|]. split; [lia|].
  rewrite L. replace (len c - (len c - at_ s)) with (at_ s) by lia. now symmetry.
Qed.

Lemma file_go_to : forall Pr pl cap q m others c rest f i, file_left Pr pl cap q m others c rest f -> 0 <= i <= len c -> len c < 2 ^ 62 ->
  exists f', file_seek pl f i FromBegin = Ok f' /\ file_left Pr pl cap q m others c (drop i c) f'.
Proof.
  intros Pr pl cap q m others c rest f i (p & s & [K Md] & Pa & Pw & Bs & At & Dr & Fr) I L.
  assert (W : write_dirty (buf (res f)) = false).
  { destruct (ff_open _ _ _ _ _ _ _ _ _ K) as (c' & a & _ & _ & X). destruct p; cbn [in_stage] in X; [tauto|tauto|congruence]. }
  unfold file_seek, flush. rewrite W. cbn [bind noexcept]. eexists. split; [reflexivity|].
  destruct (seek_file_raw pl cap q _ _ others p s (res f) i Begin K Pw ltac:(discriminate)) as (X1 & X2 & _).
  { cbn [file_target]. lia. }
  cbn [file_target reference] in X1, X2. exists Resting, (Store (bytes s) i). rewrite Bs in *. cbn [at_ bytes].
  split; [split; [exact X1|exact Md]|]. split; [exact Pa|]. split; [discriminate|]. split; [reflexivity|]. split; [lia|].
  split; [reflexivity|]. cbn [res inner]. rewrite X2. exact Fr.
Qed.

(** The place and the notes after some moves. *)
Fixpoint place_after {A : Type} (place : Z -> A * Z) (here : Z) (notes : list Z) (ms : list move) : Z :=
  match ms with
  | [] => here
  | Take :: ms => place_after place (snd (place here)) notes ms
  | Note :: ms => place_after place here (notes ++ [here]) ms
  | Return k :: ms => place_after place (nth k notes 0) notes ms
  end.

Definition is_note (m : move) : bool := match m with Note => true | _ => false end.

Lemma walk_app : forall A (place : Z -> A * Z) ms ms' here notes,
  walk place here notes (ms ++ ms')
  = let '(a, n) := walk place here notes ms in
    let '(b, n') := walk place (place_after place here notes ms) n ms' in (a ++ b, n').
Proof.
  intros A place. induction ms as [|[| |k] ms IH]; intros ms' here notes; cbn [app walk place_after].
  - now destruct (walk place here notes ms').
  - destruct (place here) as [a next]. cbn [snd]. rewrite IH. destruct (walk place next notes ms) as [l n].
    now destruct (walk place (place_after place next notes ms) n ms').
  - apply IH.
  - apply IH.
Qed.

Lemma walk_notes : forall A (place : Z -> A * Z) ms here notes,
  exists t, snd (walk place here notes ms) = notes ++ t /\ length t = length (filter is_note ms).
Proof.
  intros A place. induction ms as [|[| |k] ms IH]; intros here notes; cbn [walk filter is_note].
  - exists []. now rewrite app_nil_r.
  - destruct (place here) as [a next]. destruct (IH next notes) as (t & E & L). destruct (walk place next notes ms). exists t. now split.
  - destruct (IH here (notes ++ [here])) as (t & E & L). exists (here :: t). rewrite E, <- app_assoc. cbn. split; [reflexivity|now f_equal].
  - apply IH.
Qed.

Lemma walk_takes : forall A (place : Z -> A * Z) n here notes,
  walk place here notes (repeat Take n) = (fst (walk place here [] (repeat Take n)), notes) /\
  length (fst (walk place here [] (repeat Take n))) = n.
Proof.
  intros A place. induction n as [|n IH]; intros here notes; cbn [repeat walk]; [now split|].
  destruct (place here) as [a next]. destruct (IH next notes) as [E L], (IH next []) as [E0 _]. rewrite E, E0. cbn [fst].
  split; [reflexivity|]. cbn [length]. now f_equal.
Qed.

Lemma walk_again : forall A (place : Z -> A * Z) earlier n between,
  exists a b c notes,
  walk place 0 [] (earlier ++ Note :: repeat Take n ++ between ++ Return (length (filter is_note earlier)) :: repeat Take n)
  = (a ++ b ++ c ++ b, notes) /\ length b = n.
Proof.
  intros A place earlier n between. rewrite walk_app.
  destruct (walk_notes A place earlier 0 []) as (t & E & L).
  destruct (walk place 0 [] earlier) as [a n1]. cbn [snd app] in E. subst n1. set (i := place_after place 0 [] earlier).
  cbn [walk]. rewrite walk_app. destruct (walk_takes A place n i (t ++ [i])) as [Ei Li]. rewrite Ei.
  set (b := fst (walk place i [] (repeat Take n))) in *. set (j := place_after place i (t ++ [i]) (repeat Take n)).
  rewrite walk_app. destruct (walk_notes A place between j (t ++ [i])) as (t2 & E2 & _).
  destruct (walk place j (t ++ [i]) between) as [c n2]. cbn [snd] in E2. subst n2. cbn [walk].
  replace (nth (length (filter is_note earlier)) ((t ++ [i]) ++ t2) 0) with i.
  - destruct (walk_takes A place n i ((t ++ [i]) ++ t2)) as [Ek _]. rewrite Ek. fold b. now exists a, b, c, ((t ++ [i]) ++ t2).
  - rewrite <- L, <- app_assoc. cbn [app]. now rewrite nth_middle.
Qed.

Section Walking.
Context {R : Type} (native native' : byte_order) (ops : source R) (big : Z) (left : list N -> R -> Prop).
Context (tell : R -> outcome Z) (go : R -> Z -> outcome R) (l : list N) (e : encoding) (o : byte_order).
Context (G : good_source ops big left) (B : Z.of_nat (unit_width e) <= big).
Context (T : forall rest r, left rest r -> tell r = Ok (len l - len rest) /\ len rest <= len l /\ rest = drop (len l - len rest) l).
Context (J : forall rest r i, left rest r -> 0 <= i <= len l -> exists r', go r i = Ok r' /\ left (drop i l) r').
Context (Size : len l < 2 ^ 62) (Bytes : Forall byte l).

Lemma order_of_inj : forall a b, order_of a = order_of b -> a = b.
Proof. now intros [] []. Qed.

Lemma Forall_drop : forall i, Forall byte (drop i l).
Proof. intro i. unfold drop. apply Forall_forall. intros x X. rewrite Forall_forall in Bytes. apply Bytes.
  rewrite <- (firstn_skipn (Z.to_nat i) l). apply in_or_app. now right.
Qed.

(** One character is what a new stream finds here. *)
Lemma take_step : forall i st, 0 <= i <= len l -> before left e o (drop i l) st ->
  exists st' j r, kept_filtered (order_of native) ops st = (st', r) /\ found_at (order_of native') e o l i = (r, j) /\
    i <= j <= len l /\ before left e o (drop j l) st' /\ exists c x, r = Ok c \/ r = Throw x.
Proof.
  intros i st I H. set (d := drop i l) in *.
  assert (Ld : len d = len l - i) by (unfold d; rewrite len_drop by lia; lia).
  assert (Bd : Forall byte d) by apply Forall_drop.
  assert (B0 : Z.of_nat (unit_width e) <= biggest_read (Z.of_nat 0)) by (apply (unit_roomy 0 e); now left).
  pose proof (fixed_good_source (Z.of_nat 0) d) as G0.
  assert (H0 : before (fixed_left (Z.of_nat 0) d) e o d (open_input d 0 e o)).
  { split; [apply fixed_new; lia|]. split; reflexivity. }
  destruct (kept_filtered_agree native native' ops container_source _ _ _ _ G G0 e B B0 st (open_input d 0 e o)) as [E (o' & rest & K1 & K2)].
  { now exists o, d. }
  unfold found_at. fold d.
  pose proof (filtered_attempt native ops big left G e o d st H Bd B) as (st1 & rest1 & r & E1 & A1 & _ & _ & D).
  rewrite E1 in *. destruct (kept_filtered (order_of native') container_source (open_input d 0 e o)) as [st2 r2]. cbn [fst snd] in *. subst r2.
  assert (o' = o) as ->.
  { apply order_of_inj. destruct K1 as (_ & X & _), A1 as (_ & Y & _). congruence. }
  destruct K2 as (K2 & _ & _). destruct (fixed_tell _ _ _ _ K2) as (P & Le & Ed).
  assert (Er : rest = drop (i + get_position (in_res st2)) l).
  { rewrite P. rewrite <- drop_drop by (pose proof (len_nonneg rest); lia). exact Ed. }
  assert (In : i <= i + get_position (in_res st2) <= len l) by (pose proof (len_nonneg rest); lia).
  rewrite Er in K1.
  exists st1, (i + get_position (in_res st2)), r. split; [reflexivity|]. split; [reflexivity|]. split; [exact In|]. split; [exact K1|].
  destruct D as [[c ->]|[->|[-> _]]]; [exists c, ReadPastEnd; now left|exists 0%N; eexists; now right|exists 0%N; eexists; now right].
Qed.

Lemma moves_walk : forall ms i st notes, 0 <= i <= len l -> before left e o (drop i l) st -> Forall (fun p => 0 <= p <= len l) notes ->
  run_moves (order_of native) ops tell go st notes ms = Ok (walk (found_at (order_of native') e o l) i notes ms) /\
  Forall (fun r => exists c x, r = Ok c \/ r = Throw x) (fst (walk (found_at (order_of native') e o l) i notes ms)) /\
  Forall (fun p => 0 <= p <= len l) (snd (walk (found_at (order_of native') e o l) i notes ms)).
Proof.
  induction ms as [|[| |k] ms IH]; intros i st notes I H F; cbn [run_moves walk].
  - split; [reflexivity|]. split; [constructor|exact F].
  - destruct (take_step i st I H) as (st' & j & r & E & Ef & Ij & H' & Er). rewrite E, Ef.
    destruct (IH j st' notes ltac:(lia) H' F) as (X & Y & Z). rewrite X. cbn [bind].
    destruct (walk _ j notes ms) as [la n]. cbn [fst snd] in *. split; [reflexivity|]. split; [|exact Z].
    constructor; [exact Er|exact Y].
  - pose proof H as (H0 & _ & _). destruct (T _ _ H0) as (Et & _ & _). rewrite len_drop in Et by lia.
    replace (len l - Z.max 0 (len l - i)) with i in Et by lia. rewrite Et. cbn [bind].
    apply IH; [exact I|exact H|]. apply Forall_app. split; [exact F|]. constructor; [exact I|constructor].
  - assert (K : 0 <= nth k notes 0 <= len l).
    { destruct (nth_in_or_default k notes 0) as [X| ->]; [|lia]. rewrite Forall_forall in F. now apply F. }
    destruct H as (H0 & Ho & Hf). destruct (J _ _ _ H0 K) as (r' & E & H'). rewrite E. cbn [bind].
    apply IH; [exact K| |exact F]. split; [exact H'|]. split; assumption.
Qed.
End Walking.
