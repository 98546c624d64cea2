(** Strings in pieces. *)
From Coq Require Import NArith ZArith List Bool Lia ZifyBool ZifyNat ZifyN.
From Verif Require Import Base UnicodeSpec UnicodeModel UnicodeText.
From Verif Require Import UnicodeLemmas UnicodeLemmas2 UnicodeLemmas3 UnicodeLemmas4 PairSpec PairText PairLemmas.
Import ListNotations.
Open Scope N_scope.

Lemma nth_shift : forall (s t : list N) i, nth_error (s ++ t) (length s + i) = nth_error t i.
Proof. intros s t i. rewrite nth_error_app2 by lia. f_equal. lia. Qed.

Lemma eqb_shift : forall (s t : list N) i, Nat.eqb (length s + i) (length (s ++ t)) = Nat.eqb i (length t).
Proof. intros s t i. rewrite app_length. destruct (Nat.eqb_spec i (length t)); [apply Nat.eqb_eq; lia|apply Nat.eqb_neq; lia]. Qed.

Lemma ref_finish8_shift : forall n v s t i, ref_finish8 n v (s ++ t) (length s + i) = ref_finish8 n v t i.
Proof.
  induction n as [|n IH]; intros v s t i; cbn [ref_finish8]; [reflexivity|]. rewrite <- Nat.add_assoc, eqb_shift, nth_shift.
  destruct (Nat.eqb (i + 1) (length t)); [reflexivity|]. destruct (nth_error t (i + 1)) as [u|]; [|reflexivity].
  destruct (negb (is_trailing_byte u)); [reflexivity|]. apply IH.
Qed.

Lemma deref_shift : forall k s t i, deref k (s ++ t) (length s + i) = deref k t i.
Proof.
  intros k s t i. unfold deref, ref_decode8, ref_decode16. rewrite eqb_shift, nth_shift.
  destruct (Nat.eqb i (length t)); [reflexivity|]. destruct (class_of k); [reflexivity| |]; destruct (nth_error t i) as [u|]; try reflexivity.
  - destruct (initialize_utf8_sequence u) as [[n v]| | | |]; try reflexivity. apply ref_finish8_shift.
  - destruct (initialize_utf16_sequence u) as [[n v]| | | |]; try reflexivity. cbn [bind]. unfold ref_finish16.
    rewrite <- Nat.add_assoc, eqb_shift, nth_shift. reflexivity.
Qed.

Definition moved (n : nat) (x : nat * outcome unit) : nat * outcome unit := ((n + fst x)%nat, snd x).

Lemma ptr_inc_shift : forall s t i, ptr_inc (s ++ t) (length s + i) = moved (length s) (ptr_inc t i).
Proof.
  intros s t i. unfold ptr_inc, moved. rewrite app_length.
  destruct (Nat.ltb_spec i (length t)), (Nat.ltb_spec (length s + i) (length s + length t)); try lia; cbn [fst snd]; f_equal; lia.
Qed.

Lemma adv_finish8_shift : forall n s t i, adv_finish8 n (s ++ t) (length s + i) = moved (length s) (adv_finish8 n t i).
Proof.
  induction n as [|n IH]; intros s t i; cbn [adv_finish8]; [apply ptr_inc_shift|]. rewrite eqb_shift, <- Nat.add_assoc, nth_shift.
  destruct (Nat.eqb i (length t)); [reflexivity|]. destruct (nth_error t (i + 1)) as [u|]; [|reflexivity].
  destruct (negb (is_trailing_byte u)); [reflexivity|]. rewrite ptr_inc_shift. unfold ptr_inc, moved.
  destruct (Nat.ltb i (length t)); cbn [then_ fst snd]; [|reflexivity]. apply IH.
Qed.

Lemma advance_shift : forall k s t i, advance k (s ++ t) (length s + i) = moved (length s) (advance k t i).
Proof.
  intros k s t i. unfold advance, advance8, advance16. destruct (class_of k); [apply ptr_inc_shift| |]; rewrite nth_shift;
    destruct (nth_error t i) as [u|]; try reflexivity.
  - destruct (initialize_utf8_sequence u) as [[n v]| | | |]; try reflexivity. apply adv_finish8_shift.
  - destruct (initialize_utf16_sequence u) as [[n v]| | | |]; try reflexivity. unfold adv_finish16.
    rewrite eqb_shift, <- Nat.add_assoc, nth_shift, ptr_inc_shift. destruct (Nat.eqb n 2); [|reflexivity].
    destruct (Nat.eqb i (length t)); [reflexivity|]. destruct (nth_error t (i + 1)) as [w|]; [|reflexivity].
    destruct (negb (is_trailing_surrogate w)); reflexivity.
Qed.

Lemma visit_shift : forall fuel k s t i, visit_from fuel k (s ++ t) (length s + i) = visit_from fuel k t i.
Proof.
  induction fuel as [|fuel IH]; intros k s t i; cbn [visit_from]; [reflexivity|]. rewrite eqb_shift, deref_shift, advance_shift.
  destruct (Nat.eqb i (length t)); [reflexivity|]. destruct (deref k t i); try reflexivity.
  unfold moved. destruct (advance k t i) as [j [[]| | | |]]; cbn [fst snd]; try reflexivity. now rewrite IH.
Qed.

(** What has been read does not depend on what follows. *)
Lemma nth_grow : forall (s t : list N) i u, nth_error s i = Some u -> nth_error (s ++ t) i = Some u.
Proof. intros s t i u H. rewrite nth_error_app1; [exact H|]. apply nth_error_Some. congruence. Qed.

Lemma nth_in : forall (s : list N) i u, nth_error s i = Some u -> Nat.eqb i (length s) = false.
Proof. intros s i u H. apply Nat.eqb_neq. assert (i < length s)%nat by (apply nth_error_Some; congruence). lia. Qed.

Lemma ref_finish8_grow : forall n v s t i c, ref_finish8 n v s i = Ok c -> ref_finish8 n v (s ++ t) i = Ok c.
Proof.
  induction n as [|n IH]; intros v s t i c; cbn [ref_finish8]; [tauto|]. destruct (Nat.eqb (i + 1) (length s)); [discriminate|].
  destruct (nth_error s (i + 1)) as [u|] eqn:E; [|discriminate]. rewrite (nth_grow _ t _ _ E), (nth_in _ _ _ (nth_grow _ t _ _ E)).
  destruct (negb (is_trailing_byte u)); [discriminate|]. apply IH.
Qed.

Lemma deref_grow : forall k s t i c, deref k s i = Ok c -> deref k (s ++ t) i = Ok c.
Proof.
  intros k s t i c. unfold deref, ref_decode8, ref_decode16. destruct (Nat.eqb i (length s)); [discriminate|].
  destruct (nth_error s i) as [u|] eqn:E; [|destruct (class_of k); discriminate].
  rewrite (nth_grow _ t _ _ E), (nth_in _ _ _ (nth_grow _ t _ _ E)). destruct (class_of k); [tauto| |].
  - destruct (initialize_utf8_sequence u) as [[n v]| | | |]; try discriminate. apply ref_finish8_grow.
  - destruct (initialize_utf16_sequence u) as [[n v]| | | |]; try discriminate. cbn [bind]. unfold ref_finish16.
    destruct (Nat.eqb n 2); [|tauto]. destruct (Nat.eqb (i + 1) (length s)); [discriminate|].
    destruct (nth_error s (i + 1)) as [w|] eqn:E2; [|discriminate].
    now rewrite (nth_grow _ t _ _ E2), (nth_in _ _ _ (nth_grow _ t _ _ E2)).
Qed.

Lemma ptr_inc_grow : forall s t i j, ptr_inc s i = (j, Ok tt) -> ptr_inc (s ++ t) i = (j, Ok tt) /\ (j <= length s)%nat.
Proof.
  intros s t i j. unfold ptr_inc. rewrite app_length. destruct (Nat.ltb_spec i (length s)); [|discriminate]. intro E. injection E as <-.
  destruct (Nat.ltb_spec i (length s + length t)); [split; [reflexivity|lia]|lia].
Qed.

Lemma adv_finish8_grow : forall n s t i j, adv_finish8 n s i = (j, Ok tt) -> adv_finish8 n (s ++ t) i = (j, Ok tt) /\ (j <= length s)%nat.
Proof.
  induction n as [|n IH]; intros s t i j; cbn [adv_finish8]; [apply ptr_inc_grow|]. destruct (Nat.eqb i (length s)); [discriminate|].
  destruct (nth_error s (i + 1)) as [u|] eqn:E; [|discriminate]. rewrite (nth_grow _ t _ _ E).
  assert (L : (i + 1 < length s)%nat) by (apply nth_error_Some; congruence).
  replace (Nat.eqb i (length (s ++ t))) with false by (rewrite app_length; symmetry; apply Nat.eqb_neq; lia).
  destruct (negb (is_trailing_byte u)); [discriminate|].
  destruct (ptr_inc s i) as [i' [[]| | | |]] eqn:P; cbn [then_]; try discriminate.
  destruct (ptr_inc_grow _ t _ _ P) as [P' _]. rewrite P'. cbn [then_]. apply IH.
Qed.

Lemma advance_grow : forall k s t i j, advance k s i = (j, Ok tt) -> advance k (s ++ t) i = (j, Ok tt) /\ (j <= length s)%nat.
Proof.
  intros k s t i j. unfold advance, advance8, advance16. destruct (class_of k); [apply ptr_inc_grow| |];
    (destruct (nth_error s i) as [u|] eqn:E; [|discriminate]); rewrite (nth_grow _ t _ _ E).
  - destruct (initialize_utf8_sequence u) as [[n v]| | | |]; try discriminate. apply adv_finish8_grow.
  - destruct (initialize_utf16_sequence u) as [[n v]| | | |]; try discriminate. unfold adv_finish16.
    destruct (Nat.eqb n 2); [|apply ptr_inc_grow]. destruct (Nat.eqb i (length s)); [discriminate|].
    destruct (nth_error s (i + 1)) as [w|] eqn:E2; [|discriminate]. rewrite (nth_grow _ t _ _ E2).
    rewrite (nth_in _ _ _ (nth_grow _ t _ _ E)). destruct (negb (is_trailing_surrogate w)); [discriminate|]. apply ptr_inc_grow.
Qed.

(** More fuel changes nothing: an iteration that ended ends the same way. *)
Lemma visit_grow : forall fuel k s t i l, (i <= length s)%nat -> visit_from fuel k s i = (l, Ok tt) ->
  forall more, exists fuel', (length t <= more)%nat -> visit_from (fuel + more) k (s ++ t) i =
    (let '(m, r) := visit_from fuel' k t 0 in (l ++ m, r)) /\ (length t < fuel')%nat.
Proof.
  induction fuel as [|fuel IH]; intros k s t i l Hi; cbn [visit_from]; [discriminate|]. intros H more.
  destruct (Nat.eqb_spec i (length s)) as [->|Ne].
  - injection H as <-. exists (S (fuel + more)). intro L. cbn [Nat.add]. split; [|lia].
    pose proof (visit_shift (S (fuel + more)) k s t 0) as V. rewrite Nat.add_0_r in V. rewrite V.
    now destruct (visit_from (S (fuel + more)) k t 0).
  - cbn [Nat.add]. destruct (deref k s i) as [c| | | |] eqn:D; try discriminate.
    destruct (advance k s i) as [j [[]| | | |]] eqn:A; try discriminate.
    destruct (visit_from fuel k s j) as [l' r] eqn:V. injection H as <- ->.
    destruct (advance_grow _ _ t _ _ A) as [A' J]. destruct (IH k s t j l' J V more) as (fuel' & F). exists fuel'. intro L.
    destruct (F L) as [F1 F2]. split; [|exact F2]. cbn [visit_from].
    replace (Nat.eqb i (length (s ++ t))) with false by (rewrite app_length; symmetry; apply Nat.eqb_neq; lia).
    rewrite (deref_grow _ _ t _ _ D), A', F1. destruct (visit_from fuel' k t 0). reflexivity.
Qed.

Lemma ptr_inc_step : forall s i j r, ptr_inc s i = (j, r) -> (r = Ok tt -> i < j <= length s)%nat.
Proof. intros s i j r. unfold ptr_inc. destruct (Nat.ltb_spec i (length s)); intro E; injection E as <- <-; [lia|discriminate]. Qed.

Lemma adv_finish8_step : forall n s i j, adv_finish8 n s i = (j, Ok tt) -> (i < j)%nat.
Proof.
  induction n as [|n IH]; intros s i j; cbn [adv_finish8]; [intro H; apply ptr_inc_step in H; [lia|reflexivity]|].
  destruct (Nat.eqb i (length s)); [discriminate|]. destruct (nth_error s (i + 1)); [|discriminate].
  destruct (negb (is_trailing_byte n0)); [discriminate|].
  destruct (ptr_inc s i) as [i' [[]| | | |]] eqn:P; cbn [then_]; try discriminate. intro H. apply IH in H. apply ptr_inc_step in P; [lia|reflexivity].
Qed.

Lemma advance_step : forall k s i j, advance k s i = (j, Ok tt) -> (i < j <= length s)%nat.
Proof.
  intros k s i j H. assert (J := proj2 (advance_grow k s [] i j H)). split; [|exact J]. revert H.
  unfold advance, advance8, advance16. destruct (class_of k).
  - intro H. apply ptr_inc_step in H; [lia|reflexivity].
  - destruct (nth_error s i); [|discriminate]. destruct (initialize_utf8_sequence n) as [[? ?]| | | |]; try discriminate. apply adv_finish8_step.
  - destruct (nth_error s i); [|discriminate]. destruct (initialize_utf16_sequence n) as [[x ?]| | | |]; try discriminate.
    unfold adv_finish16. assert (P : forall j, ptr_inc s i = (j, Ok tt) -> (i < j)%nat) by (intros j' H; apply ptr_inc_step in H; [lia|reflexivity]).
    destruct (Nat.eqb x 2); [|apply P]. destruct (Nat.eqb i (length s)); [discriminate|]. destruct (nth_error s (i + 1)); [|discriminate].
    destruct (negb (is_trailing_surrogate n1)); [discriminate|apply P].
Qed.

Lemma visit_enough : forall f1 k s i f2, (i <= length s)%nat -> (length s - i < f1)%nat -> (length s - i < f2)%nat -> visit_from f1 k s i = visit_from f2 k s i.
Proof.
  induction f1 as [|f1 IH]; intros k s i f2 Hi F1 F2; [lia|]. destruct f2 as [|f2]; [lia|]. cbn [visit_from].
  destruct (Nat.eqb_spec i (length s)); [reflexivity|]. destruct (deref k s i); try reflexivity.
  destruct (advance k s i) as [j [[]| | | |]] eqn:A; try reflexivity. pose proof (advance_step _ _ _ _ A).
  rewrite (IH k s j f2) by lia. reflexivity.
Qed.

Lemma visit_append : forall k s t l, visit k s = (l, Ok tt) -> visit k (s ++ t) = (let '(m, r) := visit k t in (l ++ m, r)).
Proof.
  intros k s t l H. unfold visit in *. destruct (visit_grow _ k s t 0 l (Nat.le_0_l _) H (length t)) as (fuel' & F).
  destruct (F ltac:(lia)) as [F1 F2]. rewrite (visit_enough (S (length t)) k t 0 fuel') by lia. rewrite <- F1.
  apply visit_enough; rewrite ?app_length; lia.
Qed.

Lemma append_one : forall ko res c, exists u r, append_code_point ko res c = (res ++ u, r) /\ (forall res', append_code_point ko res' c = (res' ++ u, r)) /\ (r = Ok tt \/ r = Throw InvalidCodePoint /\ ko = K8).
Proof.
  assert (I0 : forall s u, str_insert s (length s) u = (s ++ [u], Ok tt)).
  { intros s u. unfold str_insert. rewrite Nat.ltb_irrefl, firstn_all, skipn_all. reflexivity. }
  assert (I1 : forall s u v n, n = length s -> str_insert (s ++ u) (n + length u) v = (s ++ u ++ [v], Ok tt)).
  { intros s u v n ->. rewrite <- app_length, I0, <- app_assoc. reflexivity. }
  intros ko res c.
  assert (X : exists u r, (forall res', append_code_point ko res' c = (res' ++ u, r)) /\ (r = Ok tt \/ r = Throw InvalidCodePoint /\ ko = K8)).
  { unfold append_code_point, insert_code_point. destruct ko as [b| | | | |].
    - exists [to_char8 c], (Ok tt). split; [intro; apply I0|now left].
    - destruct (negb (is_code_point_valid c)); [exists [], (Throw InvalidCodePoint); split; [intro; now rewrite app_nil_r|now right]|].
      destruct (fits_in_7_bits c); [eexists [_], (Ok tt); split; [intro; apply I0|now left]|].
      destruct (c <=? 0x7FF); [|destruct (c <=? 0xFFFF)].
      + eexists [_; _], (Ok tt). split; [|now left]. intro s. rewrite I0. cbn [then_].
        pose proof (I1 s [to_char8 (N.lor (N.shiftr c 6) 192)] (to_char8 (N.lor (N.land c 63) 128)) _ eq_refl) as E. cbn [length app] in E. rewrite E. reflexivity.
      + eexists [_; _; _], (Ok tt). split; [|now left]. intro s. rewrite I0. cbn [then_].
        pose proof (I1 s [to_char8 (N.lor (N.shiftr c 12) 224)] (to_char8 (N.lor (N.land (N.shiftr c 6) 63) 128)) _ eq_refl) as E.
        cbn [length app] in E. rewrite E. cbn [then_].
        match goal with |- str_insert (s ++ ?u) _ ?v = _ => pose proof (I1 s u v _ eq_refl) as E2 end.
        cbn [length app] in E2. rewrite E2. reflexivity.
      + eexists [_; _; _; _], (Ok tt). split; [|now left]. intro s. rewrite I0. cbn [then_].
        match goal with |- context [str_insert (s ++ ?u) _ ?v] => pose proof (I1 s u v _ eq_refl) as E; cbn [length app] in E; rewrite E; cbn [then_]; clear E end.
        match goal with |- context [str_insert (s ++ ?u) _ ?v] => pose proof (I1 s u v _ eq_refl) as E; cbn [length app] in E; rewrite E; cbn [then_]; clear E end.
        match goal with |- context [str_insert (s ++ ?u) _ ?v] => pose proof (I1 s u v _ eq_refl) as E; cbn [length app] in E; rewrite E; cbn [then_]; clear E end.
        reflexivity.
    - destruct (negb (is_surrogate c) && (c <=? maximum_bmp_code_point)); [eexists [_], (Ok tt); split; [intro; apply I0|now left]|].
      eexists [_; _], (Ok tt). split; [|now left]. intro s. cbv zeta. rewrite I0. cbn [then_].
      match goal with |- context [str_insert (s ++ ?u) _ ?v] => pose proof (I1 s u v _ eq_refl) as E; cbn [length app] in E; rewrite E; cbn [then_]; clear E end. reflexivity.
    - eexists [_], (Ok tt). split; [intro; apply I0|now left].
    - destruct (negb (is_surrogate c) && (c <=? maximum_bmp_code_point)); [eexists [_], (Ok tt); split; [intro; apply I0|now left]|].
      eexists [_; _], (Ok tt). split; [|now left]. intro s. cbv zeta. rewrite I0. cbn [then_].
      match goal with |- context [str_insert (s ++ ?u) _ ?v] => pose proof (I1 s u v _ eq_refl) as E; cbn [length app] in E; rewrite E; cbn [then_]; clear E end. reflexivity.
    - eexists [_], (Ok tt). split; [intro; apply I0|now left]. }
  destruct X as (u & r & X1 & X2). exists u, r. auto.
Qed.

Lemma append_all_split : forall ko l m res, append_all ko res (l ++ m) = bind (append_all ko res l) (fun t => append_all ko t m).
Proof.
  intros ko. induction l as [|c l IH]; intros m res; cbn [app append_all bind]; [reflexivity|].
  destruct (append_code_point ko res c) as [res' [[]| | | |]]; cbn [bind]; try reflexivity. apply IH.
Qed.

Lemma append_all_from : forall ko l res, append_all ko res l = bind (append_all ko [] l) (fun t => Ok (res ++ t)).
Proof.
  intros ko. induction l as [|c l IH]; intros res; cbn [append_all bind]; [now rewrite app_nil_r|].
  destruct (append_one ko res c) as (u & r & E & A & X). rewrite E, (A []). cbn [app].
  destruct r as [[]| | | |]; try reflexivity. rewrite (IH (res ++ u)), (IH u). destruct (append_all ko [] l); cbn [bind]; try reflexivity.
  now rewrite app_assoc.
Qed.

Lemma append_all_throws : forall ko l res, (exists t, append_all ko res l = Ok t) \/ append_all ko res l = Throw InvalidCodePoint /\ ko = K8.
Proof.
  intros ko. induction l as [|c l IH]; intro res; cbn [append_all]; [left; eauto|].
  destruct (append_one ko res c) as (u & r & E & _ & [->|[-> K]]); rewrite E; [apply IH|auto].
Qed.

Lemma visit_plain_all : forall k l, k = K32 \/ k = KW4 -> visit k l = (l, Ok tt).
Proof.
  intros k l Hk. assert (C : class_of k = Plain /\ forall u, widen k u = u) by (destruct Hk as [->| ->]; split; reflexivity). destruct C as [C Wd].
  assert (X : forall l pre fuel, (length l < fuel)%nat -> visit_from fuel k (pre ++ l) (length pre) = (l, Ok tt)).
  { clear l. induction l as [|c l IH]; intros pre fuel Hf; (destruct fuel; [lia|]); cbn [visit_from]; rewrite len_mid0; cbn [length Nat.eqb]; [reflexivity|].
    unfold deref, advance, ptr_inc. rewrite C, len_mid0, nth_mid0. cbn [length Nat.eqb nth_error]. rewrite Wd.
    replace (Nat.ltb (length pre) (length (pre ++ c :: l))) with true by (rewrite app_length; cbn [length]; symmetry; apply Nat.ltb_lt; lia).
    replace (S (length pre)) with (length (pre ++ [c])) by (rewrite app_length; cbn [length]; lia).
    replace (pre ++ c :: l) with ((pre ++ [c]) ++ l) by now rewrite <- app_assoc. rewrite IH by (cbn [length] in Hf; lia). reflexivity. }
  exact (X l [] (S (length l)) ltac:(lia)).
Qed.

Lemma append_all_plain : forall k l, k = K32 \/ k = KW4 -> append_all k [] l = Ok l.
Proof.
  intros k l Hk. assert (X : forall l res, append_all k res l = Ok (res ++ l)).
  { clear l. induction l as [|c l IH]; intro res; cbn [append_all]; [now rewrite app_nil_r|].
    unfold append_code_point. rewrite insert32 by auto. rewrite firstn_all, skipn_all, app_nil_r, IH, <- app_assoc. reflexivity. }
  exact (X l []).
Qed.
