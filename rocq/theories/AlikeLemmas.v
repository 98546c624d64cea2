(** Lemmas for C138. *)
From Coq Require Import NArith ZArith List Bool Lia.
From Coq Require Import ZifyBool ZifyNat ZifyN.
From Verif Require Import Base KeySpec KeyModel KeyProps WindowSpec WindowModel WindowText WindowLemmas WindowLemmas2 AlikeSpec.
Import ListNotations.
Open Scope N_scope.

(** ** Keys *)

Lemma label_key : forall k k' l, label_of k = Some l -> label_of k' = Some l -> k = k'.
Proof.
  intros k k' l H H'. assert (K : forall k, label_of k = Some l -> is_key k) by (intros [] X; try exact I; discriminate X).
  pose proof (C58_names k (K k H)) as A. pose proof (C58_names k' (K k' H')) as B. rewrite H in A. rewrite H' in B.
  exact (C58_distinct k k' _ A B).
Qed.

Lemma same_key_translated : forall t t' c c', same_key t t' c c' -> translate_key_code t c = translate_key_code t' c'.
Proof.
  intros t t' c c' [l d d' K H H'|d d' H H'].
  - apply (label_key _ _ l); apply C58_translated; assumption.
  - transitivity key_unknown; [|symmetry]; apply C58_unlisted; assumption.
Qed.

(** What is told is the same. *)
Definition same_telling (t t' : toolkit) (x x' : telling) : Prop := as_call t x = as_call t' x'.

Lemma same_event_told : forall t t' o h e e', same_event t t' e e' ->
  same_telling t t' {| told := o; about := h; what := Reported e |} {| told := o; about := h; what := Reported e' |}.
Proof. intros t t' o h e e' [c c' K|c c' K|]; unfold same_telling, as_call; cbn; try rewrite (same_key_translated _ _ _ _ K); reflexivity. Qed.

(** ** Desks that differ in what was told *)

Definition put_story (st : list telling) (d : desk) : desk :=
  {| windows := windows d; alive := alive d; closed := closed d; time := time d; story := st |}.

Section Alike.
Context (t t' : toolkit).

(** What works with the one toolkit works with the other. *)
Definition eases (a : action) : bool :=
  match t', t with
  | MacOS, _ => true
  | WindowsApi, WindowsApi | Gtk, Gtk => true
  | _, Gtk => no_assignment a
  | _, _ => false
  end.

Definition goes_along (f f' : desk -> option desk) (easy : bool) : Prop :=
  forall st d d1, Forall2 (same_telling t t') (story d) st -> f d = Some d1 ->
  (exists st1, f' (put_story st d) = Some (put_story st1 d1) /\ Forall2 (same_telling t t') (story d1) st1) \/
  f' (put_story st d) = None /\ easy = false.

Lemma along_all : forall l, Forall (fun a => forall a', same_action t t' a a' -> goes_along (expected t a) (expected t' a') (eases a)) l ->
  forall l', Forall2 (same_action t t') l l' -> goes_along (expected_all t l) (expected_all t' l') (forallb eases l).
Proof.
  intros l F. induction F as [|a l Fa Fl IH]; intros l' S st d d1 T E; inversion S; subst.
  - injection E as <-. left. exists st. now split.
  - cbn [expected_all] in E. apply andthen_some in E. destruct E as (d2 & E1 & E2). cbn [expected_all forallb].
    destruct (Fa _ H1 st d d2 T E1) as [(st2 & -> & T2)|[-> ->]]; [|right; now split]. cbn [andthen].
    destruct (IH _ H3 st2 d2 d1 T2 E2) as [X|[X ->]]; [now left|right]. split; [exact X|apply andb_false_r].
Qed.

Lemma quiet_same : forall a a', same_action t t' a a' -> quiet a = quiet a'.
Proof.
  assert (All : forall l, Forall (fun a => forall a', same_action t t' a a' -> quiet a = quiet a') l ->
    forall l', Forall2 (same_action t t') l l' -> forallb quiet l = forallb quiet l').
  { intros l F. induction F as [|a l Fa Fl IH]; intros l' S; inversion S; subst; [reflexivity|]. cbn [forallb]. now rewrite (Fa _ H1), (IH _ H3). }
  apply (action_induction (fun a => forall a', same_action t t' a a' -> quiet a = quiet a')); intros; try (inversion H; subst; reflexivity);
    try (inversion H0; subst; reflexivity).
  - inversion H0; subst. cbn [quiet]. now apply All.
  - inversion H0; subst. cbn [quiet]. clear H0. revert bodies' H2. induction H as [|b bodies Fb Fl IH]; intros bodies' S; inversion S as [|? b' ? bs' Sb Sl]; subst; [reflexivity|].
    cbn [forallb]. rewrite (IH _ Sl). f_equal. now apply All.
Qed.

Lemma quiet_same_all : forall l l', Forall2 (same_action t t') l l' -> forallb quiet l = forallb quiet l'.
Proof. intros l l' S. induction S as [|a a' l l' Sa Sl IH]; [reflexivity|]. cbn [forallb]. now rewrite (quiet_same _ _ Sa), IH. Qed.

Lemma told_more : forall d st x x', Forall2 (same_telling t t') (story d) st -> same_telling t t' x x' ->
  Forall2 (same_telling t t') (story d ++ [x]) (st ++ [x']).
Proof. intros d st x x' T X. apply Forall2_app; [assumption|]. constructor; [assumption|constructor]. Qed.

Lemma same_asked : forall o h, same_telling t t' {| told := o; about := h; what := AskedToClose |} {| told := o; about := h; what := AskedToClose |}.
Proof. reflexivity. Qed.

Lemma put_drop : forall h d st, drop_window h (put_story st d) = put_story st (drop_window h d).
Proof. intros h d st. unfold drop_window. change (window_at h (put_story st d)) with (window_at h d). destruct (window_at h d); reflexivity. Qed.

Lemma story_drop : forall h d, story (drop_window h d) = story d.
Proof. intros h d. unfold drop_window. destruct (window_at h d); reflexivity. Qed.

Lemma along_ask : forall h answer body body', Forall2 (same_action t t') body body' ->
  goes_along (expected_all t body) (expected_all t' body') (forallb eases body) ->
  goes_along (ask_to_close h answer (forallb quiet body) (expected_all t body)) (ask_to_close h answer (forallb quiet body') (expected_all t' body'))
    (forallb eases body).
Proof.
  intros h answer body body' S G st d d1 T E. unfold ask_to_close in *. change (window_at h (put_story st d)) with (window_at h d).
  destruct (window_at h d) as [w|]; [|discriminate]. apply when_some in E. destruct E as [Q E]. rewrite <- (quiet_same_all _ _ S), Q.
  apply andthen_some in E. destruct E as (d2 & E1 & E2). cbn [when].
  change (tell (owner w) h AskedToClose (put_story st d)) with
    (put_story (st ++ [{| told := owner w; about := h; what := AskedToClose |}]) (tell (owner w) h AskedToClose d)).
  destruct (G (st ++ [{| told := owner w; about := h; what := AskedToClose |}]) (tell (owner w) h AskedToClose d) d2
    (told_more _ _ _ _ T (same_asked _ _)) E1) as [(st2 & -> & T2)|[-> ->]].
  - left. cbn [andthen]. injection E2 as <-. exists st2. destruct answer; [rewrite put_drop, story_drop|]; now split.
  - right. now split.
Qed.

Lemma along_update : forall h w st d, Forall2 (same_telling t t') (story d) st ->
  exists st1, update_one h w (put_story st d) = put_story st1 (update_one h w d) /\ Forall2 (same_telling t t') (story (update_one h w d)) st1.
Proof.
  intros h w st d T.
  exists (st ++ [{| told := owner w; about := h; what := Updated (time d - updated w) (time d - opened w) |}]). split; [reflexivity|].
  apply (told_more d); [assumption|reflexivity].
Qed.

Lemma along_quietly : forall hs st d, Forall2 (same_telling t t') (story d) st ->
  exists st1, update_quietly hs (put_story st d) = put_story st1 (update_quietly hs d) /\ Forall2 (same_telling t t') (story (update_quietly hs d)) st1.
Proof.
  intro hs. induction hs as [|h hs IH]; intros st d T; [now exists st|]. unfold update_quietly in *. cbn [fold_left].
  change (window_at h (put_story st d)) with (window_at h d). destruct (window_at h d) as [w|]; [|now apply IH].
  destruct (along_update h w st d T) as (st1 & -> & T1). now apply IH.
Qed.

Lemma eased_body : forall a body, (forall b, no_assignment a = b -> b = false \/ forallb no_assignment body = true) ->
  forallb eases body = false -> eases a = false.
Proof.
  intros a body N H. unfold eases in *.
  assert (X : forall l, forallb (fun _ : action => true) l = true) by (induction l; auto).
  destruct t', t; try (rewrite X in H; discriminate); try reflexivity; change (forallb no_assignment body = false) in H;
    destruct (N _ eq_refl); congruence.
Qed.

Lemma along_action : forall a a', same_action t t' a a' -> goes_along (expected t a) (expected t' a') (eases a).
Proof.
  apply (action_induction (fun a => forall a', same_action t t' a a' -> goes_along (expected t a) (expected t' a') (eases a))).
  - intros n a' S. inversion S; subst. intros st d d1 T E. left. injection E as <-. exists st. now split.
  - intros o c a' S. inversion S; subst. intros st d d1 T E. left. exists st. cbn [expected] in *. apply when_some in E. destruct E as [G E].
    change (alive (put_story st d)) with (alive d). rewrite G. cbn [when]. cbv zeta in *. destruct c as [h|]; [|now injection E as <-].
    change (window_at h (with_alive (o :: alive d) (put_story st d))) with (window_at h (with_alive (o :: alive d) d)).
    apply when_some in E. destruct E as [W E]. rewrite W. injection E as <-. now split.
  - intros o c a' S. inversion S; subst. intros st d d1 T E. left. exists st. cbn [expected] in *. apply when_some in E. destruct E as [G E].
    change (alive (put_story st d)) with (alive d). change (closed (put_story st d)) with (closed d). rewrite G. cbn [when].
    change (has_window o (put_story st d)) with (has_window o d). destruct (has_window o d); [now injection E as <-|].
    destruct c as [h|]; [|now injection E as <-]. change (window_at h (put_story st d)) with (window_at h d).
    apply when_some in E. destruct E as [W E]. rewrite W. injection E as <-. now split.
  - intros o a' S. inversion S; subst. intros st d d1 T E. left. exists st. cbn [expected] in *. apply when_some in E. destruct E as [G E].
    change (alive (put_story st d)) with (alive d). change (closed (put_story st d)) with (closed d). rewrite G. injection E as <-. now split.
  - intros o from a' S. inversion S; subst. intros st d d1 T E. left. exists st. cbn [expected] in *. apply when_some in E. destruct E as [G E].
    change (alive (put_story st d)) with (alive d). change (closed (put_story st d)) with (closed d). rewrite G. injection E as <-. now split.
  - intros o from answer body F a' S. inversion S; subst. pose proof (along_all body F body' H4) as Gb. intros st d d1 T E.
    change (when (member o (alive d) && member from (alive d))
        (if o =? from then Some d else
         andthen
           (match window_of o d with
            | Some w => when (answer && closable t w) (ask_to_close (handle w) answer (forallb quiet body) (expected_all t body) d)
            | None => when (match t with WindowsApi => false | _ => negb (member o (closed d)) end) (Some d)
            end)
           (fun d =>
              when (member o (alive d) && member from (alive d) && negb (member from (closed d)) && negb (has_window o d))
                (Some (hand_over from o (with_closed (without o (closed d)) d))))) = Some d1) in E.
    change (expected t' (MoveAssign o from answer body') (put_story st d)) with
      (when (member o (alive d) && member from (alive d))
        (if o =? from then Some (put_story st d) else
         andthen
           (match window_of o d with
            | Some w => when (answer && closable t' w) (ask_to_close (handle w) answer (forallb quiet body') (expected_all t' body') (put_story st d))
            | None => when (match t' with WindowsApi => false | _ => negb (member o (closed d)) end) (Some (put_story st d))
            end)
           (fun d =>
              when (member o (alive d) && member from (alive d) && negb (member from (closed d)) && negb (has_window o d))
                (Some (hand_over from o (with_closed (without o (closed d)) d)))))).
    apply when_some in E. destruct E as [G E]. rewrite G. cbn [when]. destruct (o =? from); [left; injection E as <-; exists st; now split|].
    apply andthen_some in E. destruct E as (d2 & E1 & E2).
    assert (X : (exists st2, match window_of o d with
            | Some w => when (answer && closable t' w) (ask_to_close (handle w) answer (forallb quiet body') (expected_all t' body') (put_story st d))
            | None => when (match t' with WindowsApi => false | _ => negb (member o (closed d)) end) (Some (put_story st d))
            end = Some (put_story st2 d2) /\ Forall2 (same_telling t t') (story d2) st2) \/
      match window_of o d with
            | Some w => when (answer && closable t' w) (ask_to_close (handle w) answer (forallb quiet body') (expected_all t' body') (put_story st d))
            | None => when (match t' with WindowsApi => false | _ => negb (member o (closed d)) end) (Some (put_story st d))
            end = None /\ eases (MoveAssign o from answer body) = false).
    { destruct (window_of o d) as [w|].
      - apply when_some in E1. destruct E1 as [C E1]. apply andb_prop in C. destruct C as [-> C]. cbn [andb].
        destruct (closable t' w) eqn:C'.
        + cbn [when]. destruct (along_ask (handle w) true body body' H4 Gb st d d2 T E1) as [X|[X Y]]; [now left|right]. split; [exact X|].
          apply (eased_body _ body); [|exact Y]. intros b <-. now left.
        + right. split; [reflexivity|]. unfold closable in C'. unfold eases. destruct t'; try discriminate C'. destruct t; try reflexivity. cbn in C, C'. congruence.
      - apply when_some in E1. destruct E1 as [C E1]. injection E1 as <-. unfold eases. destruct t; try discriminate C; destruct t'; try rewrite C; cbn [when];
          try (left; exists st; now split); right; now split. }
    destruct X as [(st2 & -> & T2)|[-> ->]]; [|right; now split]. left. exists st2. cbn [andthen]. apply when_some in E2. destruct E2 as [G2 E2].
    change (alive (put_story st2 d2)) with (alive d2). change (closed (put_story st2 d2)) with (closed d2). change (has_window o (put_story st2 d2)) with (has_window o d2).
    rewrite G2. injection E2 as <-. now split.
  - intros o a' S. inversion S; subst. intros st d d1 T E. left. exists st. cbn [expected] in *. apply when_some in E. destruct E as [G E].
    change (alive (put_story st d)) with (alive d). change (has_window o (put_story st d)) with (has_window o d). rewrite G. injection E as <-. now split.
  - intros o answer body F a' S. inversion S; subst. pose proof (along_all body F body' H3) as Gb. intros st d d1 T E.
    change (match window_of o d with
      | Some w => when (closable t w) (ask_to_close (handle w) answer (forallb quiet body) (expected_all t body) d)
      | None => None end = Some d1) in E.
    change (expected t' (Close o answer body') (put_story st d)) with (match window_of o d with
      | Some w => when (closable t' w) (ask_to_close (handle w) answer (forallb quiet body') (expected_all t' body') (put_story st d))
      | None => None end).
    destruct (window_of o d) as [w|]; [|discriminate]. apply when_some in E. destruct E as [C E]. destruct (closable t' w) eqn:C'.
    + cbn [when]. destruct (along_ask (handle w) answer body body' H3 Gb st d d1 T E) as [X|[X Y]]; [now left|right]. split; [exact X|].
      apply (eased_body _ body); [|exact Y]. intros b <-. cbn [no_assignment]. destruct (forallb no_assignment body); auto.
    + right. split; [reflexivity|]. unfold closable in C'. unfold eases. destruct t'; try discriminate C'. destruct t; try reflexivity. cbn in C, C'. congruence.
  - intros h answer body F a' S. inversion S; subst. pose proof (along_all body F body' H3) as Gb. intros st d d1 T E.
    destruct (along_ask h answer body body' H3 Gb st d d1 T E) as [X|[X Y]]; [now left|right]. split; [exact X|].
    apply (eased_body _ body); [|exact Y]. intros b <-. cbn [no_assignment]. destruct (forallb no_assignment body); auto.
  - intros h e body F a' S. inversion S as [| | | | | | | | |? ? e' ? body' Se Sb|]; subst. pose proof (along_all body F body' Sb) as Gb. intros st d d1 T E.
    change (match window_at h d with Some w => expected_all t body (tell (owner w) h (Reported e) d) | None => Some d end = Some d1) in E.
    change (expected t' (Event h e' body') (put_story st d)) with
      (match window_at h d with Some w => expected_all t' body' (tell (owner w) h (Reported e') (put_story st d)) | None => Some (put_story st d) end).
    destruct (window_at h d) as [w|]; [|left; exists st; injection E as <-; now split].
    change (tell (owner w) h (Reported e') (put_story st d)) with
      (put_story (st ++ [{| told := owner w; about := h; what := Reported e' |}]) (tell (owner w) h (Reported e) d)).
    destruct (Gb (st ++ [{| told := owner w; about := h; what := Reported e' |}]) (tell (owner w) h (Reported e) d) d1
      (told_more _ _ _ _ T (same_event_told _ _ (owner w) h _ _ Se)) E) as [X|[X Y]]; [now left|right]. split; [exact X|].
    apply (eased_body _ body); [|exact Y]. intros b <-. cbn [no_assignment]. destruct (forallb no_assignment body); auto.
  - intros bodies F a' S. inversion S as [| | | | | | | | | |? bodies' H0]; subst. intros st d d1 T E. rewrite expected_idle in E. rewrite expected_idle.
    apply when_some in E. destruct E as [Q E].
    assert (Q' : forallb (forallb quiet) bodies' = true).
    { rewrite <- Q. clear - H0. induction H0 as [|b b' l l' Sb Sl IH]; [reflexivity|]. cbn [forallb]. now rewrite (quiet_same_all _ _ Sb), IH. }
    rewrite Q'. cbn [when]. change (windows (put_story st d)) with (windows d). revert E. generalize (map handle (windows d)). intros hs E.
    assert (N : forall b, forallb (forallb eases) b = false -> eases (Idle b) = false).
    { intros b H. unfold eases in *. assert (Z : forall l, forallb (forallb (fun _ : action => true)) l = true) by (induction l as [|x l IH]; [reflexivity|]; cbn [forallb]; rewrite IH; induction x; auto).
      destruct t', t; try (rewrite Z in H; discriminate); try reflexivity; exact H. }
    assert (X : (exists st1, update_each t' hs bodies' (put_story st d) = Some (put_story st1 d1) /\ Forall2 (same_telling t t') (story d1) st1) \/
      update_each t' hs bodies' (put_story st d) = None /\ forallb (forallb eases) bodies = false); [|destruct X as [X|[X Y]]; [now left|right; split; [exact X|now apply N]]].
    clear S Q Q' N. revert st d hs T E bodies' H0. induction F as [|b bodies Fb Fl IH]; intros st d hs T E bodies' S; inversion S as [|? b' ? bs' Sb Sl]; subst.
    + left. destruct hs as [|h hs]; [injection E as <-; exists st; now split|]. cbn [update_each] in *. injection E as <-.
      destruct (along_quietly (h :: hs) st d T) as (st1 & Eq & T1). exists st1. split; [now f_equal|exact T1].
    + destruct hs as [|h hs]; [left; injection E as <-; exists st; now split|]. cbn [update_each] in *. change (window_at h (put_story st d)) with (window_at h d).
      destruct (window_at h d) as [w|]; [|discriminate]. apply andthen_some in E. destruct E as (d2 & E1 & E2).
      destruct (along_update h w st d T) as (st1 & -> & T1). cbn [forallb].
      destruct (along_all b Fb _ Sb st1 _ d2 T1 E1) as [(st2 & -> & T2)|[-> ->]]; [|right; now split]. cbn [andthen].
      destruct (IH st2 d2 hs T2 E2 _ Sl) as [X|[X Y]]; [now left|right]. split; [exact X|]. rewrite Y. apply andb_false_r.
Qed.

End Alike.

Lemma along_history : forall t t' l l' d, Forall2 (same_action t t') l l' -> expected_all t l empty_desk = Some d ->
  (exists st, expected_all t' l' empty_desk = Some (put_story st d) /\ Forall2 (same_telling t t') (story d) st) \/
  expected_all t' l' empty_desk = None /\ forallb (eases t t') l = false.
Proof.
  intros t t' l l' d S E.
  assert (F : Forall (fun a => forall a', same_action t t' a a' -> goes_along t t' (expected t a) (expected t' a') (eases t t' a)) l)
    by (apply Forall_forall; intros a _; apply along_action).
  exact (along_all t t' l F l' S [] empty_desk d (Forall2_nil _) E).
Qed.

Lemma told_calls : forall t t' l l', Forall2 (same_telling t t') l l' -> map (as_call t) l = map (as_call t') l'.
Proof. intros t t' l l' H. induction H as [|x x' l l' X H IH]; [reflexivity|]. cbn [map]. now rewrite X, IH. Qed.
