(** Facts about the specification of windows: updates and their times. *)
From Coq Require Import NArith ZArith List Bool Lia.
From Coq Require Import ZifyBool ZifyNat ZifyN.
From Verif Require Import Base KeySpec KeyModel WindowSpec WindowModel WindowText WindowLemmas WindowLemmas2.
Import ListNotations.
Open Scope N_scope.

(** ** Which updates were told *)

Lemma updates_app : forall a b, updates (a ++ b) = updates a ++ updates b.
Proof. intros a b. unfold updates. now rewrite filter_app, map_app. Qed.

Lemma drop_story : forall h d, story (drop_window h d) = story d.
Proof. intros h d. unfold drop_window. destruct (window_at h d); reflexivity. Qed.

Lemma ask_story : forall t h answer body d d',
  (forall d d', expected_all t body d = Some d' -> updates (story d') = updates (story d)) ->
  ask_to_close h answer (forallb quiet body) (expected_all t body) d = Some d' -> updates (story d') = updates (story d).
Proof.
  intros t h answer body d d' F E. unfold ask_to_close in E. destruct (window_at h d) as [w|]; [|discriminate].
  apply when_some in E. destruct E as [_ E]. apply andthen_some in E. destruct E as (d1 & E1 & E2). apply F in E1. cbn [tell story] in E1.
  rewrite updates_app in E1. change (updates [{| told := owner w; about := h; what := AskedToClose |}]) with (@nil N) in E1. rewrite app_nil_r in E1.
  rewrite <- E1. destruct answer; injection E2 as <-; [now rewrite drop_story|reflexivity].
Qed.

Lemma no_idle_updates : forall t a d d', no_idle a = true -> expected t a d = Some d' -> updates (story d') = updates (story d).
Proof.
  intro t.
  assert (All : forall l, Forall (fun a => forall d d', no_idle a = true -> expected t a d = Some d' -> updates (story d') = updates (story d)) l ->
    forallb no_idle l = true -> forall d d', expected_all t l d = Some d' -> updates (story d') = updates (story d)).
  { intros l F Q. induction F as [|a l Fa Fl IH]; intros d d' E.
    - injection E as <-. reflexivity.
    - cbn [forallb] in Q. apply andb_prop in Q. destruct Q as [Q1 Q2]. cbn [expected_all] in E. apply andthen_some in E. destruct E as (d1 & E1 & E2).
      rewrite (IH Q2 _ _ E2). exact (Fa _ _ Q1 E1). }
  apply (action_induction (fun a => forall d d', no_idle a = true -> expected t a d = Some d' -> updates (story d') = updates (story d))).
  - intros n d d' _ E. injection E as <-. reflexivity.
  - intros o [h|] d d' Q E; apply when_some in E; destruct E as [_ E]; cbv zeta in E; [apply when_some in E; destruct E as [_ E]|]; injection E as <-; reflexivity.
  - intros o c d d' Q E. apply when_some in E. destruct E as [_ E]. destruct (has_window o d); [now injection E as <-|].
    destruct c as [h|]; [apply when_some in E; destruct E as [_ E]|]; injection E as <-; reflexivity.
  - intros o d d' _ E. apply when_some in E. destruct E as [_ E]. injection E as <-. reflexivity.
  - intros o from d d' _ E. apply when_some in E. destruct E as [_ E]. injection E as <-. reflexivity.
  - intros o from answer body F d d' Q E. cbn [no_idle] in Q.
    change (when (member o (alive d) && member from (alive d))
        (if o =? from then Some d else
         andthen
           (match window_of o d with
            | Some w => when (answer && closable t w) (ask_to_close (handle w) answer (forallb quiet body) (expected_all t body) d)
            | None => when (match t with WindowsApi => false | _ => negb (member o (closed d)) end) (Some d)
            end)
           (fun d =>
              when (member o (alive d) && member from (alive d) && negb (member from (closed d)) && negb (has_window o d))
                (Some (hand_over from o (with_closed (without o (closed d)) d))))) = Some d') in E.
    apply when_some in E. destruct E as [_ E]. destruct (o =? from); [now injection E as <-|]. apply andthen_some in E. destruct E as (d1 & E1 & E2).
    apply when_some in E2. destruct E2 as [_ E2]. injection E2 as <-. change (updates (story d1) = updates (story d)).
    destruct (window_of o d) as [w|]; apply when_some in E1; destruct E1 as [_ E1]; [|now injection E1 as <-].
    exact (ask_story t _ _ _ _ _ (All body F Q) E1).
  - intros o d d' _ E. apply when_some in E. destruct E as [_ E]. injection E as <-. reflexivity.
  - intros o answer body F d d' Q E. cbn [no_idle] in Q.
    change (match window_of o d with
      | Some w => when (closable t w) (ask_to_close (handle w) answer (forallb quiet body) (expected_all t body) d)
      | None => None end = Some d') in E.
    destruct (window_of o d) as [w|]; [|discriminate]. apply when_some in E. destruct E as [_ E]. exact (ask_story t _ _ _ _ _ (All body F Q) E).
  - intros h answer body F d d' Q E. cbn [no_idle] in Q. exact (ask_story t _ _ _ _ _ (All body F Q) E).
  - intros h e body F d d' Q E. cbn [no_idle] in Q.
    change (match window_at h d with Some w => expected_all t body (tell (owner w) h (Reported e) d) | None => Some d end = Some d') in E.
    destruct (window_at h d) as [w|]; [|now injection E as <-]. rewrite (All body F Q _ _ E). cbn [tell story]. rewrite updates_app.
    change (updates [{| told := owner w; about := h; what := Reported e |}]) with (@nil N). apply app_nil_r.
  - intros bodies _ d d' Q. discriminate.
Qed.

Lemma no_idle_updates_all : forall t l d d', forallb no_idle l = true -> expected_all t l d = Some d' -> updates (story d') = updates (story d).
Proof.
  intros t l. induction l as [|a l IH]; intros d d' Q E.
  - injection E as <-. reflexivity.
  - cbn [forallb] in Q. apply andb_prop in Q. destruct Q as [Q1 Q2]. cbn [expected_all] in E. apply andthen_some in E. destruct E as (d1 & E1 & E2).
    rewrite (IH _ _ Q2 E2). exact (no_idle_updates _ _ _ _ Q1 E1).
Qed.

Lemma update_one_updates : forall h w d, updates (story (update_one h w d)) = updates (story d) ++ [h].
Proof. intros h w d. unfold update_one. cbn [touch with_windows tell story]. rewrite updates_app. reflexivity. Qed.

Lemma quietly_updates : forall hs d, (forall h, In h hs -> In h (handles d)) -> updates (story (update_quietly hs d)) = updates (story d) ++ hs.
Proof.
  intro hs. induction hs as [|h hs IH]; intros d H.
  - symmetry. apply app_nil_r.
  - unfold update_quietly in *. cbn [fold_left]. destruct (window_at h d) as [w|] eqn:W.
    + rewrite IH; [|intros k I; rewrite handles_update; apply H; now right]. rewrite update_one_updates, <- app_assoc. reflexivity.
    + exfalso. apply window_at_none in W. apply W. apply H. now left.
Qed.

(** In a turn of the loop each open window is updated once. *)
Lemma idle_updates : forall t bodies d d', forallb (forallb no_idle) bodies = true -> expected t (Idle bodies) d = Some d' ->
  updates (story d') = updates (story d) ++ map handle (windows d).
Proof.
  intros t bodies d d' N E. rewrite expected_idle in E. apply when_some in E. destruct E as [Q E]. fold (handles d) in *.
  assert (G : forall hs d d', (forall h, In h hs -> In h (handles d)) -> update_each t hs bodies d = Some d' -> updates (story d') = updates (story d) ++ hs).
  { clear d d' E. revert Q N. induction bodies as [|b bodies IH]; intros Q N [|h hs] d d' H E.
    - injection E as <-. symmetry. apply app_nil_r.
    - assert (X : Some d' = Some (update_quietly (h :: hs) d)) by (symmetry; exact E). injection X as ->. now apply (quietly_updates (h :: hs)).
    - injection E as <-. symmetry. apply app_nil_r.
    - cbn [forallb] in Q, N. apply andb_prop in Q. apply andb_prop in N. destruct Q as [Q1 Q2], N as [N1 N2].
      cbn [update_each] in E. destruct (window_at h d) as [w|]; [|discriminate]. apply andthen_some in E. destruct E as (d1 & E1 & E2).
      rewrite (IH Q2 N2 hs d1 d'); [|intros k I; rewrite (quiet_handles_all _ _ _ _ Q1 E1), handles_update; apply H; now right|assumption].
      rewrite (no_idle_updates_all _ _ _ _ N1 E1), update_one_updates, <- app_assoc. reflexivity. }
  exact (G _ _ _ (fun h I => I) E).
Qed.

(** ** Times *)

Lemma told_app : forall h a b, told_so_far h (a ++ b) = (told_so_far h a + told_so_far h b)%Z.
Proof. intros h a b. induction a as [|x a IH]; cbn [app told_so_far]; [lia|]. rewrite IH. lia. Qed.

Lemma honest_snoc : forall l x, honest l ->
  (forall delta total, what x = Updated delta total -> (0 <= delta)%Z /\ total = (told_so_far (about x) l + delta)%Z) -> honest (l ++ [x]).
Proof.
  intros l x H X before y after delta total E W. destruct (rev after) as [|z r] eqn:R.
  - assert (after = []) by (rewrite <- (rev_involutive after), R; reflexivity). subst after. apply app_inj_tail in E. destruct E as [<- ->]. now apply X.
  - assert (after = rev r ++ [z]) by (rewrite <- (rev_involutive after), R; reflexivity). subst after.
    rewrite app_comm_cons, app_assoc in E. apply app_inj_tail in E. destruct E as [E _]. exact (H _ _ _ _ _ E W).
Qed.

Record timely (used : list N) (d : desk) : Prop := {
  ti_honest : honest (story d);
  ti_sum : forall w, In w (windows d) -> told_so_far (handle w) (story d) = (updated w - opened w)%Z /\ (updated w <= time d)%Z /\ In (handle w) used;
  ti_unused : forall h, ~ In h used -> told_so_far h (story d) = 0%Z }.

Lemma timely_tell : forall u d o h n, timely u d -> (forall a b, n <> Updated a b) -> timely u (tell o h n d).
Proof.
  intros u d o h n [H1 H2 H3] N.
  assert (Z : forall k, told_so_far k (story (tell o h n d)) = told_so_far k (story d)).
  { intro k. cbn [tell story]. rewrite told_app. cbn [told_so_far about what]. destruct n; [destruct (h =? k); lia|destruct (h =? k); lia|].
    exfalso. exact (N _ _ eq_refl). }
  constructor.
  - cbn [tell story]. apply honest_snoc; [assumption|]. cbn [what]. intros delta total E. exfalso. exact (N _ _ E).
  - intros w I. rewrite Z. now apply H2.
  - intros k K. rewrite Z. now apply H3.
Qed.

Lemma timely_map : forall u d g, timely u d -> (forall w, handle (g w) = handle w /\ opened (g w) = opened w /\ updated (g w) = updated w) ->
  timely u (with_windows (map g (windows d)) d).
Proof.
  intros u d g [H1 H2 H3] G. constructor; cbn [with_windows windows story time]; try assumption.
  intros w I. apply in_map_iff in I. destruct I as (v & <- & I). destruct (G v) as (-> & -> & ->). now apply H2.
Qed.

Lemma timely_drop : forall u d h, timely u d -> timely u (drop_window h d).
Proof.
  intros u d h T. unfold drop_window. destruct (window_at h d); [|assumption]. destruct T as [H1 H2 H3].
  constructor; cbn [windows story time]; try assumption. intros v I. apply filter_In in I. now apply H2.
Qed.

Lemma timely_more : forall u v d, timely u d -> (forall h, In h u -> In h v) -> timely v d.
Proof.
  intros u v d [H1 H2 H3] I. constructor; [assumption| |].
  - intros w Iw. destruct (H2 w Iw) as (A & B & C). split; [assumption|]. split; [assumption|]. now apply I.
  - intros h N. apply H3. intro K. apply N. now apply I.
Qed.

Lemma timely_update : forall u d w, timely u d -> NoDup (handles d) -> In w (windows d) -> timely u (update_one (handle w) w d).
Proof.
  intros u d w [H1 H2 H3] D Iw. destruct (H2 w Iw) as (S1 & S2 & S3). unfold update_one. constructor; cbn [touch with_windows tell windows story time].
  - apply honest_snoc; [assumption|]. cbn [what about]. intros delta total E. injection E as <- <-. split; lia.
  - intros v I. apply in_map_iff in I. destruct I as (x & <- & I). destruct (N.eqb_spec (handle x) (handle w)) as [E|E].
    + assert (x = w) by now apply (NoDup_map_same _ handle (windows d)). subst x. cbn [handle updated opened]. rewrite told_app. cbn [told_so_far about what].
      rewrite N.eqb_refl. split; [lia|]. split; [lia|assumption].
    + rewrite told_app. cbn [told_so_far about what]. apply not_eq_sym in E. apply N.eqb_neq in E. rewrite E. destruct (H2 x I) as (A & B & C). split; [lia|]. now split.
  - intros h N. rewrite told_app. cbn [told_so_far about what]. destruct (N.eqb_spec (handle w) h) as [<-|_]; [contradiction|]. rewrite (H3 h N). lia.
Qed.

(** Handles are distinct. *)
Lemma filter_handles : forall h d, NoDup (handles d) -> NoDup (handles (drop_window h d)).
Proof. intros h d D. unfold drop_window. destruct (window_at h d); [|assumption]. cbn [windows]. now apply NoDup_map_filter. Qed.

Lemma handles_with : forall g d, (forall w, handle (g w) = handle w) -> handles (with_windows (map g (windows d)) d) = handles d.
Proof. intros g d G. exact (handles_map g d G). Qed.

Definition keeps (t : toolkit) (f : desk -> option desk) (created : list N) : Prop :=
  forall u d d', timely u d -> NoDup (handles d) -> f d = Some d' -> NoDup created -> (forall h, In h created -> ~ In h u) ->
  timely (created ++ u) d' /\ NoDup (handles d').

Lemma keeps_open : forall u d o h, timely u d -> NoDup (handles d) -> ~ In h u ->
  match window_at h d with None => true | Some _ => false end = true ->
  timely ([h] ++ u) (open_window_for o h d) /\ NoDup (handles (open_window_for o h d)).
Proof.
  intros u d o h [H1 H2 H3] D U F. split.
  - constructor; cbn [open_window_for with_windows windows story time]; [assumption| |].
    + intros w I. apply in_app_or in I. destruct I as [I|[<-|[]]].
      * destruct (H2 w I) as (A & B & C). split; [assumption|]. split; [assumption|]. now right.
      * cbn [handle updated opened]. rewrite (H3 h U). split; [lia|]. split; [lia|]. now left.
    + intros k K. apply H3. intro I. apply K. now right.
  - unfold handles. cbn [open_window_for with_windows windows]. rewrite map_app. cbn [map handle]. apply NoDup_snoc; [assumption|].
    apply window_at_none. destruct (window_at h d); [discriminate|reflexivity].
Qed.

Lemma NoDup_left : forall (a b : list N), NoDup (a ++ b) -> NoDup a.
Proof.
  intros a b. induction a as [|x a IH]; intro D; [constructor|]. inversion D as [|? ? N1 N2]; subst. constructor; [|now apply IH].
  intro I. apply N1. apply in_or_app. now left.
Qed.

Lemma NoDup_apart : forall (a b : list N) x, NoDup (a ++ b) -> In x b -> ~ In x a.
Proof.
  intros a b x. induction a as [|y a IH]; intros D Ib; [easy|]. inversion D as [|? ? N1 N2]; subst. intros [->|I]; [|now apply IH in I].
  apply N1. apply in_or_app. now right.
Qed.

Lemma keeps_all : forall t l, Forall (fun a => keeps t (expected t a) (creations a)) l -> keeps t (expected_all t l) (flat_map creations l).
Proof.
  intros t l F. induction F as [|a l Fa Fl IH]; intros u d d' T D E N U.
  - injection E as <-. now split.
  - cbn [expected_all] in E. apply andthen_some in E. destruct E as (d1 & E1 & E2). cbn [flat_map] in *.
    destruct (Fa u d d1 T D E1) as [T1 D1]; [now apply NoDup_left in N|intros h I; apply U; apply in_or_app; now left|].
    destruct (IH (creations a ++ u) d1 d' T1 D1 E2) as [T2 D2].
    + now apply NoDup_right in N.
    + intros h I K. apply in_app_or in K. destruct K as [K|K]; [exact (NoDup_apart _ _ _ N I K)|]. apply (U h); [apply in_or_app; now right|assumption].
    + split; [|assumption]. apply (timely_more _ _ _ T2). intros h I. rewrite !in_app_iff in *. tauto.
Qed.

Lemma keeps_ask : forall t h answer body, keeps t (expected_all t body) (flat_map creations body) ->
  keeps t (ask_to_close h answer (forallb quiet body) (expected_all t body)) (flat_map creations body).
Proof.
  intros t h answer body F u d d' T D E N U. unfold ask_to_close in E. destruct (window_at h d) as [w|]; [|discriminate].
  apply when_some in E. destruct E as [_ E]. apply andthen_some in E. destruct E as (d1 & E1 & E2).
  destruct (F u _ d1 (timely_tell u d (owner w) h AskedToClose T ltac:(discriminate)) D E1 N U) as [T1 D1].
  destruct answer; injection E2 as <-; [|now split]. split; [now apply timely_drop|now apply filter_handles].
Qed.

Lemma timely_alike : forall u d d', timely u d -> windows d' = windows d -> story d' = story d -> (time d <= time d')%Z -> timely u d'.
Proof.
  intros u d d' [H1 H2 H3] W S L. constructor.
  - now rewrite S.
  - intros w I. rewrite W in I. rewrite S. destruct (H2 w I) as (A & B & C). split; [assumption|]. split; [lia|assumption].
  - now rewrite S.
Qed.

Lemma timely_quietly : forall hs u d, timely u d -> NoDup (handles d) -> timely u (update_quietly hs d).
Proof.
  intro hs. induction hs as [|h hs IH]; intros u d T D; [assumption|]. unfold update_quietly in *. cbn [fold_left].
  destruct (window_at h d) as [w|] eqn:W; [|now apply IH]. pose proof (window_at_some _ _ _ W) as [I <-]. apply IH; [now apply timely_update|].
  now rewrite handles_update.
Qed.

Lemma keeps_action : forall t a, keeps t (expected t a) (creations a).
Proof.
  intro t. apply (action_induction (fun a => keeps t (expected t a) (creations a))).
  - intros n u d d' T D E _ _. injection E as <-. split; [|exact D]. apply (timely_alike _ _ _ T); cbn [with_time time windows story]; [reflexivity|reflexivity|lia].
  - intros o c u d d' T D E N U. apply when_some in E. destruct E as [_ E]. cbv zeta in E.
    assert (T1 : timely u (with_alive (o :: alive d) d)) by (apply (timely_alike _ _ _ T); [reflexivity|reflexivity|cbn; lia]).
    destruct c as [h|].
    + apply when_some in E. destruct E as [F E]. injection E as <-. cbn [creations] in *.
      exact (keeps_open u (with_alive (o :: alive d) d) o h T1 D (U h (or_introl eq_refl)) F).
    + injection E as <-. now split.
  - intros o c u d d' T D E N U. apply when_some in E. destruct E as [_ E]. destruct (has_window o d).
    + injection E as <-. split; [|assumption]. apply (timely_more _ _ _ T). intros h I. apply in_or_app. now right.
    + destruct c as [h|].
      * apply when_some in E. destruct E as [F E]. injection E as <-. exact (keeps_open u d o h T D (U h (or_introl eq_refl)) F).
      * injection E as <-. now split.
  - intros o u d d' T D E _ _. apply when_some in E. destruct E as [_ E]. injection E as <-. unfold present. split.
    + apply timely_map; [assumption|]. intro w. destruct (owner w =? o); repeat split.
    + rewrite handles_with; [assumption|]. intro w. destruct (owner w =? o); reflexivity.
  - intros o from u d d' T D E _ _. apply when_some in E. destruct E as [_ E]. injection E as <-. unfold hand_over.
    assert (T1 : timely u (with_alive (o :: alive d) d)) by (apply (timely_alike _ _ _ T); [reflexivity|reflexivity|cbn; lia]). split.
    + apply (timely_map u (with_alive (o :: alive d) d)); [assumption|]. intro w. destruct (owner w =? from); repeat split.
    + rewrite (handles_with _ (with_alive (o :: alive d) d)); [assumption|]. intro w. destruct (owner w =? from); reflexivity.
  - intros o from answer body F u d d' T D E N U. pose proof (keeps_all t body F) as Fb. cbn [creations] in *.
    change (when (member o (alive d) && member from (alive d))
        (if o =? from then Some d else
         andthen
           (match window_of o d with
            | Some w => when (answer && closable t w) (ask_to_close (handle w) answer (forallb quiet body) (expected_all t body) d)
            | None => when (match t with WindowsApi => false | _ => negb (member o (closed d)) end) (Some d)
            end)
           (fun d =>
              when (member o (alive d) && member from (alive d) && negb (member from (closed d)) && negb (has_window o d))
                (Some (hand_over from o (with_closed (without o (closed d)) d))))) = Some d') in E.
    assert (T0 : timely (flat_map creations body ++ u) d) by (apply (timely_more _ _ _ T); intros h I; apply in_or_app; now right).
    apply when_some in E. destruct E as [_ E]. destruct (o =? from); [injection E as <-; now split|]. apply andthen_some in E. destruct E as (d1 & E1 & E2).
    apply when_some in E2. destruct E2 as [_ E2]. injection E2 as <-.
    assert (X : timely (flat_map creations body ++ u) d1 /\ NoDup (handles d1)).
    { destruct (window_of o d) as [w|]; apply when_some in E1; destruct E1 as [_ E1]; [|injection E1 as <-; now split].
      exact (keeps_ask t _ answer body Fb u d d1 T D E1 N U). }
    destruct X as [T1 D1]. unfold hand_over.
    assert (T2 : timely (flat_map creations body ++ u) (with_closed (without o (closed d1)) d1)) by (apply (timely_alike _ _ _ T1); [reflexivity|reflexivity|cbn; lia]). split.
    + apply (timely_map _ (with_closed (without o (closed d1)) d1)); [assumption|]. intro w. destruct (owner w =? from); repeat split.
    + rewrite (handles_with _ (with_closed (without o (closed d1)) d1)); [assumption|]. intro w. destruct (owner w =? from); reflexivity.
  - intros o u d d' T D E _ _. apply when_some in E. destruct E as [_ E]. injection E as <-. split; [|exact D].
    apply (timely_alike _ _ _ T); [reflexivity|reflexivity|cbn; lia].
  - intros o answer body F u d d' T D E N U. cbn [creations] in *.
    change (match window_of o d with
      | Some w => when (closable t w) (ask_to_close (handle w) answer (forallb quiet body) (expected_all t body) d)
      | None => None end = Some d') in E.
    destruct (window_of o d) as [w|]; [|discriminate]. apply when_some in E. destruct E as [_ E].
    exact (keeps_ask t _ answer body (keeps_all t body F) u d d' T D E N U).
  - intros h answer body F. exact (keeps_ask t h answer body (keeps_all t body F)).
  - intros h e body F u d d' T D E N U. cbn [creations] in *.
    change (match window_at h d with Some w => expected_all t body (tell (owner w) h (Reported e) d) | None => Some d end = Some d') in E.
    destruct (window_at h d) as [w|].
    + exact (keeps_all t body F u _ d' (timely_tell u d (owner w) h (Reported e) T ltac:(discriminate)) D E N U).
    + injection E as <-. split; [|assumption]. apply (timely_more _ _ _ T). intros k I. apply in_or_app. now right.
  - intros bodies F u d d' T D E N U. rewrite expected_idle in E. apply when_some in E. destruct E as [_ E]. cbn [creations] in *. revert E.
    generalize (map handle (windows d)). intros hs E. revert u d d' hs T D E N U.
    induction F as [|b bodies Fb Fl IH]; intros u d d' [|h hs] T D E N U.
    + injection E as <-. now split.
    + assert (X : Some d' = Some (update_quietly (h :: hs) d)) by (symmetry; exact E). injection X as ->.
      split; [exact (timely_quietly (h :: hs) u d T D)|]. pose proof (handles_quietly (h :: hs) d) as Hq. rewrite <- Hq in D. exact D.
    + injection E as <-. split; [|assumption]. apply (timely_more _ _ _ T). intros k I. apply in_or_app. now right.
    + cbn [update_each] in E. destruct (window_at h d) as [w|] eqn:W; [|discriminate]. apply andthen_some in E. destruct E as (d1 & E1 & E2).
      pose proof (window_at_some _ _ _ W) as [Iw <-]. cbn [flat_map] in *.
      assert (D0 : NoDup (handles (update_one (handle w) w d))) by (now rewrite handles_update).
      destruct (keeps_all t b Fb u _ d1 (timely_update u d w T D Iw) D0 E1) as [T1 D1]; [now apply NoDup_left in N|intros k I; apply U; apply in_or_app; now left|].
      destruct (IH (flat_map creations b ++ u) d1 d' hs T1 D1 E2) as [T2 D2].
      * now apply NoDup_right in N.
      * intros k I K. apply in_app_or in K. destruct K as [K|K]; [exact (NoDup_apart _ _ _ N I K)|]. apply (U k); [apply in_or_app; now right|assumption].
      * split; [|assumption]. apply (timely_more _ _ _ T2). intros k I. rewrite !in_app_iff in *. tauto.
Qed.

Lemma honest_history : forall t l d, expected_all t l empty_desk = Some d -> NoDup (flat_map creations l) -> honest (story d).
Proof.
  intros t l d E Nd.
  destruct (keeps_all t l) with (u := @nil N) (d := empty_desk) (d' := d) as [T _].
  - apply Forall_forall. intros a _. apply keeps_action.
  - constructor; cbn.
    + intros before x after delta total H. destruct before; discriminate.
    + contradiction.
    + reflexivity.
  - constructor.
  - exact E.
  - exact Nd.
  - intros h _ [].
  - apply (ti_honest _ _ T).
Qed.
