(** Lemmas for C71: the times of a window whose handle was used before. *)
From Coq Require Import NArith ZArith List Bool Lia.
From Coq Require Import ZifyBool ZifyNat ZifyN.
From Verif Require Import Base KeySpec KeyModel WindowSpec WindowModel WindowText WindowLemmas WindowLemmas2 WindowLemmas3 ReuseSpec.
Import ListNotations.
Open Scope N_scope.

Section One.
Context (t : toolkit) (h : N) (base : list telling).

Definition uses (l : list N) : nat := count_occ N.eq_dec l h.

Definition timed (free : bool) (d : desk) : Prop := exists st,
  story d = base ++ st /\ honest_about h st /\
  (forall w, In w (windows d) -> handle w = h -> told_so_far h st = (updated w - opened w)%Z /\ (updated w <= time d)%Z /\ free = false) /\
  (free = true -> told_so_far h st = 0%Z).

Lemma about_snoc : forall l x, honest_about h l ->
  (about x = h -> forall delta total, what x = Updated delta total -> (0 <= delta)%Z /\ total = (told_so_far h l + delta)%Z) -> honest_about h (l ++ [x]).
Proof.
  intros l x H X before y after delta total E A W. destruct (rev after) as [|z r] eqn:R.
  - assert (after = []) by (rewrite <- (rev_involutive after), R; reflexivity). subst after. apply app_inj_tail in E. destruct E as [<- ->]. now apply X.
  - assert (after = rev r ++ [z]) by (rewrite <- (rev_involutive after), R; reflexivity). subst after.
    rewrite app_comm_cons, app_assoc in E. apply app_inj_tail in E. destruct E as [E _]. exact (H _ _ _ _ _ E A W).
Qed.

Lemma timed_weaken : forall b d, timed true d -> timed b d.
Proof.
  intros [|] d T; [assumption|]. destruct T as (st & S & H & W & U). exists st. split; [assumption|]. split; [assumption|]. split; [|discriminate].
  intros w I E. destruct (W w I E) as (_ & _ & X). discriminate X.
Qed.

Lemma timed_less : forall b c d, timed b d -> timed (b && c) d.
Proof. intros [|] c d T; [now apply timed_weaken|exact T]. Qed.

Lemma timed_tell : forall b d o k n, timed b d -> (forall x y, n <> Updated x y) -> timed b (tell o k n d).
Proof.
  intros b d o k n (st & S & H & W & U) N. exists (st ++ [{| told := o; about := k; what := n |}]).
  assert (Z : told_so_far h (st ++ [{| told := o; about := k; what := n |}]) = told_so_far h st).
  { rewrite told_app. cbn [told_so_far about what]. destruct n; [destruct (k =? h); lia|destruct (k =? h); lia|]. exfalso. exact (N _ _ eq_refl). }
  rewrite Z. split; [cbn [tell story]; rewrite S; now rewrite app_assoc|]. split; [|split; assumption].
  apply about_snoc; [assumption|]. cbn [what]. intros _ delta total E. exfalso. exact (N _ _ E).
Qed.

Lemma timed_map : forall b d g, timed b d -> (forall w, handle (g w) = handle w /\ opened (g w) = opened w /\ updated (g w) = updated w) ->
  timed b (with_windows (map g (windows d)) d).
Proof.
  intros b d g (st & S & H & W & U) G. exists st. cbn [with_windows windows story time]. split; [assumption|]. split; [assumption|]. split; [|assumption].
  intros w I. apply in_map_iff in I. destruct I as (v & <- & I). destruct (G v) as (-> & -> & ->). now apply W.
Qed.

Lemma timed_drop : forall b d k, timed b d -> timed b (drop_window k d).
Proof.
  intros b d k T. unfold drop_window. destruct (window_at k d); [|assumption]. destruct T as (st & S & H & W & U).
  exists st. cbn [windows story time]. split; [assumption|]. split; [assumption|]. split; [|assumption]. intros v I. apply filter_In in I. now apply W.
Qed.

Lemma timed_alike : forall b d d', timed b d -> windows d' = windows d -> story d' = story d -> (time d <= time d')%Z -> timed b d'.
Proof.
  intros b d d' (st & S & H & W & U) Ew Es L. exists st. rewrite Es, Ew. split; [assumption|]. split; [assumption|]. split; [|assumption].
  intros w I E. destruct (W w I E) as (A & B & C). split; [assumption|]. split; [lia|assumption].
Qed.

Lemma timed_update : forall b d w, timed b d -> NoDup (handles d) -> In w (windows d) -> timed b (update_one (handle w) w d).
Proof.
  intros b d w (st & S & H & W & U) D Iw. unfold update_one.
  exists (st ++ [{| told := owner w; about := handle w; what := Updated (time d - updated w) (time d - opened w) |}]).
  cbn [touch with_windows tell windows story time]. split; [rewrite S; now rewrite app_assoc|]. split; [|split].
  - apply about_snoc; [assumption|]. cbn [what about]. intros A delta total E. injection E as <- <-. destruct (W w Iw A) as (S1 & S2 & _). split; lia.
  - intros v I E. rewrite told_app. cbn [told_so_far about what]. apply in_map_iff in I. destruct I as (x & <- & I). destruct (N.eqb_spec (handle x) (handle w)) as [F|F].
    + assert (x = w) by now apply (NoDup_map_same _ handle (windows d)). subst x. cbn [handle updated opened] in *. subst h.
      destruct (W w Iw eq_refl) as (S1 & S2 & S3). rewrite N.eqb_refl. split; [lia|]. split; [lia|assumption].
    + cbn [handle] in E. destruct (N.eqb_spec (handle w) h) as [F'|_]; [congruence|]. destruct (W x I E) as (A & B & C). split; [lia|]. now split.
  - intro F. rewrite told_app. cbn [told_so_far about what]. destruct (N.eqb_spec (handle w) h) as [E|_]; [|rewrite (U F); lia].
    destruct (W w Iw E) as (_ & _ & X). congruence.
Qed.

Lemma timed_quietly : forall hs b d, timed b d -> NoDup (handles d) -> timed b (update_quietly hs d).
Proof.
  intro hs. induction hs as [|k hs IH]; intros b d T D; [assumption|]. unfold update_quietly in *. cbn [fold_left].
  destruct (window_at k d) as [w|] eqn:W; [|now apply IH]. pose proof (window_at_some _ _ _ W) as [I <-]. apply IH; [now apply timed_update|].
  now rewrite handles_update.
Qed.

Definition left_over (b : bool) (l : list N) : bool := b && (uses l =? 0)%nat.

Definition keeps1 (f : desk -> option desk) (created : list N) : Prop :=
  forall (b : bool) d d', timed b d -> NoDup (handles d) -> f d = Some d' -> (uses created <= if b then 1 else 0)%nat ->
  timed (left_over b created) d' /\ NoDup (handles d').

Lemma keeps1_open : forall b d o k, timed b d -> NoDup (handles d) -> (uses [k] <= if b then 1 else 0)%nat ->
  match window_at k d with None => true | Some _ => false end = true ->
  timed (left_over b [k]) (open_window_for o k d) /\ NoDup (handles (open_window_for o k d)).
Proof.
  intros b d o k (st & S & H & W & U) D L F. split.
  - exists st. cbn [open_window_for with_windows windows story time]. split; [assumption|]. split; [assumption|]. unfold left_over, uses in *. cbn [count_occ] in *. split.
    + intros w I E. apply in_app_or in I. destruct I as [I|[<-|[]]].
      * destruct (W w I E) as (A & B & C). split; [assumption|]. split; [assumption|]. now rewrite C.
      * cbn [handle updated opened] in *. subst k. destruct (N.eq_dec h h) as [_|X]; [|congruence]. destruct b; [|lia]. rewrite (U eq_refl). split; [lia|]. split; [lia|reflexivity].
    + intro X. apply andb_prop in X. now apply U.
  - unfold handles. cbn [open_window_for with_windows windows]. rewrite map_app. cbn [map handle]. apply NoDup_snoc; [assumption|].
    apply window_at_none. destruct (window_at k d); [discriminate|reflexivity].
Qed.

Lemma uses_app : forall a b, uses (a ++ b) = (uses a + uses b)%nat.
Proof. intros a b. apply count_occ_app. Qed.

Lemma left_app : forall (b : bool) x y, (uses (x ++ y) <= if b then 1 else 0)%nat ->
  (uses x <= if b then 1 else 0)%nat /\ (uses y <= if left_over b x then 1 else 0)%nat /\ left_over (left_over b x) y = left_over b (x ++ y).
Proof.
  intros b x y L. rewrite uses_app in L. unfold left_over. rewrite uses_app. destruct b; cbn [andb].
  - destruct (Nat.eqb_spec (uses x) 0); cbn [andb]; split; try lia; split; try lia.
  - split; [lia|]. split; [lia|reflexivity].
Qed.

Lemma keeps1_all : forall l, Forall (fun a => keeps1 (expected t a) (creations a)) l -> keeps1 (expected_all t l) (flat_map creations l).
Proof.
  intros l F. induction F as [|a l Fa Fl IH]; intros b d d' T D E N.
  - injection E as <-. split; [|assumption]. now apply timed_less.
  - cbn [expected_all] in E. apply andthen_some in E. destruct E as (d1 & E1 & E2). cbn [flat_map] in *.
    destruct (left_app _ _ _ N) as (N1 & N2 & <-). destruct (Fa b d d1 T D E1 N1) as [T1 D1]. exact (IH _ d1 d' T1 D1 E2 N2).
Qed.

Lemma keeps1_ask : forall k answer body, keeps1 (expected_all t body) (flat_map creations body) ->
  keeps1 (ask_to_close k answer (forallb quiet body) (expected_all t body)) (flat_map creations body).
Proof.
  intros k answer body F b d d' T D E N. unfold ask_to_close in E. destruct (window_at k d) as [w|]; [|discriminate].
  apply when_some in E. destruct E as [_ E]. apply andthen_some in E. destruct E as (d1 & E1 & E2).
  destruct (F b _ d1 (timed_tell b d (owner w) k AskedToClose T ltac:(discriminate)) D E1 N) as [T1 D1].
  destruct answer; injection E2 as <-; [|now split]. split; [now apply timed_drop|now apply filter_handles].
Qed.

Lemma keeps1_action : forall a, keeps1 (expected t a) (creations a).
Proof.
  apply (action_induction (fun a => keeps1 (expected t a) (creations a))).
  - intros n b d d' T D E _. injection E as <-. split; [|exact D]. apply timed_less. apply (timed_alike _ _ _ T); cbn [with_time time windows story]; [reflexivity|reflexivity|lia].
  - intros o c b d d' T D E N. apply when_some in E. destruct E as [_ E]. cbv zeta in E.
    assert (T1 : timed b (with_alive (o :: alive d) d)) by (apply (timed_alike _ _ _ T); [reflexivity|reflexivity|cbn; lia]).
    destruct c as [k|].
    + apply when_some in E. destruct E as [F E]. injection E as <-. exact (keeps1_open b (with_alive (o :: alive d) d) o k T1 D N F).
    + injection E as <-. split; [now apply timed_less|assumption].
  - intros o c b d d' T D E N. apply when_some in E. destruct E as [_ E]. destruct (has_window o d).
    + injection E as <-. split; [now apply timed_less|assumption].
    + destruct c as [k|].
      * apply when_some in E. destruct E as [F E]. injection E as <-. exact (keeps1_open b d o k T D N F).
      * injection E as <-. split; [now apply timed_less|assumption].
  - intros o b d d' T D E _. apply when_some in E. destruct E as [_ E]. injection E as <-. unfold present. split.
    + apply timed_less. apply timed_map; [assumption|]. intro w. destruct (owner w =? o); repeat split.
    + rewrite handles_with; [assumption|]. intro w. destruct (owner w =? o); reflexivity.
  - intros o from b d d' T D E _. apply when_some in E. destruct E as [_ E]. injection E as <-. unfold hand_over.
    assert (T1 : timed b (with_alive (o :: alive d) d)) by (apply (timed_alike _ _ _ T); [reflexivity|reflexivity|cbn; lia]). split.
    + apply timed_less. apply (timed_map b (with_alive (o :: alive d) d)); [assumption|]. intro w. destruct (owner w =? from); repeat split.
    + rewrite (handles_with _ (with_alive (o :: alive d) d)); [assumption|]. intro w. destruct (owner w =? from); reflexivity.
  - intros o from answer body F b d d' T D E N. pose proof (keeps1_all body F) as Fb. cbn [creations] in *.
    change (when (member o (alive d) && member from (alive d))
        (if o =? from then Some d else
         andthen
           (match window_of o d with
            | Some w => when (answer && closable t w) (ask_to_close (handle w) answer (forallb quiet body) (expected_all t body) d)
            | None => when (match t with WindowsApi => false | _ => negb (member o (closed d)) end) (Some d)
            end)
           (fun d =>
              when (member o (alive d) && member from (alive d) && negb (member from (closed d)) && negb (has_window o d))
                (Some (hand_over from o (with_closed (without o (closed d)) d))))) = Some d') in E.
    assert (T0 : timed (left_over b (flat_map creations body)) d) by now apply timed_less.
    apply when_some in E. destruct E as [_ E]. destruct (o =? from); [injection E as <-; now split|]. apply andthen_some in E. destruct E as (d1 & E1 & E2).
    apply when_some in E2. destruct E2 as [_ E2]. injection E2 as <-.
    assert (X : timed (left_over b (flat_map creations body)) d1 /\ NoDup (handles d1)).
    { destruct (window_of o d) as [w|]; apply when_some in E1; destruct E1 as [_ E1]; [|injection E1 as <-; now split].
      exact (keeps1_ask _ answer body Fb b d d1 T D E1 N). }
    destruct X as [T1 D1]. unfold hand_over.
    assert (T2 : timed (left_over b (flat_map creations body)) (with_closed (without o (closed d1)) d1)) by (apply (timed_alike _ _ _ T1); [reflexivity|reflexivity|cbn; lia]). split.
    + apply (timed_map _ (with_closed (without o (closed d1)) d1)); [assumption|]. intro w. destruct (owner w =? from); repeat split.
    + rewrite (handles_with _ (with_closed (without o (closed d1)) d1)); [assumption|]. intro w. destruct (owner w =? from); reflexivity.
  - intros o b d d' T D E _. apply when_some in E. destruct E as [_ E]. injection E as <-. split; [|exact D].
    apply timed_less. apply (timed_alike _ _ _ T); [reflexivity|reflexivity|cbn; lia].
  - intros o answer body F b d d' T D E N. cbn [creations] in *.
    change (match window_of o d with
      | Some w => when (closable t w) (ask_to_close (handle w) answer (forallb quiet body) (expected_all t body) d)
      | None => None end = Some d') in E.
    destruct (window_of o d) as [w|]; [|discriminate]. apply when_some in E. destruct E as [_ E].
    exact (keeps1_ask _ answer body (keeps1_all body F) b d d' T D E N).
  - intros k answer body F. exact (keeps1_ask k answer body (keeps1_all body F)).
  - intros k e body F b d d' T D E N. cbn [creations] in *.
    change (match window_at k d with Some w => expected_all t body (tell (owner w) k (Reported e) d) | None => Some d end = Some d') in E.
    destruct (window_at k d) as [w|].
    + exact (keeps1_all body F b _ d' (timed_tell b d (owner w) k (Reported e) T ltac:(discriminate)) D E N).
    + injection E as <-. split; [now apply timed_less|assumption].
  - intros bodies F b d d' T D E N. rewrite expected_idle in E. apply when_some in E. destruct E as [_ E]. cbn [creations] in *. revert E.
    generalize (map handle (windows d)). intros hs E. revert b d d' hs T D E N.
    induction F as [|bd bodies Fb Fl IH]; intros b d d' [|k hs] T D E N.
    + injection E as <-. split; [now apply timed_less|assumption].
    + assert (X : Some d' = Some (update_quietly (k :: hs) d)) by (symmetry; exact E). injection X as ->.
      split; [apply timed_less; exact (timed_quietly (k :: hs) b d T D)|]. pose proof (handles_quietly (k :: hs) d) as Hq. rewrite <- Hq in D. exact D.
    + injection E as <-. split; [now apply timed_less|assumption].
    + cbn [update_each] in E. destruct (window_at k d) as [w|] eqn:W; [|discriminate]. apply andthen_some in E. destruct E as (d1 & E1 & E2).
      pose proof (window_at_some _ _ _ W) as [Iw <-]. cbn [flat_map] in *. destruct (left_app _ _ _ N) as (N1 & N2 & <-).
      assert (D0 : NoDup (handles (update_one (handle w) w d))) by (now rewrite handles_update).
      destruct (keeps1_all bd Fb b _ d1 (timed_update b d w T D Iw) D0 E1 N1) as [T1 D1]. exact (IH _ d1 d' hs T1 D1 E2 N2).
Qed.

End One.

Lemma expected_split : forall t l1 l2 d d', expected_all t (l1 ++ l2) d = Some d' ->
  exists d1, expected_all t l1 d = Some d1 /\ expected_all t l2 d1 = Some d'.
Proof.
  intros t l1. induction l1 as [|a l1 IH]; intros l2 d d' E; [now exists d|]. cbn [app expected_all] in E. apply andthen_some in E.
  destruct E as (d1 & E1 & E2). destruct (IH _ _ _ E2) as (d2 & E3 & E4). exists d2. split; [|assumption]. cbn [expected_all]. now rewrite E1.
Qed.

Definition beyond (l : list N) : N := fold_right N.max 0 l + 1.

Lemma beyond_new : forall l, ~ In (beyond l) l.
Proof.
  assert (X : forall l x, In x l -> x < beyond l).
  { intro l. induction l as [|y l IH]; intros x J; [destruct J|]. unfold beyond in *. cbn [fold_right]. destruct J as [E|J]; [lia|]. specialize (IH x J). lia. }
  intros l I. specialize (X l _ I). lia.
Qed.

Lemma handles_apart : forall t l d, expected_all t l empty_desk = Some d -> NoDup (handles d).
Proof.
  intros t l d E. set (h := beyond (flat_map creations l)).
  destruct (keeps1_all t h [] l) with (b := true) (d := empty_desk) (d' := d) as [_ D]; try assumption.
  - apply Forall_forall. intros a _. apply keeps1_action.
  - exists []. split; [reflexivity|]. split; [intros [|] ? ? ? ? X; discriminate X|]. split; [intros w []|reflexivity].
  - constructor.
  - unfold uses. rewrite (proj1 (count_occ_not_In N.eq_dec _ _)); [lia|]. apply beyond_new.
Qed.

Lemma honest_since : forall t h l1 l2 d1 d, expected_all t l1 empty_desk = Some d1 -> expected_all t l2 d1 = Some d ->
  window_at h d1 = None -> (count_occ N.eq_dec (flat_map creations l2) h <= 1)%nat ->
  exists st, story d = story d1 ++ st /\ honest_about h st.
Proof.
  intros t h l1 l2 d1 d E1 E2 W N. pose proof (handles_apart _ _ _ E1) as D.
  destruct (keeps1_all t h (story d1) l2) with (b := true) (d := d1) (d' := d) as [(st & S & H & _) _]; try assumption.
  - apply Forall_forall. intros a _. apply keeps1_action.
  - exists []. split; [symmetry; apply app_nil_r|]. split; [intros [|] ? ? ? ? X; discriminate X|]. split; [|reflexivity].
    intros w I E. apply window_at_none in W. exfalso. apply W. rewrite <- E. now apply in_map.
  - now exists st.
Qed.
