(** The model of windows does what the specification expects: whole histories. *)
From Coq Require Import NArith ZArith List Bool Lia.
From Coq Require Import ZifyBool ZifyNat ZifyN.
From Verif Require Import Base KeySpec KeyModel WindowSpec WindowModel WindowText WindowLemmas.
Import ListNotations.
Open Scope N_scope.

Definition action_induction (P : action -> Prop)
  (Ppass : forall n, P (Pass n))
  (Pnew : forall o c, P (New o c))
  (Popen : forall o c, P (Open o c))
  (Pshow : forall o, P (Show o))
  (Pmove : forall o from, P (MoveConstruct o from))
  (Passign : forall o from answer body, Forall P body -> P (MoveAssign o from answer body))
  (Pdestroy : forall o, P (Destroy o))
  (Pclose : forall o answer body, Forall P body -> P (Close o answer body))
  (Puser : forall h answer body, Forall P body -> P (UserClose h answer body))
  (Pevent : forall h e body, Forall P body -> P (Event h e body))
  (Pidle : forall bodies, Forall (Forall P) bodies -> P (Idle bodies)) : forall a, P a :=
  fix go (a : action) : P a :=
    let all := fix all (l : list action) : Forall P l :=
      match l with [] => Forall_nil _ | a :: l => Forall_cons _ (go a) (all l) end in
    match a with
    | Pass n => Ppass n
    | New o c => Pnew o c
    | Open o c => Popen o c
    | Show o => Pshow o
    | MoveConstruct o from => Pmove o from
    | MoveAssign o from answer body => Passign o from answer body (all body)
    | Destroy o => Pdestroy o
    | Close o answer body => Pclose o answer body (all body)
    | UserClose h answer body => Puser h answer body (all body)
    | Event h e body => Pevent h e body (all body)
    | Idle bodies => Pidle bodies
        ((fix each (l : list (list action)) : Forall (Forall P) l :=
            match l with [] => Forall_nil _ | b :: l => Forall_cons _ (all b) (each l) end) bodies)
    end.


(** ** The loops of the two definitions, named *)

Definition update_one (h : N) (w : window) (d : desk) : desk :=
  touch h (tell (owner w) h (Updated (time d - updated w) (time d - opened w)) d).

Definition update_quietly (hs : list N) (d : desk) : desk :=
  fold_left (fun d h => match window_at h d with Some w => update_one h w d | None => d end) hs d.

Definition update_each (t : toolkit) :=
  fix update_each (hs : list N) (bodies : list (list action)) (d : desk) {struct bodies} : option desk :=
    match hs, bodies with
    | [], _ => Some d
    | _, [] => Some (update_quietly hs d)
    | h :: hs, body :: bodies =>
        match window_at h d with
        | Some w => andthen (expected_all t body (update_one h w d)) (update_each hs bodies)
        | None => None
        end
    end.

Definition update_from (t : toolkit) :=
  fix update_from (i : nat) (bodies : list (list action)) (s : application) {struct bodies} : outcome application :=
    match nth_error (window_associations s) i with
    | None => Ok s
    | Some (h, o) =>
        match bodies with
        | [] => update_rest (skipn i (window_associations s)) s
        | body :: bodies =>
            bind (update_window o h (run_all t body) s) (fun s' =>
              if changes s' =? changes s then update_from (S i) bodies s' else UB UseAfterErase)
        end
    end.

Lemma expected_idle : forall t bodies d,
  expected t (Idle bodies) d = when (forallb (forallb quiet) bodies) (update_each t (map handle (windows d)) bodies d).
Proof. reflexivity. Qed.

Lemma run_idle : forall t bodies s, run t (Idle bodies) s = update_from t 0 bodies s.
Proof. reflexivity. Qed.

Lemma when_some : forall b A (x : option A) y, when b x = Some y -> b = true /\ x = Some y.
Proof. intros [] A x y H; [now split|discriminate]. Qed.

Lemma andthen_some : forall A B (x : option A) (f : A -> option B) y, andthen x f = Some y -> exists z, x = Some z /\ f z = Some y.
Proof. intros A B [x|] f y H; [now exists x|discriminate]. Qed.

Lemma bind_ok : forall A B (x : outcome A) (f : A -> outcome B) y, bind x f = Ok y -> exists z, x = Ok z /\ f z = Ok y.
Proof. intros A B x f y H. destruct x; try discriminate. now eexists. Qed.

(** ** Quiet actions *)

Definition handles (d : desk) : list N := map handle (windows d).

Lemma handles_map : forall g d, (forall w, handle (g w) = handle w) -> map handle (map g (windows d)) = handles d.
Proof. intros g d H. rewrite map_map. unfold handles. apply map_ext. exact H. Qed.

Lemma handles_touch : forall h d, handles (touch h d) = handles d.
Proof. intros h d. apply (handles_map (fun w => if handle w =? h then _ else w)). intro w. destruct (handle w =? h); reflexivity. Qed.

Lemma handles_update : forall h w d, handles (update_one h w d) = handles d.
Proof. intros h w d. unfold update_one. now rewrite handles_touch. Qed.

Lemma handles_quietly : forall hs d, handles (update_quietly hs d) = handles d.
Proof.
  intro hs. induction hs as [|h hs IH]; intro d; [reflexivity|]. unfold update_quietly in *. cbn [fold_left]. rewrite IH.
  destruct (window_at h d); [apply handles_update|reflexivity].
Qed.

Lemma quiet_handles : forall t a d d', quiet a = true -> expected t a d = Some d' -> handles d' = handles d.
Proof.
  intro t.
  assert (All : forall l, Forall (fun a => forall d d', quiet a = true -> expected t a d = Some d' -> handles d' = handles d) l ->
    forall d d', forallb quiet l = true -> expected_all t l d = Some d' -> handles d' = handles d).
  { intros l F. induction F as [|a l Fa Fl IH]; intros d d' Q E.
    - injection E as <-. reflexivity.
    - cbn [forallb] in Q. apply andb_prop in Q. destruct Q as [Q1 Q2]. cbn [expected_all] in E. apply andthen_some in E. destruct E as (d1 & E1 & E2).
      rewrite (IH _ _ Q2 E2). exact (Fa _ _ Q1 E1). }
  apply (action_induction (fun a => forall d d', quiet a = true -> expected t a d = Some d' -> handles d' = handles d)).
  - intros n d d' _ E. injection E as <-. reflexivity.
  - intros o [h|] d d' Q E; [discriminate|]. apply when_some in E. destruct E as [_ E]. injection E as <-. reflexivity.
  - intros o [h|] d d' Q E; [discriminate|]. apply when_some in E. destruct E as [_ E]. destruct (has_window o d); injection E as <-; reflexivity.
  - intros o d d' _ E. apply when_some in E. destruct E as [_ E]. injection E as <-. apply (handles_map (fun w => if owner w =? o then _ else w)).
    intro w. destruct (owner w =? o); reflexivity.
  - intros o from d d' _ E. apply when_some in E. destruct E as [_ E]. injection E as <-.
    apply (handles_map (fun w => if owner w =? from then _ else w) (with_alive (o :: alive d) d)). intro w. destruct (owner w =? from); reflexivity.
  - intros o from answer body _ d d' Q. discriminate.
  - intros o d d' _ E. apply when_some in E. destruct E as [_ E]. injection E as <-. reflexivity.
  - intros o answer body _ d d' Q. discriminate.
  - intros h answer body _ d d' Q. discriminate.
  - intros h e body F d d' Q E. cbn [quiet] in Q. change (match window_at h d with Some w => expected_all t body (tell (owner w) h (Reported e) d) | None => Some d end = Some d') in E.
    destruct (window_at h d) as [w|]; [|now injection E as <-]. now rewrite (All body F _ _ Q E).
  - intros bodies F d d' _ E. rewrite expected_idle in E. apply when_some in E. destruct E as [Q E].
    assert (G : forall hs d d', update_each t hs bodies d = Some d' -> handles d' = handles d); [|exact (G _ _ _ E)].
    clear d d' E. induction F as [|b bodies Fb Fl IH]; intros [|h hs] d d' E.
    + injection E as <-. reflexivity.
    + assert (X : Some d' = Some (update_quietly (h :: hs) d)) by (symmetry; exact E). injection X as ->. exact (handles_quietly (h :: hs) d).
    + injection E as <-. reflexivity.
    + cbn [forallb] in Q. apply andb_prop in Q. destruct Q as [Q1 Q2]. cbn [update_each] in E. destruct (window_at h d) as [w|]; [|discriminate].
      apply andthen_some in E. destruct E as (d1 & E1 & E2). rewrite (IH Q2 _ _ _ E2). rewrite (All b Fb _ _ Q1 E1). apply handles_update.
Qed.

Lemma quiet_handles_all : forall t l d d', forallb quiet l = true -> expected_all t l d = Some d' -> handles d' = handles d.
Proof.
  intros t l. induction l as [|a l IH]; intros d d' Q E.
  - injection E as <-. reflexivity.
  - cbn [forallb] in Q. apply andb_prop in Q. destruct Q as [Q1 Q2]. cbn [expected_all] in E. apply andthen_some in E. destruct E as (d1 & E1 & E2).
    rewrite (IH _ _ Q2 E2). exact (quiet_handles _ _ _ _ Q1 E1).
Qed.

Lemma changes_take_over : forall o from s s', take_over o from s = Ok s' -> changes s' = changes s.
Proof.
  intros o from s s' E. unfold take_over, with_object in E. destruct (object_at s from) as [x|]; [|discriminate]. apply bind_ok in E.
  destruct E as (s1 & E1 & E2). destruct (object_at s1 from); [|discriminate]. injection E2 as <-. destruct (native x) as [h|].
  - unfold fix_association in E1. destruct (redirect h o _); [|discriminate]. injection E1 as <-. reflexivity.
  - injection E1 as <-. reflexivity.
Qed.

Lemma changes_update : forall o h handler s s', (forall s s', handler s = Ok s' -> changes s' = changes s) ->
  update_window o h handler s = Ok s' -> changes s' = changes s.
Proof.
  intros o h handler s s' H E. unfold update_window, call_handler, with_object in E. destruct (object_at s o) as [x|]; [|discriminate]. cbv zeta in E.
  match type of E with match object_at ?p o with _ => _ end = _ => destruct (object_at p o); [|discriminate] end. apply H in E. exact E.
Qed.

Lemma changes_rest : forall l s s', update_rest l s = Ok s' -> changes s' = changes s.
Proof.
  intro l. induction l as [|[h o] l IH]; intros s s' E.
  - injection E as <-. reflexivity.
  - cbn [update_rest] in E. apply bind_ok in E. destruct E as (s1 & E1 & E2). rewrite (IH _ _ E2). apply (changes_update o h Ok); [|assumption].
    intros a b H. now injection H as <-.
Qed.

Lemma quiet_changes : forall t a s s', quiet a = true -> run t a s = Ok s' -> changes s' = changes s.
Proof.
  intro t.
  assert (All : forall l, Forall (fun a => forall s s', quiet a = true -> run t a s = Ok s' -> changes s' = changes s) l ->
    forallb quiet l = true -> forall s s', run_all t l s = Ok s' -> changes s' = changes s).
  { intros l F Q. induction F as [|a l Fa Fl IH]; intros s s' E.
    - injection E as <-. reflexivity.
    - cbn [forallb] in Q. apply andb_prop in Q. destruct Q as [Q1 Q2]. cbn [run_all] in E. apply bind_ok in E. destruct E as (s1 & E1 & E2).
      rewrite (IH Q2 _ _ E2). exact (Fa _ _ Q1 E1). }
  apply (action_induction (fun a => forall s s', quiet a = true -> run t a s = Ok s' -> changes s' = changes s)).
  - intros n s s' _ E. injection E as <-. reflexivity.
  - intros o [h|] s s' Q E; [discriminate|]. cbn [run] in E. unfold construct, open_window, with_object in E. rewrite object_put, N.eqb_refl in E.
    injection E as <-. reflexivity.
  - intros o [h|] s s' Q E; [discriminate|]. cbn [run] in E. unfold open_window, with_object in E. destruct (object_at s o) as [x|]; [|discriminate].
    destruct (native x); injection E as <-; reflexivity.
  - intros o s s' _ E. cbn [run] in E. unfold show_window, with_object in E. destruct (object_at s o) as [x|]; [|discriminate].
    destruct (native x) as [h|]; [|now injection E as <-]. destruct (member h (natives s)); [injection E as <-; reflexivity|].
    destruct t; try discriminate. now injection E as <-.
  - intros o from s s' _ E. exact (changes_take_over _ _ _ _ E).
  - intros o from answer body _ s s' Q. discriminate.
  - intros o s s' _ E. cbn [run] in E. unfold destroy, with_object in E. destruct (object_at s o); [|discriminate]. injection E as <-. reflexivity.
  - intros o answer body _ s s' Q. discriminate.
  - intros h answer body _ s s' Q. discriminate.
  - intros h e body F s s' Q E. cbn [quiet] in Q. change (forward_event t h e (run_all t body) s = Ok s') in E. unfold forward_event, call_handler, with_object in E.
    destruct (associated h s) as [[h' o]|]; [|now injection E as <-]. destruct (object_at s o); [|discriminate]. apply (All body F Q) in E. exact E.
  - intros bodies F s s' Q E. cbn [quiet] in Q. rewrite run_idle in E. revert E. generalize 0%nat. revert s s'.
    induction F as [|b bodies Fb Fl IH]; intros s s' i E; cbn [update_from] in E; destruct (nth_error (window_associations s) i) as [[h o]|]; try now injection E as <-.
    + now apply changes_rest in E.
    + cbn [forallb] in Q. apply andb_prop in Q. destruct Q as [Q1 Q2]. apply bind_ok in E. destruct E as (s1 & E1 & E2).
      destruct (N.eqb_spec (changes s1) (changes s)) as [C|]; [|discriminate]. rewrite (IH Q2 _ _ _ E2). exact C.
Qed.

Lemma quiet_changes_all : forall t l s s', forallb quiet l = true -> run_all t l s = Ok s' -> changes s' = changes s.
Proof.
  intros t l. induction l as [|a l IH]; intros s s' Q E.
  - injection E as <-. reflexivity.
  - cbn [forallb] in Q. apply andb_prop in Q. destruct Q as [Q1 Q2]. cbn [run_all] in E. apply bind_ok in E. destruct E as (s1 & E1 & E2).
    rewrite (IH _ _ Q2 E2). exact (quiet_changes _ _ _ _ Q1 E1).
Qed.

(** ** Simulation *)

Definition simulates (t : toolkit) (f : desk -> option desk) (g : application -> outcome application) : Prop :=
  forall d s d', agrees t d s -> f d = Some d' -> exists s', g s = Ok s' /\ agrees t d' s'.

Lemma simulates_call : forall t f g d s d' w h n, simulates t f g -> agrees t d s -> In w (windows d) ->
  f (tell (owner w) h n d) = Some d' ->
  exists s', call_handler (owner w) h (as_event t n) g s = Ok s' /\ agrees t d' s'.
Proof.
  intros t f g d s d' w h n F A I E. unfold call_handler, with_object. rewrite (ag_open _ _ _ A w I).
  exact (F _ _ _ (agrees_tell t d s _ _ _ A) E).
Qed.

(** Asking a window to close. *)
Lemma simulates_close : forall t body h answer, simulates t (expected_all t body) (run_all t body) ->
  simulates t (ask_to_close h answer (forallb quiet body) (expected_all t body)) (close_native h answer (run_all t body)).
Proof.
  intros t body h answer F d s d' A E. unfold ask_to_close in E. destruct (window_at h d) as [w|] eqn:W; [|discriminate].
  apply when_some in E. destruct E as [Q E]. apply andthen_some in E. destruct E as (d1 & E1 & E2).
  unfold close_native, forward_close. rewrite (associated_window _ _ _ h A), W.
  pose proof (window_at_some _ _ _ W) as [Iw Hw]. subst h.
  destruct (simulates_call t _ _ d s d1 w (handle w) AskedToClose F A Iw E1) as (s1 & R1 & A1). cbn [as_event] in R1.
  rewrite R1. cbn [bind]. destruct answer.
  - assert (C : changes s1 = changes s).
    { unfold call_handler, with_object in R1. destruct (object_at s (owner w)); [|discriminate]. apply quiet_changes_all in R1; assumption. }
    rewrite C, N.eqb_refl. cbn [bind fst snd]. injection E2 as <-. eexists. split; [reflexivity|].
    assert (I1 : In (handle w) (map handle (windows d1))).
    { change (In (handle w) (handles d1)). rewrite (quiet_handles_all _ _ _ _ Q E1). now apply (in_map handle). }
    apply in_map_iff in I1. destruct I1 as (w1 & Hw1 & I1). rewrite <- Hw1. now apply agrees_drop.
  - cbn [bind fst snd]. injection E2 as <-. eexists. split; [reflexivity|assumption].
Qed.

Lemma natives_window : forall t d s w, agrees t d s -> In w (windows d) -> member (handle w) (natives s) = true.
Proof. intros t d s w A I. apply member_in. rewrite (ag_natives _ _ _ A). now apply in_map. Qed.

Lemma simulates_close_window : forall t body o answer d s d' w, simulates t (expected_all t body) (run_all t body) ->
  agrees t d s -> window_of o d = Some w -> closable t w = true ->
  ask_to_close (handle w) answer (forallb quiet body) (expected_all t body) d = Some d' ->
  exists s', close_window t o answer (run_all t body) s = Ok s' /\ agrees t d' s'.
Proof.
  intros t body o answer d s d' w F A W K E. pose proof (window_of_some _ _ _ W) as [Iw Ow]. subst o.
  destruct (simulates_close t body (handle w) answer F d s d' A E) as (s' & R & A'). exists s'. split; [|assumption].
  unfold close_window, with_object. rewrite (ag_open _ _ _ A w Iw). cbn [native]. rewrite (natives_window _ _ _ _ A Iw).
  destruct t; try assumption. cbn [closable] in K. rewrite <- (ag_shown _ _ _ A w Iw), K. assumption.
Qed.

Lemma agrees_alive : forall t d s l, agrees t d s -> (forall o, In o l <-> In o (alive d)) -> agrees t (with_alive l d) s.
Proof.
  intros t d s l [A1 A2 A3 A4 A5 A6 A7 A8 A9 A10 A11 A12 A13] H.
  constructor; cbn [with_alive windows alive closed time story]; try assumption.
  - intros o I. apply H. now apply A9.
  - intros w I. rewrite H. now apply A10.
  - intro o. rewrite H. apply A11.
Qed.

(** The window at a handle after it was updated or others were. *)
Lemma simulates_update : forall t f g d s d' w, simulates t f g -> agrees t d s -> In w (windows d) ->
  f (update_one (handle w) w d) = Some d' ->
  exists s', update_window (owner w) (handle w) g s = Ok s' /\ agrees t d' s'.
Proof.
  intros t f g d s d' w F A I E. unfold update_window. unfold with_object at 1. rewrite (ag_open _ _ _ A w I). cbn [native start_time last_time].
  cbv zeta. unfold call_handler, with_object. rewrite object_put, N.eqb_refl.
  refine (F _ _ _ _ E). unfold update_one.
  change (touch (handle w) (tell (owner w) (handle w) (Updated (time d - updated w) (time d - opened w)) d)) with
    (tell (owner w) (handle w) (Updated (time d - updated w) (time d - opened w)) (touch (handle w) d)).
  match goal with |- agrees t _ (add_call (_, _, UpdateCall _ (clock ?p - _)) _) => change (clock p) with (clock s) end.
  rewrite (ag_time _ _ _ A) at 1 2.
  apply (agrees_tell t (touch (handle w) d) _ (owner w) (handle w) (Updated (time d - updated w) (time d - opened w))).
  now apply agrees_touch.
Qed.

Lemma NoDup_right : forall (a b : list N), NoDup (a ++ b) -> NoDup b.
Proof. intros a b. induction a as [|x a IH]; intro D; [assumption|]. inversion D; subst. now apply IH. Qed.

Lemma simulates_quietly : forall t hs d s, agrees t d s ->
  (forall h, In h hs -> In h (handles d)) ->
  forall i, hs = skipn i (handles d) ->
  exists s', update_rest (skipn i (window_associations s)) s = Ok s' /\ agrees t (update_quietly hs d) s'.
Proof.
  assert (G : forall t (l : list window) d s, agrees t d s -> NoDup (map handle l) -> NoDup (map owner l) -> (forall w, In w l -> exists w', In w' (windows d) /\ handle w' = handle w /\ owner w' = owner w) ->
    exists s', update_rest (map (fun w => (handle w, owner w)) l) s = Ok s' /\ agrees t (update_quietly (map handle l) d) s').
  { intros t l. induction l as [|w l IH]; intros d s A D1 D2 H.
    - exists s. now split.
    - cbn [map] in *. inversion D1 as [|? ? N1 N1']; inversion D2 as [|? ? N2 N2']; subst. destruct (H w (or_introl eq_refl)) as (w' & I & Eh & Eo).
      assert (W : window_at (handle w) d = Some w').
      { destruct (window_at (handle w) d) as [v|] eqn:E.
        - apply window_at_some in E. destruct E as [Iv E]. f_equal. apply (NoDup_map_same _ handle (windows d)); try assumption; [apply (ag_handles _ _ _ A)|congruence].
        - exfalso. apply window_at_none in E. apply E. rewrite <- Eh. now apply in_map. }
      destruct (simulates_update t Some Ok d s (update_one (handle w') w' d) w') as (s1 & R1 & A1); [|assumption|assumption|reflexivity|].
      { intros d1 s1 d2 A1 E1. injection E1 as <-. now exists s1. }
      cbn [update_rest]. rewrite <- Eh, <- Eo. rewrite R1. cbn [bind].
      destruct (IH _ s1 A1 N1' N2') as (s2 & R2 & A2).
      + intros v Iv. destruct (H v (or_intror Iv)) as (v' & Iv' & Evh & Evo).
        exists (if handle v' =? handle w' then {| handle := handle v'; owner := owner v'; opened := opened v'; updated := time d; presented := presented v' |} else v').
        split; [|destruct (handle v' =? handle w'); now split].
        apply (in_map (fun v => if handle v =? handle w' then {| handle := handle v; owner := owner v; opened := opened v; updated := time d; presented := presented v |} else v) (windows d) v' Iv').
      + exists s2. split; [exact R2|]. unfold update_quietly in *. cbn [fold_left]. rewrite Eh, W. rewrite <- Eh. exact A2. }
  intros t hs d s A _ i ->. rewrite (ag_assoc _ _ _ A). unfold handles. rewrite !skipn_map. apply G.
  - assumption.
  - rewrite <- skipn_map. pose proof (ag_handles _ _ _ A) as D. rewrite <- (firstn_skipn i (map handle (windows d))) in D. now apply NoDup_right in D.
  - rewrite <- skipn_map. pose proof (ag_owners _ _ _ A) as D. rewrite <- (firstn_skipn i (map owner (windows d))) in D. now apply NoDup_right in D.
  - intros w I. exists w. split; [|now split]. rewrite <- (firstn_skipn i (windows d)). apply in_or_app. now right.
Qed.

Lemma simulates_idle : forall t bodies, forallb (forallb quiet) bodies = true ->
  Forall (fun b => simulates t (expected_all t b) (run_all t b)) bodies ->
  forall i d s d', agrees t d s -> update_each t (skipn i (handles d)) bodies d = Some d' ->
  exists s', update_from t i bodies s = Ok s' /\ agrees t d' s'.
Proof.
  intros t bodies. induction bodies as [|b bodies IH]; intros Q F i d s d' A E.
  - cbn [update_from]. rewrite (ag_assoc _ _ _ A), nth_error_map. destruct (nth_error (windows d) i) as [w|] eqn:W; cbn [option_map].
    + assert (X : d' = update_quietly (skipn i (handles d)) d).
      { cbn [update_each] in E. destruct (skipn i (handles d)); injection E as <-; reflexivity. }
      subst d'. rewrite <- (ag_assoc _ _ _ A). apply simulates_quietly; [assumption| |reflexivity].
      intros h I. rewrite <- (firstn_skipn i (handles d)). apply in_or_app. now right.
    + apply nth_error_None in W. exists s. split; [reflexivity|]. rewrite skipn_all2 in E; [|unfold handles; now rewrite map_length]. injection E as <-. assumption.
  - cbn [update_from]. rewrite (ag_assoc _ _ _ A), nth_error_map. destruct (nth_error (windows d) i) as [w|] eqn:W; cbn [option_map].
    + cbn [forallb] in Q. apply andb_prop in Q. destruct Q as [Q1 Q2]. inversion F as [|? ? Fb Fl]; subst.
      pose proof (nth_error_In _ _ W) as Iw.
      assert (K : skipn i (handles d) = handle w :: skipn (S i) (handles d)).
      { assert (X : nth_error (handles d) i = Some (handle w)) by (unfold handles; rewrite nth_error_map, W; reflexivity).
        clear - X. revert i X. induction (handles d) as [|a l IH]; intros [|i] X; try discriminate.
        - injection X as ->. reflexivity.
        - cbn [nth_error] in X. cbn [skipn]. now apply IH. }
      rewrite K in E. cbn [update_each] in E. destruct (window_at (handle w) d) as [w'|] eqn:W'; [|discriminate].
      assert (w' = w).
      { apply window_at_some in W'. destruct W' as [I' E']. apply (NoDup_map_same _ handle (windows d)); try assumption. apply (ag_handles _ _ _ A). }
      subst w'. apply andthen_some in E. destruct E as (d1 & E1 & E2).
      destruct (simulates_update t _ _ d s d1 w Fb A Iw E1) as (s1 & R1 & A1). rewrite R1. cbn [bind].
      assert (C : changes s1 = changes s).
      { apply (changes_update (owner w) (handle w) (run_all t b) s s1); [|assumption]. intros a a' H. now apply (quiet_changes_all t b). }
      rewrite C, N.eqb_refl. apply (IH Q2 Fl (S i) d1 s1 d' A1).
      rewrite (quiet_handles_all _ _ _ _ Q1 E1), handles_update. exact E2.
    + apply nth_error_None in W. exists s. split; [reflexivity|]. rewrite skipn_all2 in E; [|unfold handles; now rewrite map_length]. injection E as <-. assumption.
Qed.

Lemma simulates_all : forall t l, Forall (fun a => simulates t (expected t a) (run t a)) l -> simulates t (expected_all t l) (run_all t l).
Proof.
  intros t l F. induction F as [|a l Fa Fl IH]; intros d s d' A E.
  - injection E as <-. now exists s.
  - cbn [expected_all] in E. apply andthen_some in E. destruct E as (d1 & E1 & E2). destruct (Fa d s d1 A E1) as (s1 & R1 & A1).
    cbn [run_all]. rewrite R1. cbn [bind]. exact (IH d1 s1 d' A1 E2).
Qed.

Lemma simulates_action : forall t a, simulates t (expected t a) (run t a).
Proof.
  intros t. apply action_induction.
  - intros n d s d' A E. injection E as <-. eexists. split; [reflexivity|]. rewrite <- (ag_time _ _ _ A). now apply agrees_time.
  - intros o c d s d' A E. apply when_some in E. destruct E as [L E]. apply negb_true_iff, member_out in L.
    cbn [run]. unfold construct, open_window, with_object. rewrite object_put, N.eqb_refl. cbn [native].
    assert (A1 := agrees_new t d s o {| native := None; start_time := 0; last_time := 0 |} A L eq_refl).
    destruct c as [h|].
    + apply when_some in E. destruct E as [F E]. injection E as <-. cbn [bind snd]. eexists. split; [reflexivity|].
      apply (agrees_open t (with_alive (o :: alive d) d) (put o {| native := None; start_time := 0; last_time := 0 |} s)).
      * assumption.
      * now left.
      * intro I. apply L. now apply (ag_closed _ _ _ A).
      * intros w I Ow. apply L. rewrite <- Ow. now apply (ag_owned _ _ _ A).
      * destruct (window_at h (with_alive (o :: alive d) d)); [discriminate|reflexivity].
    + injection E as <-. cbn [bind snd]. eexists. split; [reflexivity|assumption].
  - intros o c d s d' A E. apply when_some in E. destruct E as [L E]. apply andb_prop in L. destruct L as [L C]. apply member_in in L. apply negb_true_iff, member_out in C.
    cbn [run]. unfold open_window, with_object. destruct (alive_object _ _ _ _ A L) as [x Hx]. rewrite Hx.
    destruct (has_window o d) eqn:W.
    + apply has_window_true in W. destruct W as (w & Iw & Ow). pose proof (ag_open _ _ _ A w Iw) as X. rewrite Ow, Hx in X. injection X as ->. cbn [native].
      injection E as <-. exists s. now split.
    + pose proof (proj1 (has_window_false _ _) W) as V. rewrite (ag_empty _ _ _ A o x Hx C V). destruct c as [h|].
      * apply when_some in E. destruct E as [F E]. injection E as <-. cbn [bind snd]. eexists. split; [reflexivity|].
        apply (agrees_open t d s o h A L C V). destruct (window_at h d); [discriminate|reflexivity].
      * injection E as <-. exists s. now split.
  - intros o d s d' A E. apply when_some in E. destruct E as [L E]. apply andb_prop in L. destruct L as [L C]. apply member_in in L. apply negb_true_iff, member_out in C.
    cbn [run]. unfold show_window, with_object. destruct (alive_object _ _ _ _ A L) as [x Hx]. rewrite Hx. injection E as <-.
    destruct (window_of o d) as [w|] eqn:W.
    + apply window_of_some in W. destruct W as [Iw Ow]. pose proof (ag_open _ _ _ A w Iw) as X. rewrite Ow, Hx in X. injection X as ->. cbn [native].
      rewrite (natives_window _ _ _ _ A Iw). eexists. split; [reflexivity|]. now apply agrees_present.
    + pose proof (proj1 (window_of_none _ _) W) as V. rewrite (ag_empty _ _ _ A o x Hx C V). exists s. split; [reflexivity|]. now rewrite present_none.
  - intros o from d s d' A E. apply when_some in E. destruct E as [L E]. apply andb_prop in L. destruct L as [L O]. apply andb_prop in L. destruct L as [L C].
    apply member_in in L. apply negb_true_iff, member_out in C. apply negb_true_iff, member_out in O. injection E as <-.
    destruct (agrees_take_over t d s o from A L C) as (s' & R & A').
    + intros ->. contradiction.
    + intros w I Ow. apply O. rewrite <- Ow. now apply (ag_owned _ _ _ A).
    + exists s'. split; [exact R|].
      assert (W1 : without o (closed d) = closed d).
      { assert (K : ~ In o (closed d)) by (intro I; apply O; now apply (ag_closed _ _ _ A)). clear - K. induction (closed d) as [|a l IH]; [reflexivity|].
        unfold without in *. cbn [filter]. destruct (N.eqb_spec a o) as [->|]; cbn [negb]; [exfalso; apply K; now left|]. rewrite IH; [reflexivity|].
        intro I. apply K. now right. }
      assert (W2 : without o (alive d) = alive d).
      { clear - O. induction (alive d) as [|a l IH]; [reflexivity|].
        unfold without in *. cbn [filter]. destruct (N.eqb_spec a o) as [->|]; cbn [negb]; [exfalso; apply O; now left|]. rewrite IH; [reflexivity|].
        intro I. apply O. now right. }
      rewrite W1, W2 in A'. destruct d. exact A'.
  - intros o from answer body F d s d' A E. pose proof (simulates_all t body F) as Fb.
    change (when (member o (alive d) && member from (alive d))
        (if o =? from then Some d else
         andthen
           (match window_of o d with
            | Some w => when (answer && closable t w) (ask_to_close (handle w) answer (forallb quiet body) (expected_all t body) d)
            | None => when (match t with WindowsApi => false | _ => negb (member o (closed d)) end) (Some d)
            end)
           (fun d =>
              when (member o (alive d) && member from (alive d) && negb (member from (closed d)) && negb (has_window o d))
                (Some (hand_over from o (with_closed (without o (closed d)) d))))) = Some d') in E.
    change (run t (MoveAssign o from answer body) s) with (move_assign t o from answer (run_all t body) s). unfold move_assign.
    apply when_some in E. destruct E as [L E]. apply andb_prop in L. destruct L as [L _]. apply member_in in L.
    destruct (N.eqb_spec o from) as [<-|Hne]; [injection E as <-; exists s; now split|].
    apply andthen_some in E. destruct E as (d1 & E1 & E2).
    assert (X : exists s1, close_window t o answer (run_all t body) s = Ok s1 /\ agrees t d1 s1).
    { destruct (window_of o d) as [w|] eqn:W.
      - apply when_some in E1. destruct E1 as [K E1]. apply andb_prop in K. destruct K as [_ K].
        exact (simulates_close_window t body o answer d s d1 w Fb A W K E1).
      - apply when_some in E1. destruct E1 as [K E1]. injection E1 as <-. exists s. split; [|assumption].
        unfold close_window, with_object. destruct (alive_object _ _ _ _ A L) as [x Hx]. rewrite Hx.
        pose proof (proj1 (window_of_none _ _) W) as V.
        assert (C : ~ In o (closed d)) by (destruct t; [discriminate| |]; now apply negb_true_iff, member_out in K).
        rewrite (ag_empty _ _ _ A o x Hx C V). destruct t; [discriminate|reflexivity|reflexivity]. }
    destruct X as (s1 & R1 & A1). rewrite R1. cbn [bind].
    apply when_some in E2. destruct E2 as [K E2]. injection E2 as <-. apply andb_prop in K. destruct K as [K W]. apply andb_prop in K. destruct K as [K C].
    apply andb_prop in K. destruct K as [Lo Lf]. apply member_in in Lo. apply member_in in Lf. apply negb_true_iff, member_out in C. apply negb_true_iff in W.
    pose proof (proj1 (has_window_false _ _) W) as V. unfold with_object at 1. destruct (alive_object _ _ _ _ A1 Lo) as [x Hx]. rewrite Hx.
    destruct (agrees_take_over t d1 s1 o from A1 Lf C Hne V) as (s' & R & A'). exists s'. split; [exact R|].
    apply (agrees_alive _ _ _ (alive d1)) in A'; [destruct d1; exact A'|]. intro o'. cbn [hand_over with_windows with_closed with_alive alive]. cbn [In]. rewrite without_in.
    destruct (N.eq_dec o' o) as [->|]; [tauto|]. split; [intro; right; tauto|]. intros [->|[I _]]; [congruence|assumption].
  - intros o d s d' A E. apply when_some in E. destruct E as [L E]. apply andb_prop in L. destruct L as [L W]. apply member_in in L. apply negb_true_iff in W.
    injection E as <-. cbn [run]. unfold destroy, with_object. destruct (alive_object _ _ _ _ A L) as [x Hx]. rewrite Hx. eexists. split; [reflexivity|].
    apply agrees_destroy; [assumption|]. now apply has_window_false.
  - intros o answer body F d s d' A E. pose proof (simulates_all t body F) as Fb.
    change (match window_of o d with
      | Some w => when (closable t w) (ask_to_close (handle w) answer (forallb quiet body) (expected_all t body) d)
      | None => None end = Some d') in E.
    change (run t (Close o answer body) s) with (close_window t o answer (run_all t body) s).
    destruct (window_of o d) as [w|] eqn:W; [|discriminate]. apply when_some in E. destruct E as [K E].
    exact (simulates_close_window t body o answer d s d' w Fb A W K E).
  - intros h answer body F. exact (simulates_close t body h answer (simulates_all t body F)).
  - intros h e body F d s d' A E. pose proof (simulates_all t body F) as Fb.
    change (match window_at h d with Some w => expected_all t body (tell (owner w) h (Reported e) d) | None => Some d end = Some d') in E.
    change (run t (Event h e body) s) with (forward_event t h e (run_all t body) s). unfold forward_event. rewrite (associated_window _ _ _ h A).
    destruct (window_at h d) as [w|] eqn:W.
    + pose proof (window_at_some _ _ _ W) as [Iw _]. destruct (simulates_call t _ _ d s d' w h (Reported e) Fb A Iw E) as (s' & R & A').
      exists s'. split; [|assumption]. destruct e; exact R.
    + injection E as <-. exists s. now split.
  - intros bodies F d s d' A E. rewrite expected_idle in E. apply when_some in E. destruct E as [Q E]. rewrite run_idle.
    apply (simulates_idle t bodies Q) with (d := d); [|assumption|exact E].
    clear - F. induction F as [|b bodies Fb Fl IH]; constructor; [now apply simulates_all|assumption].
Qed.

Theorem simulates_history : forall t l d, expected_all t l empty_desk = Some d -> exists s, run_all t l start = Ok s /\ agrees t d s.
Proof.
  intros t l d E. apply (simulates_all t l) with (d := empty_desk); [|apply agrees_start|exact E].
  apply Forall_forall. intros a _. apply simulates_action.
Qed.
