(** Properties C56 and C69 to C72: windows, their events and the event loop.

    The theorems named _partial are about the programs and users [expected] speaks about:
    those that
    - close a window through its object only while it is open (and, on GTK, after it was
      shown), and move and show only objects whose window was not closed;
    - move to an object with [=] only when that closes its window (on GTK and macOS also
      when it has none);
    - let no object go that has a window;
    - neither open nor close windows in close handlers and in update.
    The _refuted theorems show that each of these restrictions is needed. *)
From Coq Require Import NArith ZArith List Bool Lia.
From Coq Require Import ZifyBool ZifyNat ZifyN.
From Verif Require Import Base KeySpec KeyModel WindowSpec WindowModel WindowText WindowLemmas WindowLemmas2 WindowLemmas3.
Import ListNotations.
Open Scope N_scope.

Lemma history_agrees : forall t l d s, history t l d s -> agrees t d s.
Proof. intros t l d s [E R]. destruct (simulates_history t l d E) as (s' & R' & A). rewrite R in R'. injection R' as <-. assumption. Qed.

(** An example with two windows, a move in a key handler, a refused close, updates and a move
    assignment. *)
Definition day : list action :=
  [New 1 (Some 7); Show 1; Pass 3; New 2 (Some 8); Show 2;
   Event 7 (KeyPressed 0x41) [MoveConstruct 3 1; Event 7 (KeyReleased 0x41) []];
   Idle [[Pass 2]; [MoveConstruct 4 2]];
   UserClose 7 false [Pass 1]; Pass 5;
   MoveAssign 3 4 true [MoveConstruct 5 3];
   Event 7 Resized []; Event 8 Resized []; Idle []; Open 4 (Some 7); Event 7 Resized []].

Definition evening (t : toolkit) : desk := match expected_all t day empty_desk with Some d => d | None => empty_desk end.
Definition night (t : toolkit) : application := match run_all t day start with Ok s => s | _ => start end.

Example day_history : forall t, history t day (evening t) (night t).
Proof. intros []; (split; [vm_compute; reflexivity|vm_compute; reflexivity]). Qed.

Example evening_windows : forall t, map (fun w => (handle w, owner w)) (windows (evening t)) = [(8, 3); (7, 4)] /\ alive (evening t) = [5; 4; 3; 2; 1] /\ closed (evening t) = [5].
Proof. intros []; (split; [vm_compute; reflexivity|]; split; vm_compute; reflexivity). Qed.

Example evening_story : forall t, story (evening t) =
  [{| told := 1; about := 7; what := Reported (KeyPressed 0x41) |}; {| told := 3; about := 7; what := Reported (KeyReleased 0x41) |};
   {| told := 3; about := 7; what := Updated 3 3 |}; {| told := 2; about := 8; what := Updated 2 2 |};
   {| told := 3; about := 7; what := AskedToClose |}; {| told := 3; about := 7; what := AskedToClose |};
   {| told := 3; about := 8; what := Reported Resized |}; {| told := 3; about := 8; what := Updated 6 8 |};
   {| told := 4; about := 7; what := Reported Resized |}].
Proof. intros []; vm_compute; reflexivity. Qed.

(** ** C56 *)

(** Whatever happens, the handlers called, their objects and arguments are those expected. *)
Theorem C56_handlers_partial : forall t l d, expected_all t l empty_desk = Some d ->
  exists s, run_all t l start = Ok s /\ calls s = map (as_call t) (story d).
Proof.
  intros t l d E. destruct (simulates_history t l d E) as (s & R & A). exists s. split; [assumption|]. apply (ag_story _ _ _ A).
Qed.
Print Assumptions C56_handlers_partial.

Lemma next : forall t l d s a d', history t l d s -> expected t a d = Some d' -> exists s', run t a s = Ok s' /\ agrees t d' s'.
Proof. intros t l d s a d' H E. apply history_agrees in H. exact (simulates_action t a d s d' H E). Qed.

Lemma found : forall t d s w, agrees t d s -> In w (windows d) -> window_at (handle w) d = Some w.
Proof.
  intros t d s w A I. destruct (window_at (handle w) d) as [v|] eqn:E.
  - apply window_at_some in E. destruct E as [Iv E]. f_equal. apply (NoDup_map_same _ handle (windows d)); try assumption. apply (ag_handles _ _ _ A).
  - exfalso. apply window_at_none in E. apply E. now apply in_map.
Qed.

Lemma event_delivered : forall t d s w e, agrees t d s -> In w (windows d) ->
  exists s', run t (Event (handle w) e []) s = Ok s' /\ calls s' = calls s ++ [(owner w, handle w, as_event t (Reported e))].
Proof.
  intros t d s w e A I. destruct (simulates_action t (Event (handle w) e []) d s (tell (owner w) (handle w) (Reported e) d) A) as (s' & R & A').
  - cbn [expected]. now rewrite (found _ _ _ _ A I).
  - exists s'. split; [assumption|]. rewrite (ag_story _ _ _ A'), (ag_story _ _ _ A). cbn [tell story]. rewrite map_app. reflexivity.
Qed.

Lemma event_dropped : forall t d s h e body, agrees t d s -> ~ In h (map handle (windows d)) -> run t (Event h e body) s = Ok s.
Proof.
  intros t d s h e body A H. change (run t (Event h e body) s) with (forward_event t h e (run_all t body) s). unfold forward_event.
  rewrite (associated_window _ _ _ _ A). apply window_at_none in H. now rewrite H.
Qed.

(** An event of an open window goes to its owner. *)
Theorem C56_owner_partial : forall t l d s w e, history t l d s -> In w (windows d) ->
  exists s', run t (Event (handle w) e []) s = Ok s' /\ calls s' = calls s ++ [(owner w, handle w, as_event t (Reported e))].
Proof. intros t l d s w e H I. apply history_agrees in H. now apply (event_delivered t d). Qed.
Print Assumptions C56_owner_partial.

(** An event of any other native window goes to nobody. *)
Theorem C56_nobody_partial : forall t l d s h e body, history t l d s -> ~ In h (map handle (windows d)) ->
  run t (Event h e body) s = Ok s.
Proof. intros t l d s h e body H N. apply history_agrees in H. now apply (event_dropped t d). Qed.
Print Assumptions C56_nobody_partial.

(** After a move its new owner gets the window's events. *)
Theorem C56_moved_partial : forall t l d s w o e, history t l d s -> In w (windows d) -> ~ In o (alive d) ->
  exists s', run_all t [MoveConstruct o (owner w); Event (handle w) e []] s = Ok s' /\
    calls s' = calls s ++ [(o, handle w, as_event t (Reported e))].
Proof.
  intros t l d s w o e H I N. pose proof (history_agrees _ _ _ _ H) as A. destruct (ag_owned _ _ _ A w I) as [L C].
  destruct (simulates_action t (MoveConstruct o (owner w)) d s (hand_over (owner w) o (with_alive (o :: alive d) d)) A) as (s1 & R1 & A1).
  { cbn [expected]. apply member_in in L. apply member_out in C. apply member_out in N. rewrite L, C, N. reflexivity. }
  destruct (event_delivered t _ s1 {| handle := handle w; owner := o; opened := opened w; updated := updated w; presented := presented w |} e A1) as (s2 & R2 & C2).
  { cbn [hand_over with_windows with_alive windows]. apply in_map_iff. exists w. now rewrite N.eqb_refl. }
  exists s2. split.
  - cbn [run_all]. rewrite R1. cbn [bind handle] in *. rewrite R2. reflexivity.
  - rewrite C2. cbn [handle owner]. f_equal. rewrite (ag_story _ _ _ A1), (ag_story _ _ _ A). reflexivity.
Qed.
Print Assumptions C56_moved_partial.

(** The user closes a window and the program agrees: the object was asked and hears nothing
    more about it. *)
Theorem C56_closed_partial : forall t l d s w e, history t l d s -> In w (windows d) ->
  exists s', run_all t [UserClose (handle w) true []; Event (handle w) e []] s = Ok s' /\
    calls s' = calls s ++ [(owner w, handle w, CloseEvent)] /\ ~ In (handle w) (natives s').
Proof.
  intros t l d s w e H I. pose proof (history_agrees _ _ _ _ H) as A.
  destruct (simulates_action t (UserClose (handle w) true []) d s (drop_window (handle w) (tell (owner w) (handle w) AskedToClose d)) A) as (s1 & R1 & A1).
  { cbn [expected ask_to_close]. unfold ask_to_close. rewrite (found _ _ _ _ A I). reflexivity. }
  assert (Hw : windows (drop_window (handle w) (tell (owner w) (handle w) AskedToClose d)) = filter (fun v => negb (handle v =? handle w)) (windows d)).
  { unfold drop_window. change (window_at (handle w) (tell (owner w) (handle w) AskedToClose d)) with (window_at (handle w) d). rewrite (found _ _ _ _ A I). reflexivity. }
  assert (O : ~ In (handle w) (map handle (windows (drop_window (handle w) (tell (owner w) (handle w) AskedToClose d))))).
  { rewrite Hw. intro K. apply in_map_iff in K. destruct K as (v & E & K). apply filter_In in K. destruct K as [_ K]. rewrite E, N.eqb_refl in K. discriminate. }
  exists s1. split; [|split].
  - cbn [run_all]. rewrite R1. cbn [bind]. rewrite (event_dropped t _ s1 _ e [] A1 O). reflexivity.
  - rewrite (ag_story _ _ _ A1), (ag_story _ _ _ A), drop_story. cbn [tell story]. rewrite map_app. reflexivity.
  - rewrite (ag_natives _ _ _ A1). exact O.
Qed.
Print Assumptions C56_closed_partial.

(** The program refuses: the window stays and its owner still gets its events. *)
Theorem C56_refused_partial : forall t l d s w e, history t l d s -> In w (windows d) ->
  exists s', run_all t [UserClose (handle w) false []; Event (handle w) e []] s = Ok s' /\
    calls s' = calls s ++ [(owner w, handle w, CloseEvent); (owner w, handle w, as_event t (Reported e))] /\ In (handle w) (natives s').
Proof.
  intros t l d s w e H I. pose proof (history_agrees _ _ _ _ H) as A.
  destruct (simulates_action t (UserClose (handle w) false []) d s (tell (owner w) (handle w) AskedToClose d) A) as (s1 & R1 & A1).
  { cbn [expected]. unfold ask_to_close. rewrite (found _ _ _ _ A I). reflexivity. }
  destruct (simulates_action t (Event (handle w) e []) _ s1 (tell (owner w) (handle w) (Reported e) (tell (owner w) (handle w) AskedToClose d)) A1) as (s2 & R2 & A2).
  { cbn [expected]. change (window_at (handle w) (tell (owner w) (handle w) AskedToClose d)) with (window_at (handle w) d). now rewrite (found _ _ _ _ A I). }
  exists s2. split; [|split].
  - cbn [run_all]. rewrite R1. cbn [bind]. rewrite R2. reflexivity.
  - rewrite (ag_story _ _ _ A2), (ag_story _ _ _ A). cbn [tell story]. rewrite !map_app, <- app_assoc. reflexivity.
  - rewrite (ag_natives _ _ _ A2). cbn [tell windows]. now apply in_map.
Qed.
Print Assumptions C56_refused_partial.

Example C56_example : forall t, exists w, In w (windows (evening t)) /\ owner w = 4 /\ ~ In 6 (alive (evening t)) /\ ~ In 9 (map handle (windows (evening t))).
Proof.
  intro t. exists {| handle := 7; owner := 4; opened := 11; updated := 11; presented := false |}.
  destruct t; vm_compute; (split; [tauto|]; split; [reflexivity|]; split; intuition discriminate).
Qed.

(** What the restrictions exclude.  Letting an object go that has a window leaves its address
    behind, and the next event uses it. *)
Theorem C56_destroyed_refuted : forall t e, run_all t [New 1 (Some 7); Destroy 1; Event 7 e []] start = UB DanglingPointer.
Proof. intros t e. reflexivity. Qed.
Print Assumptions C56_destroyed_refuted.

(** A second close has undefined behaviour. *)
Theorem C56_second_close_refuted : forall t, exists u,
  run_all t [New 1 (Some 7); Show 1; Close 1 true []; Close 1 true []] start = UB u.
Proof. intros []; eexists; vm_compute; reflexivity. Qed.
Print Assumptions C56_second_close_refuted.

(** So has moving an object whose window was closed. *)
Theorem C56_moved_closed_refuted : forall t, run_all t [New 1 (Some 7); Show 1; UserClose 7 true []; MoveConstruct 2 1] start = UB DerefEnd.
Proof. intros []; vm_compute; reflexivity. Qed.
Print Assumptions C56_moved_closed_refuted.

(** When the toolkit uses the handle again, such a move redirects another object's window:
    the event of the window of object 2 goes to object 3. *)
Theorem C56_reused_handle_refuted : forall t, exists s,
  run_all t [New 1 (Some 7); Show 1; UserClose 7 true []; New 2 (Some 7); MoveConstruct 3 1; Event 7 Resized []] start = Ok s /\
  calls s = [(1, 7, CloseEvent); (3, 7, ResizeEvent)].
Proof. intros []; eexists; (split; [vm_compute; reflexivity|vm_compute; reflexivity]). Qed.
Print Assumptions C56_reused_handle_refuted.

(** On Windows, moving with [=] to an object without a window has undefined behaviour. *)
Theorem C56_assign_empty_refuted :
  run_all WindowsApi [New 1 (Some 7); MoveConstruct 2 1; New 3 (Some 8); MoveAssign 1 3 true []] start = UB NoReturn.
Proof. vm_compute. reflexivity. Qed.
Print Assumptions C56_assign_empty_refuted.

(** A refused close does not stop a move with [=]: afterwards the events of two native
    windows go to one object, and still do so after that object was moved from. *)
Theorem C56_assign_refused_refuted : forall t, exists s,
  run_all t [New 1 (Some 7); Show 1; New 2 (Some 8); MoveAssign 1 2 false []; Event 7 Resized []; Event 8 Resized []; MoveConstruct 3 1; Event 7 Resized []; Event 8 Resized []] start = Ok s /\
  calls s = [(1, 7, CloseEvent); (1, 7, ResizeEvent); (1, 8, ResizeEvent); (1, 7, ResizeEvent); (3, 8, ResizeEvent)].
Proof. intros []; eexists; (split; [vm_compute; reflexivity|vm_compute; reflexivity]). Qed.
Print Assumptions C56_assign_refused_refuted.

(** A close handler that closes another window leads to the use of an invalid iterator. *)
Theorem C56_close_in_handler_refuted : forall t,
  run_all t [New 1 (Some 7); Show 1; New 2 (Some 8); Show 2; UserClose 8 true [Close 1 true []]] start = UB UseAfterErase.
Proof. intros []; vm_compute; reflexivity. Qed.
Print Assumptions C56_close_in_handler_refuted.

(** On GTK, close does nothing to a window that was not shown yet. *)
Theorem C56_close_hidden_refuted : exists s,
  run_all Gtk [New 1 (Some 7); Close 1 true []; Event 7 Resized []] start = Ok s /\ calls s = [(1, 7, ResizeEvent)].
Proof. eexists. split; [vm_compute; reflexivity|]. vm_compute. reflexivity. Qed.
Print Assumptions C56_close_hidden_refuted.

(** ** C69: opening again *)

(** An object without a window, because none could be created or it was moved from, can be
    given one, and gets its events. *)
Theorem C69_open_partial : forall t l d s o h e, history t l d s -> In o (alive d) -> ~ In o (closed d) ->
  (forall w, In w (windows d) -> owner w <> o) -> ~ In h (map handle (windows d)) ->
  exists s1, open_window o (Some h) s = Ok (true, s1) /\
  exists s2, run t (Event h e []) s1 = Ok s2 /\ calls s2 = calls s ++ [(o, h, as_event t (Reported e))].
Proof.
  intros t l d s o h e H L C W F. apply history_agrees in H. pose proof H as A. destruct (alive_object _ _ _ _ A L) as [x Hx].
  unfold open_window, with_object. rewrite Hx, (ag_empty _ _ _ A o x Hx C W). eexists. split; [reflexivity|].
  apply window_at_none in F. pose proof (agrees_open t d s o h A L C W F) as A1.
  destruct (event_delivered t _ _ {| handle := h; owner := o; opened := time d; updated := time d; presented := false |} e A1) as (s2 & R & C2).
  { cbn [open_window_for with_windows windows]. apply in_or_app. right. now left. }
  exists s2. split; [exact R|]. exact C2.
Qed.
Print Assumptions C69_open_partial.

(** An open window is not opened again. *)
Theorem C69_twice_partial : forall t l d s w c, history t l d s -> In w (windows d) -> open_window (owner w) c s = Ok (false, s).
Proof.
  intros t l d s w c H I. apply history_agrees in H. unfold open_window, with_object. rewrite (ag_open _ _ _ H w I). reflexivity.
Qed.
Print Assumptions C69_twice_partial.

(** When no native window can be created, open says so, and the next attempt may succeed. *)
Theorem C69_failed_partial : forall t l d s o, history t l d s -> In o (alive d) -> open_window o None s = Ok (false, s).
Proof.
  intros t l d s o H L. apply history_agrees in H. destruct (alive_object _ _ _ _ H L) as [x Hx]. unfold open_window, with_object. rewrite Hx.
  destruct (native x); reflexivity.
Qed.
Print Assumptions C69_failed_partial.

(** A closed window cannot be opened again, although one could be created. *)
Theorem C69_reopen_refuted : forall t h, exists s,
  run_all t [New 1 (Some 7); Show 1; Close 1 true []] start = Ok s /\ natives s = [] /\ open_window 1 (Some h) s = Ok (false, s).
Proof. intros [] h; eexists; (split; [vm_compute; reflexivity|]; split; vm_compute; reflexivity). Qed.
Print Assumptions C69_reopen_refuted.

Example C69_example : forall t, In 1 (alive (evening t)) /\ ~ In 1 (closed (evening t)) /\ (forall w, In w (windows (evening t)) -> owner w <> 1) /\
  ~ In 9 (map handle (windows (evening t))).
Proof.
  intros t. destruct (evening_windows t) as (W & L & C). rewrite L, C. split; [cbn; tauto|]. split; [cbn; intuition discriminate|]. split.
  - intros w I E. apply (in_map (fun w => (handle w, owner w))) in I. rewrite W, E in I. cbn [In] in I. intuition congruence.
  - intro I. apply in_map_iff in I. destruct I as (w & E & I). apply (in_map (fun w => (handle w, owner w))) in I. rewrite W, E in I. cbn [In] in I. intuition congruence.
Qed.

(** ** C70: a turn of the event loop without events *)

(** The update functions of all open windows are called, in the order of their opening, with
    the time since their last update and since their opening. *)
Theorem C70_idle_partial : forall t l d s, history t l d s ->
  exists s', run t (Idle []) s = Ok s' /\
    calls s' = calls s ++ map (fun w => (owner w, handle w, UpdateCall (time d - updated w) (time d - opened w))) (windows d).
Proof.
  intros t l d s H. pose proof (history_agrees _ _ _ _ H) as A.
  assert (G : forall v d0, NoDup (map handle v) -> (forall w, In w v -> In w (windows d0)) -> NoDup (handles d0) -> time d0 = time d ->
    story (update_quietly (map handle v) d0) = story d0 ++ map (fun w => {| told := owner w; about := handle w; what := Updated (time d - updated w) (time d - opened w) |}) v).
  { intro v. induction v as [|w v IH]; intros d0 D1 I D2 T.
    - symmetry. apply app_nil_r.
    - cbn [map] in *. inversion D1 as [|? ? N1 N2]; subst. unfold update_quietly in *. cbn [fold_left].
      assert (W : window_at (handle w) d0 = Some w).
      { destruct (window_at (handle w) d0) as [x|] eqn:E.
        - apply window_at_some in E. destruct E as [Ix E]. f_equal. apply (NoDup_map_same _ handle (windows d0)); try assumption. apply I. now left.
        - exfalso. apply window_at_none in E. apply E. apply in_map. apply I. now left. }
      rewrite W. rewrite IH.
      + unfold update_one. cbn [touch with_windows tell story]. rewrite <- app_assoc, T. reflexivity.
      + assumption.
      + intros x Ix. unfold update_one. cbn [touch with_windows tell windows]. apply in_map_iff. exists x. split; [|apply I; now right].
        destruct (N.eqb_spec (handle x) (handle w)) as [E|]; [|reflexivity]. exfalso. apply N1. rewrite <- E. now apply in_map.
      + now rewrite handles_update.
      + exact T. }
  destruct (simulates_action t (Idle []) d s (update_quietly (map handle (windows d)) d) A) as (s' & R & A').
  { rewrite expected_idle. cbn [forallb when update_each]. destruct (map handle (windows d)); reflexivity. }
  exists s'. split; [assumption|]. rewrite (ag_story _ _ _ A'), (ag_story _ _ _ A).
  rewrite (G (windows d) d); [|apply (ag_handles _ _ _ A)|easy|apply (ag_handles _ _ _ A)|reflexivity].
  rewrite map_app, map_map. reflexivity.
Qed.
Print Assumptions C70_idle_partial.

(** Also when the update functions do something, each open window is updated once. *)
Theorem C70_once_partial : forall t l d s bodies d', history t l d s -> forallb (forallb no_idle) bodies = true ->
  expected t (Idle bodies) d = Some d' ->
  exists s', run t (Idle bodies) s = Ok s' /\ calls s' = map (as_call t) (story d') /\
    updates (story d') = updates (story d) ++ map handle (windows d).
Proof.
  intros t l d s bodies d' H N E. pose proof (history_agrees _ _ _ _ H) as A. destruct (simulates_action t (Idle bodies) d s d' A E) as (s' & R & A').
  exists s'. split; [assumption|]. split; [apply (ag_story _ _ _ A')|]. exact (idle_updates t bodies d d' N E).
Qed.
Print Assumptions C70_once_partial.

Example C70_example : forall t, exists d', expected t (Idle [[Event 7 (KeyPressed 0x20) []; Pass 4]; [MoveConstruct 6 4]]) (evening t) = Some d' /\
  updates (story d') = [7; 8; 8] ++ [8; 7].
Proof. intros []; eexists; (split; [vm_compute; reflexivity|vm_compute; reflexivity]). Qed.

(** A window that is closed in its own update function makes the loop use an invalid
    iterator. *)
Theorem C70_close_refuted : forall t, run_all t [New 1 (Some 7); Show 1; Idle [[Close 1 true []]]] start = UB UseAfterErase.
Proof. intros []; vm_compute; reflexivity. Qed.
Print Assumptions C70_close_refuted.

(** ** C71: the times of updates *)

(** Every delta is not negative, and every total is the sum of the deltas its window was told
    so far, whatever objects it passed through.  (Handles are not used again: otherwise the
    sum starts anew with the new window.) *)
Theorem C71_times_partial : forall t l d s, history t l d s -> NoDup (flat_map creations l) ->
  calls s = map (as_call t) (story d) /\ honest (story d).
Proof.
  intros t l d s H N. pose proof (history_agrees _ _ _ _ H) as A. split; [apply (ag_story _ _ _ A)|].
  destruct H as [E _]. exact (honest_history t l d E N).
Qed.
Print Assumptions C71_times_partial.

Example C71_example : exists d s, history Gtk [New 1 (Some 7); Pass 4; Idle []; MoveConstruct 2 1; Pass 5; Idle []] d s /\
  NoDup (flat_map creations [New 1 (Some 7); Pass 4; Idle []; MoveConstruct 2 1; Pass 5; Idle []]) /\
  calls s = [(1, 7, UpdateCall 4 4); (2, 7, UpdateCall 5 9)].
Proof.
  eexists. eexists. split; [split; [vm_compute; reflexivity|vm_compute; reflexivity]|]. split; [|vm_compute; reflexivity].
  constructor; [easy|constructor].
Qed.

(** A move with [=] whose close was refused leaves two windows with one object: the total
    told about window 7 is 2 after deltas of 3 and 2, that of window 8 is 2 after one of 0. *)
Theorem C71_assign_refused_refuted : forall t, exists s,
  run_all t [New 1 (Some 7); Show 1; Pass 3; Idle []; New 2 (Some 8); MoveAssign 1 2 false []; Pass 2; Idle []] start = Ok s /\
  calls s = [(1, 7, UpdateCall 3 3); (1, 7, CloseEvent); (1, 7, UpdateCall 2 2); (1, 8, UpdateCall 0 2)].
Proof. intros []; eexists; (split; [vm_compute; reflexivity|vm_compute; reflexivity]). Qed.
Print Assumptions C71_assign_refused_refuted.

(** ** C72: the end of the event loop *)

(** The loop goes on while and only while a window is open. *)
Theorem C72_ends_partial : forall t l d s, history t l d s -> goes_on t s = true <-> windows d <> [].
Proof.
  intros t l d s H. apply history_agrees in H. unfold goes_on. rewrite (ag_assoc _ _ _ H), (ag_natives _ _ _ H).
  destruct t, (windows d); cbn [map]; split; congruence.
Qed.
Print Assumptions C72_ends_partial.

Example C72_example : exists d s, history Gtk [New 1 (Some 7); Show 1; UserClose 7 true []] d s /\ windows d = [] /\ goes_on Gtk s = false.
Proof. eexists. eexists. split; [split; [vm_compute; reflexivity|vm_compute; reflexivity]|]. split; vm_compute; reflexivity. Qed.

(** When an object was let go with its window, the loop goes on with no object to tell. *)
Theorem C72_destroyed_refuted : forall t, exists s,
  run_all t [New 1 (Some 7); Destroy 1] start = Ok s /\ objects s = [] /\ goes_on t s = true.
Proof. intros []; eexists; (split; [vm_compute; reflexivity|]; split; vm_compute; reflexivity). Qed.
Print Assumptions C72_destroyed_refuted.
