(** Property C138: a program with windows is told the same with every toolkit. *)
From Coq Require Import NArith ZArith List Bool Lia.
From Verif Require Import Base KeySpec KeyModel KeyProps WindowSpec WindowModel WindowText WindowLemmas WindowLemmas2 AlikeSpec AlikeLemmas.
Import ListNotations.
Open Scope N_scope.

(* --------------------------------------------------------------------- C138 *)

(** Programs that work with both toolkits, as far as C56 is about them: the same handlers of
    the same objects are called with the same arguments, in the same order.
    Missing: what C56 says nothing about, see the refutations there and below. *)
Theorem C138_same_partial : forall t t' l l' d d' s s', Forall2 (same_action t t') l l' ->
  history t l d s -> history t' l' d' s' -> calls s = calls s'.
Proof.
  intros t t' l l' d d' s s' S [E R] [E' R'].
  destruct (simulates_history t l d E) as (s1 & R1 & A1). destruct (simulates_history t' l' d' E') as (s2 & R2 & A2).
  assert (s1 = s) as -> by congruence. assert (s2 = s') as -> by congruence.
  rewrite (ag_story _ _ _ A1), (ag_story _ _ _ A2).
  destruct (along_history t t' l l' d S E) as [(st & X & T)|[X _]]; [|congruence]. rewrite E' in X. injection X as ->. now apply told_calls.
Qed.
Print Assumptions C138_same_partial.

(** What works with Windows or GTK works with macOS. *)
Theorem C138_macos_partial : forall t l l' d s, Forall2 (same_action t MacOS) l l' -> history t l d s ->
  exists d' s', history MacOS l' d' s' /\ calls s' = calls s.
Proof.
  intros t l l' d s S H. destruct (along_history t MacOS l l' d S (proj1 H)) as [(st & X & T)|[_ X]].
  - destruct (simulates_history MacOS l' _ X) as (s' & R & _). exists (put_story st d), s'.
    assert (H' : history MacOS l' (put_story st d) s') by now split. split; [exact H'|]. symmetry. exact (C138_same_partial _ _ _ _ _ _ _ _ S H H').
  - exfalso. unfold eases in X. revert X. clear. induction l as [|a l IH]; [discriminate|exact IH].
Qed.
Print Assumptions C138_macos_partial.

(** What works with GTK works with all, if no object is moved with [=]. *)
Theorem C138_gtk_partial : forall t l l' d s, Forall2 (same_action Gtk t) l l' -> history Gtk l d s -> forallb no_assignment l = true ->
  exists d' s', history t l' d' s' /\ calls s' = calls s.
Proof.
  intros t l l' d s S H N. destruct (along_history Gtk t l l' d S (proj1 H)) as [(st & X & T)|[_ X]].
  - destruct (simulates_history t l' _ X) as (s' & R & _). exists (put_story st d), s'.
    assert (H' : history t l' (put_story st d) s') by now split. split; [exact H'|]. symmetry. exact (C138_same_partial _ _ _ _ _ _ _ _ S H H').
  - exfalso. revert X. unfold eases. destruct t.
    + change (forallb no_assignment l = false -> False). congruence.
    + clear. induction l as [|a l IH]; [discriminate|exact IH].
    + clear. induction l as [|a l IH]; [discriminate|exact IH].
Qed.
Print Assumptions C138_gtk_partial.

(** The calls of a run. *)
Definition calls_of (t : toolkit) (l : list action) : outcome (list (N * N * event)) := bind (run_all t l start) (fun s => Ok (calls s)).

(** Object 1 is asked to close its window, which was not shown yet: with GTK it stays open. *)
Theorem C138_hidden_refuted : let l := [New 1 (Some 7); Close 1 true []; Idle []] in
  calls_of WindowsApi l = Ok [(1, 7, CloseEvent)] /\ calls_of MacOS l = Ok [(1, 7, CloseEvent)] /\ calls_of Gtk l = Ok [(1, 7, UpdateCall 0 0)].
Proof. cbv zeta. split; [vm_compute; reflexivity|]. split; vm_compute; reflexivity. Qed.
Print Assumptions C138_hidden_refuted.

(** Moving with [=] to an object without a window is undefined with Windows only. *)
Theorem C138_assign_refuted :
  let l := [New 1 (Some 7); MoveConstruct 2 1; New 3 (Some 8); MoveAssign 1 3 true []; Event 8 Resized []] in
  calls_of WindowsApi l = UB NoReturn /\ calls_of Gtk l = Ok [(1, 8, ResizeEvent)] /\ calls_of MacOS l = Ok [(1, 8, ResizeEvent)].
Proof. cbv zeta. split; [vm_compute; reflexivity|]. split; vm_compute; reflexivity. Qed.
Print Assumptions C138_assign_refuted.

(** F21 has no code on macOS: the key is unknown there. *)
Theorem C138_keyboard_refuted : key_codes MacOS (FunctionKey 21) = [] /\ key_codes WindowsApi (FunctionKey 21) <> [] /\ key_codes Gtk (FunctionKey 21) <> [] /\
  forall code, translate_key_code MacOS code <> key_f21.
Proof.
  split; [reflexivity|]. split; [discriminate|]. split; [discriminate|]. intros code E.
  assert (X : label_of (translate_key_code MacOS code) = Some (FunctionKey 21)) by now rewrite E.
  apply C58_translated in X; [exact X|cbn; lia].
Qed.
Print Assumptions C138_keyboard_refuted.

(** Cases: two windows; keys with different codes; an object that is moved in the handler of
    a key; a window that is closed by its user, another one by the program. *)
Definition day (q : N) : list action :=
  [New 1 (Some 7); Show 1; New 2 (Some 8); Show 2; Event 7 (KeyPressed q) [MoveConstruct 3 2; Pass 4]; Idle [[Event 8 Resized []]]; UserClose 7 true [Pass 1];
   Event 8 (KeyReleased 0xFFFFF) []; Close 3 true []].

Lemma space_bar : forall t, In (match t with WindowsApi => 0x20 | Gtk => 0x20 | MacOS => 0x31 end) (key_codes t SpaceKey).
Proof. intros []; now left. Qed.

Lemma no_such_code : forall t l, on_keyboard l -> ~ In 0xFFFFF (key_codes t l).
Proof.
  intros t l K I. apply (C58_translated t) in I; [|exact K].
  replace (translate_key_code t 0xFFFFF) with key_unknown in I by (destruct t; vm_compute; reflexivity). discriminate I.
Qed.

Example C138_example : forall t,
  Forall2 (same_action Gtk t) (day 0x20) (day (match t with MacOS => 0x31 | _ => 0x20 end)) /\
  forallb no_assignment (day 0x20) = true /\ expected_all Gtk (day 0x20) empty_desk <> None /\
  calls_of Gtk (day 0x20) = Ok [(1, 7, KeyDownEvent key_space_bar); (1, 7, UpdateCall 4 4); (3, 8, ResizeEvent); (3, 8, UpdateCall 4 4); (1, 7, CloseEvent);
             (3, 8, KeyUpEvent key_unknown); (3, 8, CloseEvent)].
Proof.
  intro t. split; [|split; [reflexivity|split; [vm_compute; discriminate|vm_compute; reflexivity]]].
  assert (P : same_event Gtk t (KeyPressed 0x20) (KeyPressed (match t with MacOS => 0x31 | _ => 0x20 end))).
  { apply SamePressed, (SameLabel _ _ SpaceKey); [exact Logic.I|exact (space_bar Gtk)|].
    destruct t; [exact (space_bar WindowsApi)|exact (space_bar Gtk)|exact (space_bar MacOS)]. }
  assert (R : same_event Gtk t (KeyReleased 0xFFFFF) (KeyReleased 0xFFFFF)) by (apply SameReleased, NoLabel; apply no_such_code).
  unfold day. repeat (first [exact P|exact R|constructor]).
Qed.
