(** The same things happening to a program with two toolkits.  Independent of the model. *)
From Coq Require Import NArith ZArith List Bool.
From Verif Require Import KeySpec WindowSpec.
Import ListNotations.
Open Scope N_scope.

(** The codes by which a toolkit knows the key with this label. *)
Definition key_codes (t : toolkit) (l : label) : list N :=
  match t with WindowsApi => [windows_code l] | Gtk => gdk_codes l | MacOS => macos_codes l end.

(** The codes of one key, or of keys that have no label. *)
Inductive same_key (t t' : toolkit) : N -> N -> Prop :=
| SameLabel (l : label) (c c' : N) : on_keyboard l -> In c (key_codes t l) -> In c' (key_codes t' l) -> same_key t t' c c'
| NoLabel (c c' : N) : (forall l, on_keyboard l -> ~ In c (key_codes t l)) -> (forall l, on_keyboard l -> ~ In c' (key_codes t' l)) ->
    same_key t t' c c'.

Inductive same_event (t t' : toolkit) : native_event -> native_event -> Prop :=
| SamePressed (c c' : N) : same_key t t' c c' -> same_event t t' (KeyPressed c) (KeyPressed c')
| SameReleased (c c' : N) : same_key t t' c c' -> same_event t t' (KeyReleased c) (KeyReleased c')
| SameResized : same_event t t' Resized Resized.

(** The program and its user do the same, only the codes of keys are those of the toolkit. *)
Inductive same_action (t t' : toolkit) : action -> action -> Prop :=
| SamePass n : same_action t t' (Pass n) (Pass n)
| SameNew o c : same_action t t' (New o c) (New o c)
| SameOpen o c : same_action t t' (Open o c) (Open o c)
| SameShow o : same_action t t' (Show o) (Show o)
| SameMove o from : same_action t t' (MoveConstruct o from) (MoveConstruct o from)
| SameAssign o from answer body body' : Forall2 (same_action t t') body body' ->
    same_action t t' (MoveAssign o from answer body) (MoveAssign o from answer body')
| SameDestroy o : same_action t t' (Destroy o) (Destroy o)
| SameClose o answer body body' : Forall2 (same_action t t') body body' -> same_action t t' (Close o answer body) (Close o answer body')
| SameUserClose h answer body body' : Forall2 (same_action t t') body body' ->
    same_action t t' (UserClose h answer body) (UserClose h answer body')
| SameEvent h e e' body body' : same_event t t' e e' -> Forall2 (same_action t t') body body' ->
    same_action t t' (Event h e body) (Event h e' body')
| SameIdle bodies bodies' : Forall2 (Forall2 (same_action t t')) bodies bodies' -> same_action t t' (Idle bodies) (Idle bodies').

(** No object is moved with [=]. *)
Fixpoint no_assignment (a : action) : bool :=
  match a with
  | MoveAssign _ _ _ _ => false
  | Close _ _ body | UserClose _ _ body | Event _ _ body => forallb no_assignment body
  | Idle bodies => forallb (forallb no_assignment) bodies
  | _ => true
  end.
