(** What a program asks of its windows as far as it can be seen on the screen: titles,
    showing and hiding, and whether a window is maximized or minimized.  Independent of the
    model.

    Window objects are known by their addresses, native windows by their handles. *)
From Coq Require Import NArith ZArith List Bool.
From Verif Require Import UnicodeSpec KeySpec.
Import ListNotations.
Open Scope N_scope.

Inductive mode : Type := Standard | Maximized | Minimized.

(** [title] is the bytes of a UTF-8 string, [created] the handle of the native window, if one
    could be created. *)
Inductive request : Type :=
| Construct (o : N) (width height : Z) (title : list N) (m : mode) (created : option N)
| Open (o : N) (width height : Z) (title : list N) (m : mode) (created : option N)
| SetTitle (o : N) (title : list N)
| GetTitle (o : N)
| Show (o : N)
| Hide (o : N)
| Move (o from : N)                  (* o is move constructed from [from] *)
| Rearrange (o : N) (m : mode)       (* the user maximizes, minimizes or restores the window *)
| UserClose (o : N).                 (* the user closes the window, and the program agrees *)

(** Tables by address or handle. *)
Definition table (A : Type) : Type := list (N * A).
Fixpoint get {A} (k : N) (t : table A) : option A :=
  match t with
  | [] => None
  | (k', x) :: t => if k' =? k then Some x else get k t
  end.
Definition put {A} (k : N) (x : A) (t : table A) : table A := (k, x) :: t.

Definition when (b : bool) {A} (x : option A) : option A := if b then x else None.

(** What is known about an object: whether it has a window, and something about the window.
    [Gone]: its window was closed. *)
Inductive pane (A : Type) : Type := Empty | Pane (x : A) | Gone.
Arguments Empty {A}.
Arguments Pane {A} _.
Arguments Gone {A}.

(** The objects so far and the handles used so far. *)
Record desk (A : Type) : Type := { panes : table (pane A); used : list N }.
Arguments panes {A} _.
Arguments used {A} _.
Definition nothing {A} : desk A := {| panes := []; used := [] |}.
Definition with_pane {A} (o : N) (x : pane A) (d : desk A) : desk A := {| panes := put o x (panes d); used := used d |}.
Definition use {A} (h : N) (d : desk A) : desk A := {| panes := panes d; used := h :: used d |}.

(** The object gets a window about which [x] is known, unless none could be created.  The
    native windows are all different. *)
Definition open_with {A} (o : N) (x : A) (created : option N) (d : desk A) : option (desk A) :=
  match created with
  | None => Some (with_pane o Empty d)
  | Some h => when (negb (existsb (N.eqb h) (used d))) (Some (with_pane o (Pane x) (use h d)))
  end.

Definition unless_there {A} (o : N) (d : desk A) {B} (x : option B) : option B :=
  match get o (panes d) with None => x | Some _ => None end.

(** What should happen to the windows; [None] for programs that are not meant: those that
    use objects that do not exist, or whose window was closed, and those in which the toolkit
    uses a handle again.  [f r x] is what request [r] makes of a window about which [x] was
    known, [new r] what is known about a new one. *)
Definition step {A} (new : request -> A) (f : request -> A -> A) (r : request) (d : desk A) : option (desk A) :=
  match r with
  | Construct o _ _ _ _ c => unless_there o d (open_with o (new r) c d)
  | Open o _ _ _ _ c =>
      match get o (panes d) with
      | Some Empty => open_with o (new r) c d
      | Some (Pane _) => Some d
      | _ => None
      end
  | Move o from =>
      unless_there o d
        match get from (panes d) with
        | Some Gone | None => None
        | Some x => Some (with_pane from Empty (with_pane o x d))
        end
  | UserClose o =>
      match get o (panes d) with
      | Some (Pane _) => Some (with_pane o Gone d)
      | _ => None
      end
  | SetTitle o _ | GetTitle o | Show o | Hide o | Rearrange o _ =>
      match get o (panes d) with
      | Some Empty => Some d
      | Some (Pane x) => Some (with_pane o (Pane (f r x)) d)
      | _ => None
      end
  end.

Fixpoint steps {A} (new : request -> A) (f : request -> A -> A) (l : list request) (d : desk A) : option (desk A) :=
  match l with
  | [] => Some d
  | r :: l => match step new f r d with Some d => steps new f l d | None => None end
  end.

(** Titles: a window has the title it was given last. *)
Definition title_given (r : request) : list N :=
  match r with Construct _ _ _ t _ _ | Open _ _ _ t _ _ | SetTitle _ t => t | _ => [] end.
Definition retitle (r : request) (t : list N) : list N :=
  match r with SetTitle _ new => new | _ => t end.
Definition titles : list request -> desk (list N) -> option (desk (list N)) := steps title_given retitle.

(** The title that an object answers with: an object without window has none. *)
Definition title_of (o : N) (d : desk (list N)) : option (list N) :=
  match get o (panes d) with
  | Some (Pane t) => Some t
  | Some Empty => Some []
  | _ => None
  end.

(** Every question for a title is for the title of a window. *)
Fixpoint asks_windows (l : list request) (d : desk (list N)) : Prop :=
  match l with
  | [] => True
  | r :: l =>
      match r with GetTitle o => exists t, get o (panes d) = Some (Pane t) | _ => True end /\
      match step title_given retitle r d with Some d => asks_windows l d | None => True end
  end.

(** Looks: whether the window is shown, and how.  A new window is not shown.  [seen] is
    whether it was shown before. *)
Record look : Type := { shown : bool; shape : mode; seen : bool }.
Definition first_look (r : request) : look :=
  {| shown := false;
     shape := match r with Construct _ _ _ _ m _ | Open _ _ _ _ m _ => m | _ => Standard end;
     seen := false |}.
(** Hiding and showing a window, and giving it a title, leave its shape as it is; the user
    changes it, if the window is shown.  [again] is the shape of a window shown once more. *)
Definition relook (again : mode -> mode) (r : request) (x : look) : look :=
  match r with
  | Show _ => if shown x then x
              else {| shown := true; shape := if seen x then again (shape x) else shape x; seen := true |}
  | Hide _ => {| shown := false; shape := shape x; seen := seen x |}
  | Rearrange _ m => if shown x then {| shown := true; shape := m; seen := seen x |} else x
  | _ => x
  end.
Definition looks (again : mode -> mode) : list request -> desk look -> option (desk look) := steps first_look (relook again).

(** Titles that every part of the system can represent: UTF-8 without U+0000, and on Windows
    (C07) without supplementary characters. *)
Definition plain_title (k : toolkit) (t : list N) : Prop :=
  exists l, Forall (fun c => scalar c /\ c <> 0 /\ (k = WindowsApi -> bmp c)) l /\ t = encode UTF8 l.

Definition all_titles (P : list N -> Prop) (l : list request) : Prop :=
  Forall (fun r => match r with Construct _ _ _ t _ _ | Open _ _ _ t _ _ | SetTitle _ t => P t | _ => True end) l.

(** Nothing is opened minimized, or minimized by the user. *)
Definition never_minimized (l : list request) : Prop :=
  Forall (fun r => match r with Construct _ _ _ _ m _ | Open _ _ _ _ m _ | Rearrange _ m => m <> Minimized | _ => True end) l.

(** The screen, and what the frame of a window adds to its inside. *)
Record display : Type := {
  screen_width : Z; screen_height : Z;
  frame_left : Z; frame_top : Z; frame_right : Z; frame_bottom : Z }.

(** Screens, frames and sizes of windows in pixels stay below 2^28. *)
Definition moderate (x : Z) : Prop := (0 <= x < 268435456)%Z.
Definition moderate_display (d : display) : Prop :=
  moderate (screen_width d) /\ moderate (screen_height d) /\ moderate (frame_left d) /\ moderate (frame_top d) /\
  moderate (frame_right d) /\ moderate (frame_bottom d).
Definition moderate_sizes (l : list request) : Prop :=
  Forall (fun r => match r with Construct _ w h _ _ _ | Open _ w h _ _ _ => moderate w /\ moderate h | _ => True end) l.

(** What of the window can be seen on the screen. *)
Definition view (o : N) (d : desk look) : option mode :=
  match get o (panes d) with
  | Some (Pane x) => if shown x then Some (shape x) else None
  | _ => None
  end.

(** Nobody asks for titles. *)
Definition no_questions (l : list request) : Prop := Forall (fun r => forall o, r <> GetTitle o) l.

(** Requests of a program to one of its objects. *)
Definition asks (o : N) (r : request) : Prop :=
  (exists t, r = SetTitle o t /\ Forall (fun u => u < 256) t) \/ r = GetTitle o \/ r = Show o \/ r = Hide o.
