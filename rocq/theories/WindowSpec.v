(** What a program with windows and its user do, and what the program's window objects
    should be told.  Independent of the model.

    A native window is known by its handle, a window object by its address.  Handles and
    addresses may be used again once what they named is gone. *)
From Coq Require Import NArith ZArith List Bool.
From Verif Require Import KeySpec.
Import ListNotations.
Open Scope N_scope.

(** What the toolkit reports about a native window. *)
Inductive native_event : Type :=
| KeyPressed (code : N)
| KeyReleased (code : N)
| Resized.

(** What happens.  [body] is what the program does in the handler that an action calls, and
    [answer] what the close handler leaves as the event's should_close. *)
Inductive action : Type :=
| Pass (time : N)                                       (* time passes *)
| New (o : N) (created : option N)                      (* construct o; the native window, if one could be created *)
| Open (o : N) (created : option N)                     (* o.open *)
| Show (o : N)
| MoveConstruct (o from : N)
| MoveAssign (o from : N) (answer : bool) (body : list action)
| Destroy (o : N)                                       (* end of o's lifetime *)
| Close (o : N) (answer : bool) (body : list action)    (* o.close *)
| UserClose (h : N) (answer : bool) (body : list action) (* the user closes a native window *)
| Event (h : N) (e : native_event) (body : list action)
| Idle (bodies : list (list action)).                   (* the event loop finds nothing to do; bodies of the windows' update functions *)

(** What a window object is told, with the native window it is about. *)
Inductive notice : Type :=
| Reported (e : native_event)
| AskedToClose
| Updated (delta total : Z).

Record telling : Type := { told : N; about : N; what : notice }.

(** The open windows, in the order of their opening, the window objects that exist, those
    of them whose window was closed, the time and what was told so far. *)
Record window : Type := { handle : N; owner : N; opened : Z; updated : Z; presented : bool }.
Record desk : Type := { windows : list window; alive : list N; closed : list N; time : Z; story : list telling }.

Definition empty_desk : desk := {| windows := []; alive := []; closed := []; time := 0; story := [] |}.

Definition member (x : N) (l : list N) : bool := existsb (N.eqb x) l.
Definition without (x : N) (l : list N) : list N := filter (fun y => negb (y =? x)) l.

Definition window_of (o : N) (d : desk) : option window := find (fun w => owner w =? o) (windows d).
Definition window_at (h : N) (d : desk) : option window := find (fun w => handle w =? h) (windows d).
Definition has_window (o : N) (d : desk) : bool := match window_of o d with Some _ => true | None => false end.

Definition tell (o h : N) (n : notice) (d : desk) : desk :=
  {| windows := windows d; alive := alive d; closed := closed d; time := time d;
     story := story d ++ [{| told := o; about := h; what := n |}] |}.

Definition with_windows (l : list window) (d : desk) : desk :=
  {| windows := l; alive := alive d; closed := closed d; time := time d; story := story d |}.

Definition open_window_for (o h : N) (d : desk) : desk :=
  with_windows (windows d ++ [{| handle := h; owner := o; opened := time d; updated := time d; presented := false |}]) d.

(** The window passes from one object to another. *)
Definition hand_over (from to : N) (d : desk) : desk :=
  with_windows (map (fun w => if owner w =? from
    then {| handle := handle w; owner := to; opened := opened w; updated := updated w; presented := presented w |} else w) (windows d)) d.

Definition present (o : N) (d : desk) : desk :=
  with_windows (map (fun w => if owner w =? o
    then {| handle := handle w; owner := owner w; opened := opened w; updated := updated w; presented := true |} else w) (windows d)) d.

Definition touch (h : N) (d : desk) : desk :=
  with_windows (map (fun w => if handle w =? h
    then {| handle := handle w; owner := owner w; opened := opened w; updated := time d; presented := presented w |} else w) (windows d)) d.

(** The window is gone, and its object is one whose window was closed. *)
Definition drop_window (h : N) (d : desk) : desk :=
  match window_at h d with
  | None => d
  | Some w => {| windows := filter (fun w => negb (handle w =? h)) (windows d); alive := alive d;
                 closed := owner w :: closed d; time := time d; story := story d |}
  end.

Definition with_alive (l : list N) (d : desk) : desk :=
  {| windows := windows d; alive := l; closed := closed d; time := time d; story := story d |}.
Definition with_closed (l : list N) (d : desk) : desk :=
  {| windows := windows d; alive := alive d; closed := l; time := time d; story := story d |}.
Definition with_time (t : Z) (d : desk) : desk :=
  {| windows := windows d; alive := alive d; closed := closed d; time := t; story := story d |}.

(** Whatever happens in these actions, no window is opened or closed. *)
Fixpoint quiet (a : action) : bool :=
  match a with
  | Pass _ | Show _ | MoveConstruct _ _ | Destroy _ => true
  | New _ c | Open _ c => match c with None => true | Some _ => false end
  | MoveAssign _ _ _ _ | Close _ _ _ | UserClose _ _ _ => false
  | Event _ _ body => forallb quiet body
  | Idle bodies => forallb (forallb quiet) bodies
  end.

Definition when (b : bool) {A} (x : option A) : option A := if b then x else None.
Definition andthen {A B} (x : option A) (f : A -> option B) : option B := match x with Some y => f y | None => None end.

(** The close handler of the window is asked; the window stays unless the answer is yes.
    The handler itself opens and closes no windows. *)
Definition ask_to_close (h : N) (answer : bool) (calm : bool) (rest : desk -> option desk) (d : desk) : option desk :=
  match window_at h d with
  | None => None
  | Some w => when calm (andthen (rest (tell (owner w) h AskedToClose d)) (fun d => Some (if answer then drop_window h d else d)))
  end.

(** o.close() is for objects with a window, which GTK must have presented. *)
Definition closable (t : toolkit) (w : window) : bool := match t with Gtk => presented w | _ => true end.

(** What should happen, for the programs this specification is about: [None] for others. *)
Fixpoint expected (t : toolkit) (a : action) (d : desk) {struct a} : option desk :=
  let all := fix all (l : list action) (d : desk) {struct l} : option desk :=
    match l with [] => Some d | a :: l => andthen (expected t a d) (all l) end in
  match a with
  | Pass n => Some (with_time (time d + Z.of_N n) d)
  | New o c =>
      when (negb (member o (alive d)))
        (let d := with_alive (o :: alive d) d in
         match c with
         | None => Some d
         | Some h => when (match window_at h d with None => true | Some _ => false end) (Some (open_window_for o h d))
         end)
  | Open o c =>
      when (member o (alive d) && negb (member o (closed d)))
        (if has_window o d then Some d else
         match c with
         | None => Some d
         | Some h => when (match window_at h d with None => true | Some _ => false end) (Some (open_window_for o h d))
         end)
  | Show o => when (member o (alive d) && negb (member o (closed d))) (Some (present o d))
  | MoveConstruct o from =>
      when (member from (alive d) && negb (member from (closed d)) && negb (member o (alive d)))
        (Some (hand_over from o (with_alive (o :: alive d) d)))
  | MoveAssign o from answer body =>
      when (member o (alive d) && member from (alive d))
        (if o =? from then Some d else
         andthen
           (match window_of o d with
            | Some w => when (answer && closable t w) (ask_to_close (handle w) answer (forallb quiet body) (all body) d)
            | None => when (match t with WindowsApi => false | _ => negb (member o (closed d)) end) (Some d)
            end)
           (fun d =>
              when (member o (alive d) && member from (alive d) && negb (member from (closed d)) && negb (has_window o d))
                (Some (hand_over from o (with_closed (without o (closed d)) d)))))
  | Destroy o =>
      when (member o (alive d) && negb (has_window o d))
        (Some (with_closed (without o (closed d)) (with_alive (without o (alive d)) d)))
  | Close o answer body =>
      match window_of o d with
      | Some w => when (closable t w) (ask_to_close (handle w) answer (forallb quiet body) (all body) d)
      | None => None
      end
  | UserClose h answer body => ask_to_close h answer (forallb quiet body) (all body) d
  | Event h e body =>
      match window_at h d with
      | Some w => all body (tell (owner w) h (Reported e) d)
      | None => Some d
      end
  | Idle bodies =>
      when (forallb (forallb quiet) bodies)
        ((fix update_each (hs : list N) (bodies : list (list action)) (d : desk) {struct bodies} : option desk :=
            match hs, bodies with
            | [], _ => Some d
            | _, [] => Some (fold_left (fun d h => match window_at h d with
                               | Some w => touch h (tell (owner w) h (Updated (time d - updated w) (time d - opened w)) d)
                               | None => d end) hs d)
            | h :: hs, body :: bodies =>
                match window_at h d with
                | Some w => andthen (all body (touch h (tell (owner w) h (Updated (time d - updated w) (time d - opened w)) d)))
                                    (update_each hs bodies)
                | None => None
                end
            end) (map handle (windows d)) bodies d)
  end.

Definition expected_all (t : toolkit) : list action -> desk -> option desk :=
  fix all (l : list action) (d : desk) {struct l} : option desk :=
    match l with [] => Some d | a :: l => andthen (expected t a d) (all l) end.

(** The native windows whose updates were told, in order. *)
Definition is_update (x : telling) : bool := match what x with Updated _ _ => true | _ => false end.
Definition updates (l : list telling) : list N := map about (filter is_update l).

(** No turn of the event loop is among these actions. *)
Fixpoint no_idle (a : action) : bool :=
  match a with
  | Idle _ => false
  | MoveAssign _ _ _ body | Close _ _ body | UserClose _ _ body | Event _ _ body => forallb no_idle body
  | _ => true
  end.

(** The seconds a window was told to have passed, summed. *)
Fixpoint told_so_far (h : N) (l : list telling) : Z :=
  match l with
  | [] => 0
  | x :: l => ((if (about x =? h)%N then match what x with Updated delta _ => delta | _ => 0 end else 0) + told_so_far h l)%Z
  end.

(** Native windows created by these actions, in handlers included. *)
Fixpoint creations (a : action) : list N :=
  match a with
  | New _ (Some h) | Open _ (Some h) => [h]
  | MoveAssign _ _ _ body | Close _ _ body | UserClose _ _ body | Event _ _ body => flat_map creations body
  | Idle bodies => flat_map (flat_map creations) bodies
  | _ => []
  end.

(** The delta of every update is not negative, and its total is the sum of all deltas the
    window was told. *)
Definition honest (l : list telling) : Prop :=
  forall before x after delta total, l = before ++ x :: after -> what x = Updated delta total ->
  (0 <= delta)%Z /\ total = (told_so_far (about x) before + delta)%Z.
