(** Model of windows, their association with native windows and the event loop.

    The three implementations differ in the names of the native functions and in what
    those do with a handle that is null or names no window; everything else is modelled
    once.  Lines are those of
      W: src/cmp/desktop_gui/impl/windows/windows_window.cpp
      G: src/cmp/desktop_gui/impl/gtk/gtk_window.cpp
      M: src/cmp/desktop_gui/impl/macos/macos_window.mm
    What the toolkits themselves do is not in /repo and is described where it is modelled.

    Handlers (handle_key_down_event, handle_close_event, update, ...) are overridden by the
    program: what they do is given with the action that calls them.  Titles, sizes, modes
    and hiding are left out.  Times are whole numbers of clock ticks; their conversion to
    double is left out. *)
From Coq Require Import NArith ZArith List Bool.
From Verif Require Import Base KeySpec KeyModel WindowSpec.
Import ListNotations.
Open Scope N_scope.

(** include/cmp/desktop_gui/key_event.hpp, close_event.hpp: what a handler is called with.
    [UpdateCall] are the arguments of window::update. *)
Inductive event : Type :=
| KeyDownEvent (k : key)
| KeyUpEvent (k : key)
| ResizeEvent
| CloseEvent
| UpdateCall (delta_seconds total_seconds : Z).

(** include/cmp/desktop_gui/impl/windows/windows_window.hpp 147-149 and the same of gtk and
    macos: the members m_native_handle (None is NULL), m_start_time and m_last_time. *)
Record object : Type := { native : option N; start_time : Z; last_time : Z }.

(** window_associations of the application's native handle
    (windows_desktop_gui_application.hpp, gtk_…, macos_…), the window objects by address,
    the native windows that exist, those shown once (GTK: realized), the clock, and the
    calls of handlers so far.  [changes] counts the insertions into and erasures from
    window_associations, each of which is taken to invalidate the iterators into it: the
    vector's capacity, and that an erasure leaves the iterators before it valid, are left
    out. *)
Record application : Type := {
  window_associations : list (N * N);
  objects : list (N * object);
  natives : list N;
  shown : list N;
  clock : Z;
  changes : N;
  calls : list (N * N * event) }.

Definition start : application :=
  {| window_associations := []; objects := []; natives := []; shown := []; clock := 0; changes := 0; calls := [] |}.

Definition object_at (s : application) (o : N) : option object :=
  match find (fun p => fst p =? o) (objects s) with Some p => Some (snd p) | None => None end.

Definition set_associations (l : list (N * N)) (s : application) : application :=
  {| window_associations := l; objects := objects s; natives := natives s; shown := shown s; clock := clock s;
     changes := changes s; calls := calls s |}.
Definition set_objects (l : list (N * object)) (s : application) : application :=
  {| window_associations := window_associations s; objects := l; natives := natives s; shown := shown s; clock := clock s;
     changes := changes s; calls := calls s |}.
Definition set_natives (l : list N) (s : application) : application :=
  {| window_associations := window_associations s; objects := objects s; natives := l; shown := shown s; clock := clock s;
     changes := changes s; calls := calls s |}.
Definition set_shown (l : list N) (s : application) : application :=
  {| window_associations := window_associations s; objects := objects s; natives := natives s; shown := l; clock := clock s;
     changes := changes s; calls := calls s |}.
Definition set_clock (t : Z) (s : application) : application :=
  {| window_associations := window_associations s; objects := objects s; natives := natives s; shown := shown s; clock := t;
     changes := changes s; calls := calls s |}.
Definition changed (s : application) : application :=
  {| window_associations := window_associations s; objects := objects s; natives := natives s; shown := shown s; clock := clock s;
     changes := changes s + 1; calls := calls s |}.
Definition add_call (c : N * N * event) (s : application) : application :=
  {| window_associations := window_associations s; objects := objects s; natives := natives s; shown := shown s; clock := clock s;
     changes := changes s; calls := calls s ++ [c] |}.

Definition remove (x : N) (l : list N) : list N := filter (fun y => negb (y =? x)) l.
Definition put (o : N) (x : object) (s : application) : application :=
  set_objects ((o, x) :: filter (fun p => negb (fst p =? o)) (objects s)) s.

(** The members of an object can be used only while it exists.  No code of /repo: the rules of C++
    for the lifetime of objects. *)
Definition with_object {A} (s : application) (o : N) (f : object -> outcome A) : outcome A :=
  match object_at s o with Some x => f x | None => UB DanglingPointer end.

(** A handler of the object is called; [h] is the native window it is called for.  W 164-243, G
    192-286, M 185-263: the call of a virtual function of the window. *)
Definition call_handler (o h : N) (e : event) (handler : application -> outcome application) (s : application) : outcome application :=
  with_object s o (fun _ => handler (add_call (o, h, e) s)).

(** The search of W 164-243, G 192-286, M 185-263 in window_associations *)
Definition associated (h : N) (s : application) : option (N * N) := find (fun a => fst a =? h) (window_associations s).

(** W 164-218, G 192-259, M 185-238: forward_key_down_event_to_window,
    forward_key_up_event_to_window, forward_resize_event_to_window *)
Definition forward_event (t : toolkit) (h : N) (e : native_event) (handler : application -> outcome application) (s : application) : outcome application :=
  match associated h s with
  | Some (_, o) =>
      call_handler o h
        (match e with
         | KeyPressed code => KeyDownEvent (translate_key_code t code)
         | KeyReleased code => KeyUpEvent (translate_key_code t code)
         | Resized => ResizeEvent
         end) handler s
  | None => Ok s
  end.

(** The first association of the native window is erased.  W 220-243, G 279, M 256:
    window_associations.erase. *)
Fixpoint erase_association (h : N) (l : list (N * N)) : list (N * N) :=
  match l with
  | [] => []
  | a :: l => if fst a =? h then l else a :: erase_association h l
  end.

(** W 220-243, G 261-286, M 240-263: forward_close_event_to_window, with the value
    handle_close_event leaves in the event.  The iterator is used after the handler ran.
    Without an association the end is reached without a return. *)
Definition forward_close (h : N) (answer : bool) (handler : application -> outcome application) (s : application) : outcome (bool * application) :=
  match associated h s with
  | Some (_, o) =>
      bind (call_handler o h CloseEvent handler s) (fun s' =>
        if answer
        then if changes s' =? changes s
             then Ok (true, changed (set_associations (erase_association h (window_associations s')) s'))
             else UB UseAfterErase
        else Ok (false, s'))
  | None => UB NoReturn
  end.

(** The native window is destroyed: DestroyWindow, gtk_window_destroy, [NSWindow close]
    (which releases a window made with alloc and init).  Called in W 264, by gtk_window_close (G
    491) and by the close of AppKit. *)
Definition destroy_native (h : N) (s : application) : application := set_shown (remove h (shown s)) (set_natives (remove h (natives s)) s).

(** W 259-266: close_window; the same is done by gtk_window_close after a close-request
    handler returned FALSE and by performClose after windowShouldClose returned YES. *)
Definition close_native (h : N) (answer : bool) (handler : application -> outcome application) (s : application) : outcome application :=
  bind (forward_close h answer handler s) (fun r => Ok (if fst r then destroy_native h (snd r) else snd r)).

(** W 472-476, G 488-492, M 451-457: window::close.  gtk_window_close does nothing with a
    null handle and with a window that is not realized; performClose does nothing with
    nil.  Both use a window that was destroyed. *)
Definition close_window (t : toolkit) (o : N) (answer : bool) (handler : application -> outcome application) (s : application) : outcome application :=
  with_object s o (fun x =>
    match native x with
    | None => match t with WindowsApi => UB NoReturn | Gtk | MacOS => Ok s end
    | Some h =>
        match t with
        | WindowsApi => close_native h answer handler s
        | Gtk => if member h (natives s)
                 then if member h (shown s) then close_native h answer handler s else Ok s
                 else UB DanglingPointer
        | MacOS => if member h (natives s) then close_native h answer handler s else UB DanglingPointer
        end
    end).

(** W 389-449, G 393-470, M 369-428: window::open.  [created] is the native window, None when
    none could be created (CreateWindowW). *)
Definition open_window (o : N) (created : option N) (s : application) : outcome (bool * application) :=
  with_object s o (fun x =>
    match native x with
    | Some _ => Ok (false, s)
    | None =>
        match created with
        | None => Ok (false, s)
        | Some h =>
            let s := set_natives (natives s ++ [h]) s in
            let s := put o {| native := Some h; start_time := clock s; last_time := clock s |} s in
            Ok (true, changed (set_associations (window_associations s ++ [(h, o)]) s))
        end
    end).

(** W 299-307, G 294-302, M 271-279: the constructor, whose use of open ignores the result.
    The times are those of value-initialized time points. *)
Definition construct (o : N) (created : option N) (s : application) : outcome application :=
  bind (open_window o created (put o {| native := None; start_time := 0; last_time := 0 |} s)) (fun r => Ok (snd r)).

(** W 451-463, G 472-480, M 430-441: window::show.  Null handles have no effect; GTK and macOS
    use a window that was destroyed. *)
Definition show_window (t : toolkit) (o : N) (s : application) : outcome application :=
  with_object s o (fun x =>
    match native x with
    | None => Ok s
    | Some h =>
        if member h (natives s) then Ok (set_shown (h :: shown s) s)
        else match t with WindowsApi => Ok s | Gtk | MacOS => UB DanglingPointer end
    end).

Fixpoint redirect (h o : N) (l : list (N * N)) : option (list (N * N)) :=
  match l with
  | [] => None
  | a :: l => if fst a =? h then Some ((h, o) :: l)
              else match redirect h o l with Some l => Some (a :: l) | None => None end
  end.

(** W 510-527, G 526-543, M 491-508: window::fix_association, which writes through the iterator
    found, the end included. *)
Definition fix_association (h o : N) (s : application) : outcome application :=
  match redirect h o (window_associations s) with
  | Some l => Ok (set_associations l s)
  | None => UB DerefEnd
  end.

(** W 317-323 and 335-343, G and M the same: the members of [from] become those of [o], its
    association is fixed, and [from] loses its handle. *)
Definition take_over (o from : N) (s : application) : outcome application :=
  with_object s from (fun x =>
    bind (match native x with
          | Some h => fix_association h o (put o x s)
          | None => Ok (put o x s)
          end) (fun s =>
    with_object s from (fun x =>
      Ok (put from {| native := None; start_time := start_time x; last_time := last_time x |} s)))).

(** W 311-324, G 306-319, M 283-296: the move constructor *)
Definition move_construct (o from : N) (s : application) : outcome application := take_over o from s.

(** W 326-347, G 321-342, M 298-319: move assignment *)
Definition move_assign (t : toolkit) (o from : N) (answer : bool) (handler : application -> outcome application) (s : application) : outcome application :=
  if o =? from then Ok s
  else bind (close_window t o answer handler s) (fun s => with_object s o (fun _ => take_over o from s)).

(** windows_window.hpp 31-32, the same of gtk and macos: the destructor does nothing. *)
Definition destroy (o : N) (s : application) : outcome application :=
  with_object s o (fun _ => Ok (set_objects (filter (fun p => negb (fst p =? o)) (objects s)) s)).

(** src/cmp/desktop_gui/impl/common/common_window.cpp 12-33: update_window *)
Definition update_window (o h : N) (handler : application -> outcome application) (s : application) : outcome application :=
  with_object s o (fun x =>
    let delta := (clock s - last_time x)%Z in
    let s := put o {| native := native x; start_time := start_time x; last_time := clock s |} s in
    call_handler o h (UpdateCall delta (clock s - start_time x)) handler s).

(** The updates of the windows from position [i] on when their update functions do nothing.
    windows_desktop_gui_application.cpp 77-82, gtk_… 91-96, macos_… 130-135, for the rest of the
    windows. *)
Fixpoint update_rest (l : list (N * N)) (s : application) : outcome application :=
  match l with
  | [] => Ok s
  | (h, o) :: l => bind (update_window o h Ok s) (update_rest l)
  end.

(** One action.  [Idle]: the range-for over window_associations in run
    (windows_desktop_gui_application.cpp 77-82, gtk_… 91-96, macos_… 130-135). *)
Fixpoint run (t : toolkit) (a : action) (s : application) {struct a} : outcome application :=
  let all := fix all (l : list action) (s : application) {struct l} : outcome application :=
    match l with [] => Ok s | a :: l => bind (run t a s) (all l) end in
  match a with
  | Pass n => Ok (set_clock (clock s + Z.of_N n) s)
  | New o c => construct o c s
  | Open o c => bind (open_window o c s) (fun r => Ok (snd r))
  | Show o => show_window t o s
  | MoveConstruct o from => move_construct o from s
  | MoveAssign o from answer body => move_assign t o from answer (all body) s
  | Destroy o => destroy o s
  | Close o answer body => close_window t o answer (all body) s
  | UserClose h answer body => close_native h answer (all body) s
  | Event h e body => forward_event t h e (all body) s
  | Idle bodies =>
      (fix update_from (i : nat) (bodies : list (list action)) (s : application) {struct bodies} : outcome application :=
         match nth_error (window_associations s) i with
         | None => Ok s
         | Some (h, o) =>
             match bodies with
             | [] => update_rest (skipn i (window_associations s)) s
             | body :: bodies =>
                 bind (update_window o h (all body) s) (fun s' =>
                   if changes s' =? changes s then update_from (S i) bodies s' else UB UseAfterErase)
             end
         end) 0%nat bodies s
  end.

Definition run_all (t : toolkit) : list action -> application -> outcome application :=
  fix all (l : list action) (s : application) {struct l} : outcome application :=
    match l with [] => Ok s | a :: l => bind (run t a s) (all l) end.

(** windows_desktop_gui_application.cpp 72, macos_… 114: the event loop goes on while there are
    associations; gtk_… 87: while there are toplevel windows. *)
Definition goes_on (t : toolkit) (s : application) : bool :=
  match t with
  | WindowsApi | MacOS => match window_associations s with [] => false | _ => true end
  | Gtk => match natives s with [] => false | _ => true end
  end.
