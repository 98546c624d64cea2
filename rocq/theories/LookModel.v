(** Model of what windows look like: titles, sizes, showing and hiding, and modes.

    Lines are those of
      W: src/cmp/desktop_gui/impl/windows/windows_window.cpp
      G: src/cmp/desktop_gui/impl/gtk/gtk_window.cpp
      M: src/cmp/desktop_gui/impl/macos/macos_window.mm
    Events, handlers and times are in WindowModel.v and left out here.  What the toolkits do
    is not in /repo and is described where it is modelled. *)
From Coq Require Import NArith ZArith List Bool.
From Verif Require Import Base UnicodeModel KeySpec LookSpec.
Import ListNotations.
Open Scope N_scope.

(** What the toolkit knows about a native window: the text in the title bar in the units of
    the toolkit (UTF-16 on Windows, UTF-8 otherwise), whether it is to be seen, its state,
    the size of its inside and the position of its upper left corner.  The text of a native
    title ends before the first zero. *)
Record native_window : Type := {
  text : list N;
  visible : bool;
  placement : mode;
  inside : Z * Z;
  corner : Z * Z }.

(** include/cmp/desktop_gui/impl/windows/windows_window_native_handle.hpp and the same of gtk
    and macos: the handle (None is NULL); [show_command] is used on Windows only. *)
Record object : Type := { handle : option N; show_command : mode }.

Record state : Type := {
  objects : table object;
  natives : table (option native_window);   (* None: destroyed *)
  associations : table N }.
(** No code of /repo: a program has no windows when it starts *)
Definition start : state := {| objects := []; natives := []; associations := [] |}.

(** No code of /repo: one part of the state is replaced *)
Definition with_objects (t : table object) (s : state) : state :=
  {| objects := t; natives := natives s; associations := associations s |}.
(** No code of /repo: one part of the state is replaced *)
Definition with_natives (t : table (option native_window)) (s : state) : state :=
  {| objects := objects s; natives := t; associations := associations s |}.
(** No code of /repo: one part of the state is replaced *)
Definition with_associations (t : table N) (s : state) : state :=
  {| objects := objects s; natives := natives s; associations := t |}.

(** How a call ended: with or without a result, or with an exception, which the program may
    handle.  [ToolkitException]: an Objective-C exception.  No code of /repo. *)
Inductive reply : Type :=
| Done
| Opened (b : bool)
| Title (bytes : list N)
| Refused (e : exn)
| ToolkitException.

(** No code of /repo: the members of an object can be used only while it exists *)
Definition with_object {A} (s : state) (o : N) (f : object -> outcome A) : outcome A :=
  match get o (objects s) with Some x => f x | None => UB DanglingPointer end.

(** The native window of a handle.  Windows refuses handles of destroyed windows; GTK and
    macOS use their memory.  No code of /repo: what the toolkits do. *)
Definition with_native {A} (k : toolkit) (h : N) (s : state) (refused : A) (f : native_window -> outcome A) : outcome A :=
  match get h (natives s) with
  | Some (Some w) => f w
  | _ => match k with WindowsApi => Ok refused | Gtk | MacOS => UB DanglingPointer end
  end.

(** A C string: what is before the first zero.  No code of /repo: how the toolkits read the titles
    of W 379-386, G 381-389, M 356-365. *)
Fixpoint c_string (l : list N) : list N :=
  match l with
  | [] => []
  | x :: l => if x =? 0 then [] else x :: c_string l
  end.

(** [NSString stringWithUTF8String:] gives nil unless the bytes are well-formed UTF-8
    (Unicode Standard, table 3-7).  [n] more continuation units are to come, the next one
    between [lo] and [hi]. *)
Fixpoint valid_utf8 (n : nat) (lo hi : N) (l : list N) : bool :=
  match l with
  | [] => match n with O => true | _ => false end
  | x :: l =>
      match n with
      | S n => (lo <=? x) && (x <=? hi) && valid_utf8 n 0x80 0xBF l
      | O =>
          if x <=? 0x7F then valid_utf8 0 0 0 l
          else if (0xC2 <=? x) && (x <=? 0xDF) then valid_utf8 1 0x80 0xBF l
          else if x =? 0xE0 then valid_utf8 2 0xA0 0xBF l
          else if x =? 0xED then valid_utf8 2 0x80 0x9F l
          else if (0xE1 <=? x) && (x <=? 0xEF) then valid_utf8 2 0x80 0xBF l
          else if x =? 0xF0 then valid_utf8 3 0x90 0xBF l
          else if (0xF1 <=? x) && (x <=? 0xF3) then valid_utf8 3 0x80 0xBF l
          else if x =? 0xF4 then valid_utf8 3 0x80 0x8F l
          else false
      end
  end.

Definition set_text (t : list N) (w : native_window) : native_window :=
  {| text := t; visible := visible w; placement := placement w; inside := inside w; corner := corner w |}.
Definition set_visible (b : bool) (w : native_window) : native_window :=
  {| text := text w; visible := b; placement := placement w; inside := inside w; corner := corner w |}.
Definition set_placement (m : mode) (w : native_window) : native_window :=
  {| text := text w; visible := visible w; placement := m; inside := inside w; corner := corner w |}.

Definition update_native (h : N) (w : native_window) (s : state) : state := with_natives (put h (Some w) (natives s)) s.

(** W 365-377, G 360-379, M 337-354: window::get_title.  The title of a null handle is empty
    on Windows and GTK; on macOS a null pointer is dereferenced.  Conversions of char to
    char8_t keep the byte. *)
Definition get_title (k : toolkit) (o : N) (s : state) : outcome (reply * state) :=
  with_object s o (fun x =>
    match handle x with
    | None => match k with WindowsApi | Gtk => Ok (Title [], s) | MacOS => UB DanglingPointer end
    | Some h =>
        bind (with_native k h s [] (fun w => Ok (text w))) (fun t =>
          match k with
          | WindowsApi =>
              match convert_string K8 KW2 t with
              | Throw e => Ok (Refused e, s)
              | r => bind r (fun t => Ok (Title t, s))
              end
          | Gtk | MacOS => Ok (Title t, s)
          end)
    end).

(** W 379-386, G 381-389, M 356-365: window::set_title.  [setTitle: nil] raises an exception;
    null handles have no effect. *)
Definition set_title (k : toolkit) (o : N) (title : list N) (s : state) : outcome (reply * state) :=
  with_object s o (fun x =>
    let native t :=
      match handle x with
      | None => Ok (Done, s)
      | Some h => with_native k h s (Done, s) (fun w => Ok (Done, update_native h (set_text (c_string t) w) s))
      end in
    match k with
    | WindowsApi =>
        match convert_string KW2 K8 title with
        | Throw e => Ok (Refused e, s)
        | r => bind r native
        end
    | Gtk => native title
    | MacOS =>
        if valid_utf8 0 0 0 (c_string title) then native title
        else match handle x with
             | None => Ok (Done, s)
             | Some h => with_native k h s (Done, s) (fun _ => Ok (ToolkitException, s))
             end
    end).

Definition int_max : Z := 2147483647.
Definition in_int (x : Z) : bool := ((- int_max - 1 <=? x) && (x <=? int_max))%Z.

(** W 402-429: the size and place of a new window.  AdjustWindowRect adds the frame; that its
    sums may not be representable is left to the difference.  int division truncates. *)
Definition outer_size (d : display) (width height : Z) : outcome (Z * Z) :=
  let left := (0 - frame_left d)%Z in
  let top := (0 - frame_top d)%Z in
  let right := (width + frame_right d)%Z in
  let bottom := (height + frame_bottom d)%Z in
  if in_int (right - left) && in_int (bottom - top) then Ok (right - left, bottom - top)%Z else UB SignedOverflow.

Definition place (d : display) (width height : Z) : outcome (Z * Z) :=
  bind (outer_size d width height) (fun '(w, h) =>
    if in_int (screen_width d - w) && in_int (screen_height d - h)
    then Ok (Z.quot (screen_width d - w) 2, Z.quot (screen_height d - h) 2)
    else UB SignedOverflow).

(** The native window gets into the table, its handle into the object and, if [associate],
    both into the associations.  W 443, G 464, M 422. *)
Definition install (o h : N) (w : native_window) (command : mode) (associate : bool) (s : state) : state :=
  let s := with_natives (put h (Some w) (natives s)) s in
  let s := with_objects (put o {| handle := Some h; show_command := command |} (objects s)) s in
  if associate then with_associations (associations s ++ [(h, o)]) s else s.

(** W 391-449, G 393-470, M 369-428: window::open.  [created] is the handle of the new native
    window, None when there is none (CreateWindowW).
    Windows: the title is converted first; the mode is kept for show; that CreateWindowW
    limits the size of windows to about that of the screen is left out.
    GTK: gtk_window_set_title copies the bytes as they are; gtk_window_maximize and
    gtk_window_minimize set the state in which the window will be shown.
    macOS: zoom: and miniaturize: take effect at once, and center puts the window where
    AppKit wants it, which is left out (corner 0, 0), as it is for GTK; nil as title raises an
    exception when the handle is already set and the association is not yet made. *)
Definition open_window (k : toolkit) (d : display) (o : N) (width height : Z) (title : list N) (m : mode) (created : option N) (s : state) : outcome (reply * state) :=
  with_object s o (fun x =>
    match handle x with
    | Some _ => Ok (Opened false, s)
    | None =>
        match k with
        | WindowsApi =>
            match convert_string KW2 K8 title with
            | Throw e => Ok (Refused e, s)
            | r =>
                bind r (fun t =>
                bind (place d width height) (fun c =>
                match created with
                | None => Ok (Opened false, s)
                | Some h =>
                    Ok (Opened true,
                        install o h {| text := c_string t; visible := false; placement := Standard;
                                       inside := (width, height); corner := c |} m true s)
                end))
            end
        | Gtk =>
            match created with
            | None => Ok (Opened false, s)
            | Some h =>
                Ok (Opened true,
                    install o h {| text := c_string title; visible := false; placement := m;
                                   inside := (width, height); corner := (0, 0)%Z |} Standard true s)
            end
        | MacOS =>
            match created with
            | None => Ok (Opened false, s)
            | Some h =>
                if valid_utf8 0 0 0 (c_string title)
                then Ok (Opened true,
                         install o h {| text := c_string title; visible := false; placement := m;
                                        inside := (width, height); corner := (0, 0)%Z |} Standard true s)
                else Ok (ToolkitException,
                         install o h {| text := []; visible := false; placement := Standard;
                                        inside := (width, height); corner := (0, 0)%Z |} Standard false s)
            end
        end
    end).

(** W 299-307, G 294-302, M 271-279: the constructor.  If open throws there is no object. *)
Definition construct (k : toolkit) (d : display) (o : N) (width height : Z) (title : list N) (m : mode) (created : option N) (s : state) : outcome (reply * state) :=
  bind (open_window k d o width height title m created (with_objects (put o {| handle := None; show_command := Standard |} (objects s)) s)) (fun '(r, s') =>
    match r with
    | Refused _ | ToolkitException => Ok (r, with_objects (objects s) s')
    | _ => Ok (Done, s')
    end).

(** Whether the toolkit says that the window is visible (IsWindowVisible,
    gtk_widget_is_visible, isVisible): AppKit says no of miniaturized windows.  Called in W 454, G
    475, M 433. *)
Definition says_visible (k : toolkit) (w : native_window) : bool :=
  match k with
  | MacOS => visible w && match placement w with Minimized => false | _ => true end
  | _ => visible w
  end.

(** W 451-463, G 472-480, M 430-441: window::show.  ShowWindow also sets the state;
    gtk_window_present and makeKeyAndOrderFront show the window in the state it has.
    [restores]: whether makeKeyAndOrderFront restores a miniaturized window.  The show_command
    becomes SW_SHOWNORMAL in any case.  That the first call of ShowWindow in a process may
    use the mode with which the process was started is left out. *)
Definition show_window (k : toolkit) (restores : bool) (o : N) (s : state) : outcome (reply * state) :=
  with_object s o (fun x =>
    let s' := match k with
              | WindowsApi => with_objects (put o {| handle := handle x; show_command := Standard |} (objects s)) s
              | _ => s
              end in
    match handle x with
    | None => Ok (Done, s')
    | Some h =>
        with_native k h s (Done, s') (fun w =>
          if says_visible k w then Ok (Done, s)
          else
            let w := set_visible true w in
            match k with
            | WindowsApi => Ok (Done, update_native h (set_placement (show_command x) w) s')
            | Gtk => Ok (Done, update_native h w s')
            | MacOS => Ok (Done, update_native h (if restores then match placement w with Minimized => set_placement Standard w | _ => w end else w) s')
            end)
    end).

(** W 466-470, G 482-486, M 443-449: window::hide *)
Definition hide_window (k : toolkit) (o : N) (s : state) : outcome (reply * state) :=
  with_object s o (fun x =>
    match handle x with
    | None => Ok (Done, s)
    | Some h => with_native k h s (Done, s) (fun w => Ok (Done, update_native h (set_visible false w) s))
    end).

Fixpoint redirect (h o : N) (l : table N) : option (table N) :=
  match l with
  | [] => None
  | (h', o') :: l => if h' =? h then Some ((h, o) :: l)
                     else match redirect h o l with Some l => Some ((h', o') :: l) | None => None end
  end.

(** W 311-324, G 306-319, M 283-296 and fix_association: the move constructor.  All members
    of the handle are copied. *)
Definition move_construct (o from : N) (s : state) : outcome (reply * state) :=
  with_object s from (fun x =>
    bind (match handle x with
          | None => Ok s
          | Some h => match redirect h o (associations s) with
                      | Some l => Ok (with_associations l s)
                      | None => UB DerefEnd
                      end
          end) (fun s =>
    Ok (Done, with_objects (put from {| handle := None; show_command := show_command x |} (put o x (objects s))) s))).

(** The user maximizes, minimizes or restores a window that is to be seen.  No code of /repo: what
    the user and the toolkit do. *)
Definition rearrange (o : N) (m : mode) (s : state) : state :=
  match get o (objects s) with
  | Some {| handle := Some h |} =>
      match get h (natives s) with
      | Some (Some w) => if visible w then update_native h (set_placement m w) s else s
      | _ => s
      end
  | _ => s
  end.

(** W 220-243, G 279, M 256: window_associations.erase *)
Fixpoint dissociate (h : N) (l : table N) : table N :=
  match l with
  | [] => []
  | (h', o) :: l => if h' =? h then l else (h', o) :: dissociate h l
  end.

(** W 220-266, G 261-286, M 240-263: the user closes the window and handle_close_event agrees
    (WindowModel.v has the whole).  Without an association the function that asks ends
    without a return.  The object keeps its handle. *)
Definition user_close (o : N) (s : state) : outcome (reply * state) :=
  match get o (objects s) with
  | Some {| handle := Some h |} =>
      match get h (natives s) with
      | Some (Some _) =>
          match get h (associations s) with
          | Some _ => Ok (Done, with_associations (dissociate h (associations s)) (with_natives (put h None (natives s)) s))
          | None => UB NoReturn
          end
      | _ => Ok (Done, s)
      end
  | _ => Ok (Done, s)
  end.

Definition run (k : toolkit) (d : display) (restores : bool) (r : request) (s : state) : outcome (reply * state) :=
  match r with
  | Construct o w h t m c => construct k d o w h t m c s
  | Open o w h t m c => open_window k d o w h t m c s
  | SetTitle o t => set_title k o t s
  | GetTitle o => get_title k o s
  | Show o => show_window k restores o s
  | Hide o => hide_window k o s
  | Move o from => move_construct o from s
  | Rearrange o m => Ok (Done, rearrange o m s)
  | UserClose o => user_close o s
  end.

Fixpoint run_all (k : toolkit) (d : display) (restores : bool) (l : list request) (s : state) : outcome (list reply * state) :=
  match l with
  | [] => Ok ([], s)
  | r :: l =>
      bind (run k d restores r s) (fun '(a, s) =>
      bind (run_all k d restores l s) (fun '(as_, s) => Ok (a :: as_, s)))
  end.
