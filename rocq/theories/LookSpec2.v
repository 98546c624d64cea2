(** More about what a program may expect of its windows: the sizes they were given, and how
    macOS treats minimized windows.  Independent of the model. *)
From Coq Require Import NArith ZArith List Bool.
From Verif Require Import LookSpec.
Import ListNotations.
Open Scope N_scope.

(** Sizes: a window has the size with which it was opened, as nothing else changes it. *)
Definition size_given (r : request) : Z * Z :=
  match r with Construct _ w h _ _ _ | Open _ w h _ _ _ => (w, h) | _ => (0, 0)%Z end.
Definition sizes : list request -> desk (Z * Z) -> option (desk (Z * Z)) := steps size_given (fun _ x => x).
Definition size_of (o : N) (d : desk (Z * Z)) : option (Z * Z) :=
  match get o (panes d) with Some (Pane x) => Some x | _ => None end.

(** The edges left and right, or above and below, of something on the screen are the same, to
    one pixel. *)
Definition in_the_middle (screen position size : Z) : Prop := (Z.abs (screen - size - 2 * position) <= 1)%Z.

(** Looks on macOS.  A minimized window is not to be seen as a window: showing it is not
    without effect even if it is shown.  [restores]: whether that restores it. *)
Definition relook_macos (restores : bool) (r : request) (x : look) : look :=
  match r with
  | Show _ =>
      match shape x with
      | Minimized => {| shown := true; shape := if restores then Standard else Minimized; seen := true |}
      | m => if shown x then x else {| shown := true; shape := m; seen := true |}
      end
  | _ => relook (fun m => m) r x
  end.
Definition looks_macos (restores : bool) : list request -> desk look -> option (desk look) :=
  steps first_look (relook_macos restores).
