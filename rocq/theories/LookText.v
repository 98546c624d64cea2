(** What of a window of the model is on the screen.  Used in theorem statements only. *)
From Coq Require Import NArith ZArith List Bool.
From Verif Require Import Base KeySpec LookSpec LookModel.
Import ListNotations.
Open Scope N_scope.

(** The native window of an object. *)
Definition native_of (o : N) (s : state) : option native_window :=
  match get o (objects s) with
  | Some x => match handle x with
              | Some h => match get h (natives s) with Some w => w | None => None end
              | None => None
              end
  | None => None
  end.

(** Its state, if it is visible. *)
Definition on_screen (o : N) (s : state) : option mode :=
  match native_of o s with
  | Some w => if visible w then Some (placement w) else None
  | None => None
  end.
