(** How the model's calls of handlers are read as what window objects are told. *)
From Coq Require Import NArith ZArith List Bool.
From Verif Require Import Base KeySpec KeyModel WindowSpec WindowModel.
Import ListNotations.
Open Scope N_scope.

(** The arguments a handler should be called with; that [translate_key_code] finds the key
    that was pressed is C58. *)
Definition as_event (t : toolkit) (n : notice) : event :=
  match n with
  | Reported (KeyPressed code) => KeyDownEvent (translate_key_code t code)
  | Reported (KeyReleased code) => KeyUpEvent (translate_key_code t code)
  | Reported Resized => ResizeEvent
  | AskedToClose => CloseEvent
  | Updated delta total => UpdateCall delta total
  end.

Definition as_call (t : toolkit) (x : telling) : N * N * event := (told x, about x, as_event t (what x)).

(** From the start of the application, the actions are ones the specification speaks about,
    it expects [d], and the model ends in [s]. *)
Definition history (t : toolkit) (l : list action) (d : desk) (s : application) : Prop :=
  expected_all t l empty_desk = Some d /\ run_all t l start = Ok s.
