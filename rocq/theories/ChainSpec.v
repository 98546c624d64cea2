(** Chains of << and >> on one stream, stated without the model. *)
From Coq Require Import NArith List Bool.
From Verif Require Import TypeSpec.
Import ListNotations.

(** The streams of the library. *)
Inductive stream_kind : Type := TextOut | TextIn | TextBoth | DataOut | DataIn | DataBoth.

(** << x for a variable or a temporary x, and >> x for a variable x *)
Inductive part : Type := Put (named : bool) (t : ty) | Get (t : ty).

(** What a part does: text streams show and read, data streams store and load the bytes
    of an object. *)
Inductive effect : Type :=
| Shown (s : showing)
| Taken (r : reading)
| Stored (f : fundamental)
| Loaded (f : fundamental).

Definition goes_out (e : effect) : Prop := match e with Shown _ | Stored _ => True | _ => False end.
Definition goes_in (e : effect) : Prop := match e with Taken _ | Loaded _ => True | _ => False end.

(** All of them write, or all of them read. *)
Definition one_way (es : list effect) : Prop := Forall goes_out es \/ Forall goes_in es.

(** After a flush there are only flushes. *)
Fixpoint flush_last (es : list effect) : Prop :=
  match es with
  | [] => True
  | e :: es => (e = Shown Flushes -> Forall (eq (Shown Flushes)) es) /\ flush_last es
  end.

Definition writes_data (k : stream_kind) : Prop := k = DataOut \/ k = DataBoth.
Definition reads_data (k : stream_kind) : Prop := k = DataIn \/ k = DataBoth.
