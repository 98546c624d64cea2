(** Programs that print to both channels, as in the theorem statements. *)
From Coq Require Import NArith List Bool.
From Verif Require Import StdioSpec StdioText.
Import ListNotations.

(** All that a program says, in the order in which it says it. *)
Definition spoken (t : list turn) : list N :=
  flat_map (fun x => match x with Say _ _ l => l | _ => [] end) t.

(** No text is said on one channel while text may wait in the buffer of the other.  The
    channel, if any, on which text may wait; a question flushes the standard output. *)
Fixpoint orderly (waiting : option channel) (t : list turn) : Prop :=
  match t with
  | [] => True
  | Say ch _ _ :: t =>
      match waiting with Some ch' => same_channel ch ch' = true | None => True end /\ orderly (Some ch) t
  | Flush ch :: t =>
      orderly (match waiting with Some ch' => if same_channel ch ch' then None else waiting | None => None end) t
  | Ask _ _ :: t =>
      orderly (match waiting with Some StandardOutput => None | _ => waiting end) t
  end.
