(** Running the events of CrowdSpec on the model. *)
From Coq Require Import NArith ZArith List Bool.
From Verif Require Import Base Integers ResourceSpec CursorSpec PenSpec CrowdSpec ResourceModel ResourceText SharedModel.
Import ListNotations.
Open Scope Z_scope.

(** The resources, and whether they are output resources. *)
Fixpoint run_crowd (l : list N) (ms : list (bool * resource container)) (es : list event)
  : outcome (list N * list (bool * resource container) * list answer) :=
  match es with
  | [] => Ok (l, ms, [])
  | Replaced l :: es => run_crowd l ms es
  | By k x :: es =>
      match nth_error ms k with
      | None => run_crowd l ms es
      | Some (b, r) =>
          bind ((if b then call_output else call_input) (look_at r l) x) (fun '(r, a) =>
          bind (run_crowd (content (inner r)) (instead k (b, r) ms) es) (fun '(l, ms, answers) =>
          Ok (l, ms, a :: answers)))
      end
  end.

Definition new_member (l : list N) (w : Z) (x : bool * nat) : bool * resource container :=
  (fst x, new_resource l w (snd x)).
