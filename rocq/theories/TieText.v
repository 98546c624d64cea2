(** Bridge between the model of tied objects and its specification: what the program
    sees while it runs. *)
From Coq Require Import NArith ZArith List Bool.
From Verif Require Import Base ResourceModel ResourceSpec TieSpec TieModel.
Import ListNotations.
Open Scope Z_scope.

(** What the container of the output at address o holds. *)
Definition container_of (w : world) (o : N) : option (list N) :=
  option_map (fun '(c, _) => holds w c) (outputs w o).

Definition tied_container (w : world) (i : N) : option (list N) :=
  match sources w i with
  | Some (Some o, _) => container_of w o
  | _ => None
  end.

(** After the deed: the containers looked at, and the bytes read. *)
Definition seen (w : world) (d : deed) (ans : option (list N * Z)) : list sight :=
  match d, ans with
  | Flush o, _ => match container_of w o with Some l => [Holds l] | None => [] end
  | Get i _ _, Some (block, k) => [Reads (take k block) (tied_container w i)]
  | _, _ => []
  end.

Fixpoint live (twice : bool) (w : world) (ds : list deed) : outcome (list sight) :=
  match ds with
  | [] => Ok []
  | d :: ds =>
      bind (do_deed twice w d) (fun '(w, ans) =>
      bind (live twice w ds) (fun l => Ok (seen w d ans ++ l)))
  end.
