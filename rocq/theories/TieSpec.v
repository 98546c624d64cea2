(** What a program that copies and moves resource objects about may expect of them,
    stated without the model. *)
From Coq Require Import NArith ZArith List Bool.
From Verif Require Import ResourceSpec.
Import ListNotations.
Open Scope Z_scope.

(** What the program does.  Outputs, inputs and containers are named by numbers.
    A buffer of capacity 0 means none. *)
Inductive deed : Type :=
| NewOut (o c : N) (cap : nat)            (* an output on the new, empty container c *)
| MoveOut (o o' : N)                      (* o' is made from std::move(o) *)
| AssignOut (o o' : N)                    (* o' = std::move(o) *)
| DestroyOut (o : N)
| Put (o : N) (data : list N)             (* o.write *)
| Flush (o : N)                           (* o.flush *)
| NewIn (i : N) (data : list N) (cap : nat)   (* an input on a container holding data *)
| Tie (i o : N)                           (* i.tie(o) *)
| CopyIn (i i' : N)                       (* i' is made from i, or i' = i *)
| MoveIn (i i' : N)                       (* i' is made from std::move(i) *)
| AssignIn (i i' : N)                     (* i' = std::move(i) *)
| DestroyIn (i : N)
| Get (i : N) (block : list N) (n : Z).   (* i.read, n bytes into block *)

(** What the program may expect: the container each output writes to (None: no such
    output, or moved from), everything written to each container, and for each input
    what is left to read, its buffer's capacity and the output it is tied to. *)
Record ideal : Type := Ideal {
  writes_to : N -> option N;
  text : N -> list N;
  inputs : N -> option (list N * Z * option N) }.

Definition nothing_yet : ideal := Ideal (fun _ => None) (fun _ => []) (fun _ => None).

Definition at_name {A : Type} (f : N -> A) (a : N) (v : A) : N -> A :=
  fun x => if N.eqb x a then v else f x.

(** Moves and copies hand everything on; what was moved from is not used again. *)
Definition next (s : ideal) (d : deed) : ideal :=
  match d with
  | NewOut o c _ => Ideal (at_name (writes_to s) o (Some c)) (at_name (text s) c []) (inputs s)
  | MoveOut o o' | AssignOut o o' =>
      Ideal (at_name (at_name (writes_to s) o' (writes_to s o)) o None) (text s) (inputs s)
  | DestroyOut o => Ideal (at_name (writes_to s) o None) (text s) (inputs s)
  | Put o data =>
      match writes_to s o with
      | Some c => Ideal (writes_to s) (at_name (text s) c (text s c ++ data)) (inputs s)
      | None => s
      end
  | Flush _ => s
  | NewIn i data cap => Ideal (writes_to s) (text s) (at_name (inputs s) i (Some (data, Z.of_nat cap, None)))
  | Tie i o =>
      match inputs s i with
      | Some (rest, cap, _) => Ideal (writes_to s) (text s) (at_name (inputs s) i (Some (rest, cap, Some o)))
      | None => s
      end
  | CopyIn i i' => Ideal (writes_to s) (text s) (at_name (inputs s) i' (inputs s i))
  | MoveIn i i' | AssignIn i i' =>
      Ideal (writes_to s) (text s) (at_name (at_name (inputs s) i' (inputs s i)) i None)
  | DestroyIn i => Ideal (writes_to s) (text s) (at_name (inputs s) i None)
  | Get i _ n =>
      match inputs s i with
      | Some (rest, cap, tie) => Ideal (writes_to s) (text s) (at_name (inputs s) i (Some (drop n rest, cap, tie)))
      | None => s
      end
  end.

(** What the program gets to see: at a flush what the container holds; at a read the
    bytes read, and what the container of the tied output holds then. *)
Inductive sight : Type :=
| Holds (l : list N)
| Reads (got : list N) (tied_holds : option (list N)).

Definition tied_text (s : ideal) (tie : option N) : option (list N) :=
  match tie with
  | Some o => option_map (text s) (writes_to s o)
  | None => None
  end.

Definition expected (s : ideal) (d : deed) : list sight :=
  match d with
  | Flush o => match writes_to s o with Some c => [Holds (text s c)] | None => [] end
  | Get i _ n =>
      match inputs s i with
      | Some (rest, _, tie) => [Reads (take n rest) (tied_text s tie)]
      | None => []
      end
  | _ => []
  end.

Fixpoint expectations (s : ideal) (ds : list deed) : list sight :=
  match ds with
  | [] => []
  | d :: ds => expected s d ++ expectations (next s d) ds
  end.

(** The tie of an input, if any, is to an output that is there and not moved from. *)
Definition sound_tie (s : ideal) (tie : option N) : Prop :=
  match tie with
  | Some o => writes_to s o <> None
  | None => True
  end.

(** Deeds that make sense: only things that are there and not moved from are used,
    no container gets two outputs, sizes stay within bounds, and no read is longer
    than the input's buffer.  [assignable] tells whether move assignments count. *)
Definition sensible (assignable : Prop) (s : ideal) (d : deed) : Prop :=
  match d with
  | NewOut o c _ => forall x, x <> o -> writes_to s x <> Some c
  | MoveOut o o' => writes_to s o <> None /\ o <> o'
  | AssignOut o o' => assignable /\ writes_to s o <> None /\ o <> o'
  | DestroyOut _ | DestroyIn _ => True
  | Put o data => exists c, writes_to s o = Some c /\ len (text s c ++ data) * 2 < 2 ^ 63
  | Flush o => writes_to s o <> None
  | NewIn _ data _ => len data * 2 < 2 ^ 63
  | Tie i _ => inputs s i <> None
  | CopyIn i _ => inputs s i <> None
  | MoveIn i i' => inputs s i <> None /\ i <> i'
  | AssignIn i i' => assignable /\ inputs s i <> None /\ i <> i'
  | Get i block n => exists rest cap tie, inputs s i = Some (rest, cap, tie) /\
      0 <= n <= len block /\ (cap = 0 \/ n <= cap) /\ sound_tie s tie
  end.

Fixpoint all_sensible (assignable : Prop) (s : ideal) (ds : list deed) : Prop :=
  match ds with
  | [] => True
  | d :: ds => sensible assignable s d /\ all_sensible assignable (next s d) ds
  end.
