(** What a program can do with test modules and dummies, and what a user expects of it,
    in terms of what has been done before.  Independent of the model. *)
From Coq Require Import NArith ZArith List Bool.
From Verif Require Import TestSpec.
Import ListNotations.
Open Scope N_scope.

(** Objects are named by their addresses.  An address can be used again once its object
    is destroyed. *)
Inductive action : Type :=
| NewModule (a : N)
| CopyModule (from a : N)
| MoveModule (from a : N) (rest : list message)   (* rest: what std::queue leaves in the moved-from queue *)
| DropModule (a : N)
| NewDummy (d : N) (owner : option N) (v : option Z)   (* None: the null pointer; the default value *)
| CopyDummy (from d : N)
| MoveDummy (from d : N)
| DropDummy (d : N)
| SetValue (d : N) (v : Z)
| GetValue (d : N)
| Push (a : N) (x : message)
| Pop (a : N)
| Count (a : N)
| Clear (a : N).

Inductive answer : Type :=
| AValue (v : Z)
| AMessage (x : message)
| ACounted (n : N).

(** In what follows [past] is what has been done, the latest first. *)

(** The module a dummy belongs to: the one it was constructed for, or that of the dummy
    it was copied or moved from. *)
Fixpoint owner_of (past : list action) (d : N) : option N :=
  match past with
  | [] => None
  | NewDummy e o _ :: past => if e =? d then o else owner_of past d
  | (CopyDummy f e | MoveDummy f e) :: past => if e =? d then owner_of past f else owner_of past d
  | _ :: past => owner_of past d
  end.

(** The value of a dummy.  The one it is moved from gets the default value. *)
Fixpoint value_of (past : list action) (d : N) : Z :=
  match past with
  | [] => 0%Z
  | NewDummy e _ v :: past => if e =? d then match v with Some v => v | None => 0%Z end else value_of past d
  | CopyDummy f e :: past => if e =? d then value_of past f else value_of past d
  | MoveDummy f e :: past => if e =? d then value_of past f else if f =? d then 0%Z else value_of past d
  | SetValue e v :: past => if e =? d then v else value_of past d
  | _ :: past => value_of past d
  end.

(** Whether there is a module, or a dummy, at an address. *)
Fixpoint module_there (past : list action) (a : N) : bool :=
  match past with
  | [] => false
  | (NewModule b | CopyModule _ b | MoveModule _ b _) :: past => (b =? a) || module_there past a
  | DropModule b :: past => negb (b =? a) && module_there past a
  | _ :: past => module_there past a
  end.

Fixpoint dummy_there (past : list action) (d : N) : bool :=
  match past with
  | [] => false
  | (NewDummy e _ _ | CopyDummy _ e | MoveDummy _ e) :: past => (e =? d) || dummy_there past d
  | DropDummy e :: past => negb (e =? d) && dummy_there past d
  | _ :: past => dummy_there past d
  end.

(** What is reported of the life of dummies, and to which module. *)
Definition report (past : list action) (c : action) : option (option N * message) :=
  match c with
  | NewDummy _ o _ => Some (o, ConstructorCalled)
  | CopyDummy f _ => Some (owner_of past f, CopyConstructorCalled)
  | MoveDummy f _ => Some (owner_of past f, MoveConstructorCalled)
  | DropDummy d => Some (owner_of past d, DestructorCalled)
  | _ => None
  end.

(** The messages that wait in a module, the oldest first. *)
Fixpoint waiting (past : list action) (a : N) : list message :=
  match past with
  | [] => []
  | c :: past =>
      let before := waiting past a in
      match c with
      | NewModule b => if b =? a then [] else before
      | CopyModule f b => if b =? a then waiting past f else before
      | MoveModule f b rest => if b =? a then waiting past f else if f =? a then rest else before
      | Push b x => if b =? a then before ++ [x] else before
      | Pop b => if b =? a then tl before else before
      | Clear b => if b =? a then [] else before
      | _ =>
          match report past c with
          | Some (Some b, x) => if b =? a then before ++ [x] else before
          | _ => before
          end
      end
  end.

(** What a call returns. *)
Definition expected (past : list action) (c : action) : list answer :=
  match c with
  | GetValue d => [AValue (value_of past d)]
  | Pop a => [AMessage (hd EmptyMessage (waiting past a))]
  | Count a => [ACounted (N.of_nat (length (waiting past a)) mod 2 ^ 32)]
  | _ => []
  end.

Fixpoint all_expected (past : list action) (cs : list action) : list answer :=
  match cs with
  | [] => []
  | c :: cs => expected past c ++ all_expected (c :: past) cs
  end.

(** The program uses objects that are there, makes new ones where there are none, and a
    dummy's module is there whenever something is reported. *)
Definition sound (past : list action) (c : action) : bool :=
  match c with
  | NewModule a => negb (module_there past a)
  | CopyModule f a | MoveModule f a _ => module_there past f && negb (module_there past a)
  | NewDummy d _ _ => negb (dummy_there past d)
  | CopyDummy f d | MoveDummy f d => dummy_there past f && negb (dummy_there past d)
  | DropDummy d | SetValue d _ | GetValue d => dummy_there past d
  | DropModule a | Push a _ | Pop a | Count a | Clear a => module_there past a
  end &&
  match report past c with
  | None => true
  | Some (None, _) => false
  | Some (Some a, _) => module_there past a
  end.

Fixpoint all_sound (past : list action) (cs : list action) : bool :=
  match cs with
  | [] => true
  | c :: cs => sound past c && all_sound (c :: past) cs
  end.

(** Whether a message says that a dummy came to be. *)
Definition is_birth (x : message) : bool :=
  match x with ConstructorCalled | CopyConstructorCalled | MoveConstructorCalled => true | _ => false end.
Definition is_death (x : message) : bool :=
  match x with DestructorCalled => true | _ => false end.

(** Programs that leave the messages alone: they make and drop modules and use dummies. *)
Definition leaves_messages (c : action) : bool :=
  match c with CopyModule _ _ | MoveModule _ _ _ | Push _ _ | Pop _ | Clear _ => false | _ => true end.

(** The dummies of a module that are there, each once. *)
Definition alive (past : list action) (a : N) (ds : list N) : Prop :=
  NoDup ds /\ forall d, In d ds <-> dummy_there past d = true /\ owner_of past d = Some a.

Definition births (xs : list message) : nat := length (filter is_birth xs).
Definition deaths (xs : list message) : nat := length (filter is_death xs).
