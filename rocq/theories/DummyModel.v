(** Model of the dummy objects of test modules:
    /repo/api/include/cmp/core/test_module.hpp 39-141, src/cmp/core/test_module.ipp 10-95. *)
From Coq Require Import NArith ZArith List Bool.
From Verif Require Import Base TestSpec TestModel DummySpec.
Import ListNotations.
Open Scope N_scope.

(** test_module.hpp 139-140: a pointer to the module (None: null) and the value, an int *)
Record dummy : Type := Dummy { owning_module : option N; dummy_value : Z }.

(** The objects of a program by address.  Simplification: an address holds a module or
    a dummy, or one of each; the two kinds are kept apart.  No code of /repo: the memory of a
    program with objects of test_module.hpp 37-421 and 47-141. *)
Record lab : Type := Lab { modules : N -> option module; dummies : N -> option dummy }.

(** Nothing is there when a program starts.  No code of /repo. *)
Definition empty_lab : lab := Lab (fun _ => None) (fun _ => None).

(** No code of /repo: the object at an address is replaced *)
Definition set_module (w : lab) (a : N) (m : option module) : lab :=
  Lab (fun b => if b =? a then m else modules w b) (dummies w).
(** No code of /repo: the object at an address is replaced *)
Definition set_dummy (w : lab) (d : N) (x : option dummy) : lab :=
  Lab (modules w) (fun e => if e =? d then x else dummies w e).

(** Using an object that is not there, or placing one over another, is undefined.  No code of /repo:
    the rules of C++ for the lifetime of objects. *)
Definition with_module {A : Type} (w : lab) (a : N) (f : module -> outcome A) : outcome A :=
  match modules w a with Some m => f m | None => UB DanglingPointer end.
(** No code of /repo: the same for a dummy *)
Definition with_dummy {A : Type} (w : lab) (d : N) (f : dummy -> outcome A) : outcome A :=
  match dummies w d with Some x => f x | None => UB DanglingPointer end.
(** No code of /repo: a module can be constructed only where none lives *)
Definition module_place {A : Type} (w : lab) (a : N) (r : outcome A) : outcome A :=
  match modules w a with Some _ => UB DanglingPointer | None => r end.
(** No code of /repo: the same for a dummy *)
Definition dummy_place {A : Type} (w : lab) (d : N) (r : outcome A) : outcome A :=
  match dummies w d with Some _ => UB DanglingPointer | None => r end.

(** m_owning_test_module->push_message(x).  test_module.ipp 23-25, 33-35, 49-51, 66-68, 92-94. *)
Definition push_to (w : lab) (o : option N) (x : message) : outcome lab :=
  match o with
  | None => UB DanglingPointer
  | Some a => with_module w a (fun m => Ok (set_module w a (Some (push_message m x))))
  end.

(** test_module.hpp 60: default_value *)
Definition default_value : Z := 0.

(** test_module.ipp 12-26 *)
Definition construct_dummy (w : lab) (d : N) (o : option N) (v : option Z) : outcome lab :=
  dummy_place w d
    (push_to (set_dummy w d (Some (Dummy o (match v with Some v => v | None => default_value end)))) o ConstructorCalled).

(** test_module.ipp 40-52 *)
Definition copy_dummy (w : lab) (f d : N) : outcome lab :=
  dummy_place w d (with_dummy w f (fun x =>
    push_to (set_dummy w d (Some (Dummy (owning_module x) (dummy_value x)))) (owning_module x) CopyConstructorCalled)).

(** test_module.ipp 56-71 *)
Definition move_dummy (w : lab) (f d : N) : outcome lab :=
  dummy_place w d (with_dummy w f (fun x =>
    bind (push_to (set_dummy w d (Some (Dummy (owning_module x) (dummy_value x)))) (owning_module x) MoveConstructorCalled)
      (fun w => Ok (set_dummy w f (Some (Dummy (owning_module x) default_value)))))).

(** test_module.ipp 28-36 *)
Definition destroy_dummy (w : lab) (d : N) : outcome lab :=
  with_dummy w d (fun x =>
    bind (push_to w (owning_module x) DestructorCalled) (fun w => Ok (set_dummy w d None))).

(** test_module.ipp 85-95 *)
Definition set_value (w : lab) (d : N) (v : Z) : outcome lab :=
  with_dummy w d (fun x => Ok (set_dummy w d (Some (Dummy (owning_module x) v)))).

(** One action.  test_module's copy and move operations are defaulted (test_module.hpp
    190-254); what a moved-from queue holds is given by the action.  The other members
    do not matter here: a new module has no test functions. *)
Definition act (w : lab) (c : action) : outcome (lab * list answer) :=
  let plain (r : outcome lab) : outcome (lab * list answer) := bind r (fun w => Ok (w, [])) in
  match c with
  | NewModule a => module_place w a (plain (Ok (set_module w a (Some (new_module [])))))
  | CopyModule f a => module_place w a (with_module w f (fun m => plain (Ok (set_module w a (Some m)))))
  | MoveModule f a rest =>
      module_place w a (with_module w f (fun m =>
        plain (Ok (set_module (set_module w a (Some m)) f (Some (set_queue m rest))))))
  | DropModule a => with_module w a (fun _ => plain (Ok (set_module w a None)))
  | NewDummy d o v => plain (construct_dummy w d o v)
  | CopyDummy f d => plain (copy_dummy w f d)
  | MoveDummy f d => plain (move_dummy w f d)
  | DropDummy d => plain (destroy_dummy w d)
  | SetValue d v => plain (set_value w d v)
  | GetValue d => with_dummy w d (fun x => Ok (w, [AValue (dummy_value x)]))   (* test_module.ipp 75-83 *)
  | Push a x => with_module w a (fun m => plain (Ok (set_module w a (Some (push_message m x)))))
  | Pop a => with_module w a (fun m => let '(m, x) := pop_message m in Ok (set_module w a (Some m), [AMessage x]))
  | Count a => with_module w a (fun m => Ok (w, [ACounted (get_message_count m)]))
  | Clear a => with_module w a (fun m => plain (Ok (set_module w a (Some (clear_message_queue m)))))
  end.

Fixpoint act_all (w : lab) (cs : list action) : outcome (lab * list answer) :=
  match cs with
  | [] => Ok (w, [])
  | c :: cs =>
      bind (act w c) (fun '(w, l) => bind (act_all w cs) (fun '(w, l') => Ok (w, l ++ l')))
  end.

(** A program from its start: what it is answered.  No code of /repo. *)
Definition run_program (cs : list action) : outcome (list answer) :=
  bind (act_all empty_lab cs) (fun '(_, l) => Ok l).
