(** Model of the application object: /repo/api/include/cmp/core/application.hpp,
    src/cmp/core/application.cpp.  Objects are named by their addresses. *)
From Coq Require Import NArith ZArith List Bool.
From Verif Require Import Base.
Import ListNotations.
Open Scope N_scope.

(** application.hpp, private data: m_argc, m_argv (a pointer), m_copyright_notice *)
Record application : Type := Application { argc : Z; argv : N; notice : list N }.

(** The live application objects and g_instance_ptr (application.cpp 70-71), which
    starts as a null pointer. *)
Record world : Type := World { live : list (N * application); instance : option N }.

Definition start : world := World [] None.

Fixpoint find (a : N) (l : list (N * application)) : option application :=
  match l with
  | [] => None
  | (b, x) :: l' => if a =? b then Some x else find a l'
  end.

Definition remove (a : N) (l : list (N * application)) : list (N * application) :=
  filter (fun p => negb (a =? fst p)) l.

Definition store (a : N) (x : application) (l : list (N * application)) : list (N * application) :=
  map (fun p => if a =? fst p then (a, x) else p) l.

(** What a program can do with application objects.  application.hpp 23-176: its constructor, member
    functions and the implicit copies. *)
Inductive call : Type :=
| Construct (a : N) (c : Z) (v : N)   (* application.cpp 12-21 *)
| MoveConstruct (from a : N)          (* application.hpp: defaulted *)
| MoveAssign (from to : N)            (* application.hpp: defaulted *)
| SetNotice (a : N) (s : list N)      (* application.cpp 53-58 *)
| Destroy (a : N).                    (* application.hpp: defaulted *)

(** A new object can only be placed where none lives; any other use of an address
    without a live object is undefined.  The string of a moved-from object is
    unspecified in C++; it is taken to be empty.  application.cpp 12-65 and the implicit copy
    operations and destructor of application.hpp 23-176. *)
Definition perform (w : world) (c : call) : outcome world :=
  match c with
  | Construct a n v =>
      match find a (live w) with
      | Some _ => UB DanglingPointer
      | None => Ok (World ((a, Application n v []) :: live w) (Some a))
      end
  | MoveConstruct from a =>
      match find a (live w), find from (live w) with
      | None, Some x =>
          Ok (World ((a, x) :: store from (Application (argc x) (argv x) []) (live w)) (instance w))
      | _, _ => UB DanglingPointer
      end
  | MoveAssign from to =>
      match find from (live w), find to (live w) with
      | Some x, Some _ =>
          Ok (World (store to x (store from (Application (argc x) (argv x) []) (live w))) (instance w))
      | _, _ => UB DanglingPointer
      end
  | SetNotice a s =>
      match find a (live w) with
      | Some x => Ok (World (store a (Application (argc x) (argv x) s) (live w)) (instance w))
      | None => UB DanglingPointer
      end
  | Destroy a =>
      match find a (live w) with
      | Some _ => Ok (World (remove a (live w)) (instance w))
      | None => UB DanglingPointer
      end
  end.

(** No code of /repo: the calls of a program one after the other *)
Fixpoint perform_all (w : world) (cs : list call) : outcome world :=
  match cs with
  | [] => Ok w
  | c :: cs' => bind (perform w c) (fun w => perform_all w cs')
  end.

(** application.cpp 25-30, 75-80 *)
Definition app (w : world) : option N := instance w.

(** application.cpp 32-37 through a pointer *)
Definition get_argc (w : world) (p : option N) : outcome Z :=
  match p with
  | Some a => match find a (live w) with Some x => Ok (argc x) | None => UB DanglingPointer end
  | None => UB DanglingPointer
  end.
