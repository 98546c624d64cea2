(** Model of threads that use container resources: the deeds of TieModel, each of which
    touches the memory of certain objects (/repo/api/src/cmp/io/input_resource.cpp 22-43,
    output_resource.cpp 21-40, and the defaulted copy and move operations of
    input_resource.hpp 42-113, output_resource.hpp 41-112).  The library has no locks
    and no atomic objects, so that two threads in the same object are a data race, which
    is undefined behaviour.

    Simplification: the deeds of a history happen one after the other.  This loses
    nothing where there is no race, and where there is one the outcome is the race. *)
From Coq Require Import NArith ZArith List Bool PeanoNat.
From Verif Require Import Base ResourceModel TieSpec TieModel TieText ThreadSpec.
Import ListNotations.

(** The container an output writes to: ctr_essence.hpp 34-36, m_content_ptr *)
Definition box_of (w : world) (o : N) : list place :=
  match outputs w o with Some (c, _) => [ABox c] | None => [] end.

(** The objects a deed touches.  A read touches the input, and flushes the output it is
    tied to (input_resource.cpp 28-30), whose container then grows.  Tying only stores
    the address of the output (37-43).  (Every touch is counted as a change; only
    copying leaves its source unchanged.) *)
Definition touched (w : world) (d : deed) : list place :=
  match d with
  | NewOut o c _ => [AnOut o; ABox c]
  | MoveOut o o' | AssignOut o o' => [AnOut o; AnOut o']
  | DestroyOut o => [AnOut o]
  | Put o _ | Flush o => AnOut o :: box_of w o
  | NewIn i _ _ | DestroyIn i | Tie i _ => [AnIn i]
  | CopyIn i i' | MoveIn i i' | AssignIn i i' => [AnIn i; AnIn i']
  | Get i _ _ =>
      AnIn i :: match sources w i with
                | Some (Some o, _) => AnOut o :: box_of w o
                | _ => []
                end
  end.

Definition place_eq_dec (a b : place) : {a = b} + {a <> b}.
Proof. decide equality; apply N.eq_dec. Defined.

Definition overlap (l m : list place) : bool :=
  existsb (fun a => existsb (fun b => if place_eq_dec a b then true else false) m) l.

(** The next deeds of the threads other than those in [but].  No code of /repo: threads of a
    program. *)
Fixpoint firsts (but : list nat) (h : list (nat * deed)) : list deed :=
  match h with
  | [] => []
  | (k, d) :: h => if existsb (Nat.eqb k) but then firsts but h else d :: firsts (k :: but) h
  end.

(** No code of /repo: how a program with threads ends *)
Inductive result : Type :=
| Result (o : outcome (list (nat * list sight)))
| DataRace.

(** A history: at each moment the next deed of the thread whose turn it is may happen at
    the same time as the next deed of any other thread.  No code of /repo: the rule of C++ for data
    races. *)
Fixpoint together (twice : bool) (w : world) (h : list (nat * deed)) : result :=
  match h with
  | [] => Result (Ok [])
  | (k, d) :: h =>
      if existsb (fun d' => overlap (touched w d) (touched w d')) (firsts [k] h) then DataRace
      else
        match do_deed twice w d with
        | Ok (w, ans) =>
            match together twice w h with
            | Result (Ok l) => Result (Ok ((k, seen w d ans) :: l))
            | other => other
            end
        | Throw e => Result (Throw e)
        | UB u => Result (UB u)
        | Terminate => Result Terminate
        | Diverge => Result Diverge
        end
  end.

(** One thread alone, up to the world it leaves.  No code of /repo. *)
Fixpoint alone (twice : bool) (w : world) (ds : list deed) : outcome world :=
  match ds with
  | [] => Ok w
  | d :: ds => bind (do_deed twice w d) (fun '(w, _) => alone twice w ds)
  end.

(** The main thread prepares, and then starts the threads.  No code of /repo. *)
Definition program (twice : bool) (setup : list deed) (h : list (nat * deed)) : result :=
  match alone twice empty_world setup with
  | Ok w => together twice w h
  | Throw e => Result (Throw e)
  | UB u => Result (UB u)
  | Terminate => Result Terminate
  | Diverge => Result Diverge
  end.
