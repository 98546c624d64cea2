(** Model of container resources as objects that are tied, copied, moved and
    destroyed: /repo/api/src/cmp/io/input_resource.cpp 12-43 (read, tie),
    /repo/api/include/cmp/io/input_resource.hpp 42-113 (copy and move operations),
    189 (m_tied_resource), output_resource.hpp 41-112, transfer_resource.hpp 39-110,
    transparent_container_input_resource.hpp and
    transparent_container_output_resource.hpp 66-120: every copy and move operation
    and every destructor is defaulted. *)
From Coq Require Import NArith ZArith List Bool.
From Verif Require Import Base Integers ResourceModel SharedModel TieSpec.
Import ListNotations.
Open Scope Z_scope.

(** An output: the container its m_content_ptr points to (ctr_essence.hpp 34-36) and
    the rest of it; the content inside the resource is not used, [look_at] supplies
    the container's.  An input: m_tied_resource (input_resource.hpp 189), the address
    of an output, and the rest; the container of an input is not used by others here,
    so that its content is kept inside. *)
Record world : Type := World {
  holds : N -> list N;
  outputs : N -> option (N * resource container);
  sources : N -> option (option N * resource container) }.

Definition empty_world : world := World (fun _ => []) (fun _ => None) (fun _ => None).

Definition set_at {A : Type} (f : N -> A) (a : N) (v : A) : N -> A := fun x => if N.eqb x a then v else f x.

(** io_buffer.hpp 87-115, the defaulted move operations: the std::vector moved from is
    left empty, the other members are copied and keep their values. *)
Definition moved_buffer (b : buffer) : buffer :=
  Buffer [] (filled b) (bpos b) (read_dirty b) (write_dirty b).

Definition moved_from (r : resource container) : resource container :=
  Resource (inner r) (moved_buffer (buf r)).

(** What a defaulted move assignment leaves at its left-hand side.  transfer_resource
    is a virtual base reached over two paths (seekable_output_resource.hpp 23-25,
    seekable_transfer_resource.hpp 23-24, output_resource.hpp 19-20; likewise for
    inputs), and C++ leaves it open whether it is then assigned twice.  If it is
    ([twice]), the second assignment moves the emptied vector. *)
Definition assigned (twice : bool) (r : resource container) : resource container :=
  if twice then moved_from r else r.

(** output_resource.cpp 33-40 on the output at address o *)
Definition flush_at (w : world) (o : N) : outcome world :=
  match outputs w o with
  | None => UB DanglingPointer
  | Some (c, r) =>
      bind (flush container_ops (look_at r (holds w c))) (fun r =>
      Ok (World (set_at (holds w) c (content (inner r))) (set_at (outputs w) o (Some (c, r))) (sources w)))
  end.

(** output_resource.cpp 21-31 on the output at address o *)
Definition write_at (w : world) (o : N) (data : list N) : outcome world :=
  match outputs w o with
  | None => UB DanglingPointer
  | Some (c, r) =>
      bind (write container_ops (look_at r (holds w c)) data) (fun '(r, _) =>
      Ok (World (set_at (holds w) c (content (inner r))) (set_at (outputs w) o (Some (c, r))) (sources w)))
  end.

(** input_resource.cpp 22-35 on the input at address i: the tied resource, if any, is
    flushed through the pointer, whatever is there now. *)
Definition read_at (w : world) (i : N) (block : list N) (n : Z) : outcome (world * list N * Z) :=
  match sources w i with
  | None => UB DanglingPointer
  | Some (tie, r) =>
      bind (match tie with Some o => flush_at w o | None => Ok w end) (fun w =>
      bind (read container_ops r block n) (fun '(r, block, k) =>
      Ok (World (holds w) (outputs w) (set_at (sources w) i (Some (tie, r))), block, k)))
  end.

(** One deed.  The constructors: transparent_container_output_resource.ipp 12-26,
    transparent_container_input_resource.ipp 12-26 (m_tied_resource is null,
    input_resource.cpp 12-18); tie: input_resource.cpp 37-43; the copy operations copy
    every member, m_tied_resource and m_content_ptr too.  Using an object that is not
    there is undefined behaviour. *)
Definition do_deed (twice : bool) (w : world) (d : deed) : outcome (world * option (list N * Z)) :=
  match d with
  | NewOut o c cap =>
      Ok (World (set_at (holds w) c []) (set_at (outputs w) o (Some (c, new_resource [] 1 cap))) (sources w), None)
  | MoveOut o o' =>
      match outputs w o with
      | None => UB DanglingPointer
      | Some (c, r) =>
          Ok (World (holds w)
                (set_at (set_at (outputs w) o' (Some (c, r))) o (Some (c, moved_from r))) (sources w), None)
      end
  | AssignOut o o' =>
      match outputs w o with
      | None => UB DanglingPointer
      | Some (c, r) =>
          Ok (World (holds w)
                (set_at (set_at (outputs w) o' (Some (c, assigned twice r))) o (Some (c, moved_from r)))
                (sources w), None)
      end
  | DestroyOut o => Ok (World (holds w) (set_at (outputs w) o None) (sources w), None)
  | Put o data => bind (write_at w o data) (fun w => Ok (w, None))
  | Flush o => bind (flush_at w o) (fun w => Ok (w, None))
  | NewIn i data cap =>
      Ok (World (holds w) (outputs w) (set_at (sources w) i (Some (None, new_resource data 1 cap))), None)
  | Tie i o =>
      match sources w i with
      | None => UB DanglingPointer
      | Some (_, r) => Ok (World (holds w) (outputs w) (set_at (sources w) i (Some (Some o, r))), None)
      end
  | CopyIn i i' =>
      match sources w i with
      | None => UB DanglingPointer
      | Some x => Ok (World (holds w) (outputs w) (set_at (sources w) i' (Some x)), None)
      end
  | MoveIn i i' =>
      match sources w i with
      | None => UB DanglingPointer
      | Some (tie, r) =>
          Ok (World (holds w) (outputs w)
                (set_at (set_at (sources w) i' (Some (tie, r))) i (Some (tie, moved_from r))), None)
      end
  | AssignIn i i' =>
      match sources w i with
      | None => UB DanglingPointer
      | Some (tie, r) =>
          Ok (World (holds w) (outputs w)
                (set_at (set_at (sources w) i' (Some (tie, assigned twice r))) i (Some (tie, moved_from r))), None)
      end
  | DestroyIn i => Ok (World (holds w) (outputs w) (set_at (sources w) i None), None)
  | Get i block n => bind (read_at w i block n) (fun '(w, block, k) => Ok (w, Some (block, k)))
  end.
