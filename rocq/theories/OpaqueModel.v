(** Model of the opaque container resources as objects:
    /repo/api/src/cmp/io/opaque_container_io_resource.ipp 12-57 (constructors),
    /repo/api/include/cmp/io/opaque_container_io_resource.hpp 106-173 (copy and move
    operations, all defaulted), 320-322 (m_content); impl/ctr_essence.hpp 34-36
    (m_content_ptr).  opaque_container_input_resource and
    opaque_container_output_resource have the same constructors and operations. *)
From Coq Require Import NArith ZArith List Bool.
From Verif Require Import Base Integers ResourceModel ResourceSpec ResourceText.
Import ListNotations.
Open Scope Z_scope.

(** An object: its own content (m_content), the object whose m_content its
    m_content_ptr points to, and the rest of ctr_essence and the buffer.
    opaque_container_io_resource.hpp, ctr_essence.hpp 34-37. *)
Record object : Type := Object {
  own : list N;
  points_to : N;
  place : Z;
  fill_amount : Z;
  obuf : buffer }.

(** The objects alive, by address.  No code of /repo: the memory of a program. *)
Definition world : Type := list (N * object).

(** No code of /repo: the object at an address *)
Definition find_object (a : N) (w : world) : option object :=
  option_map snd (find (fun '(b, _) => N.eqb a b) w).

(** No code of /repo: no object is at the address any more *)
Definition remove_object (a : N) (w : world) : world := filter (fun '(b, _) => negb (N.eqb a b)) w.

(** No code of /repo: the object at an address is replaced *)
Definition put (a : N) (o : object) (w : world) : world := (a, o) :: remove_object a w.

(** opaque_container_io_resource.ipp 12-57 *)
Definition construct (a : N) (content : list N) (cap : nat) (w : world) : world :=
  put a (Object content a 0 0 (new_buffer cap)) w.

(** The defaulted copy operations: every member is copied, m_content_ptr too.
    opaque_container_input_resource.hpp, opaque_container_output_resource.hpp and
    opaque_container_io_resource.hpp 109-140: the copy constructor and copy assignment. *)
Definition copy (from to : N) (w : world) : outcome world :=
  match find_object from w with
  | Some o => Ok (put to o w)
  | None => UB DanglingPointer
  end.

(** The defaulted move operations.  The content moved from is left empty (for
    std::vector; a moved-from std::string is unspecified), and so is the vector of
    the buffer; everything else is copied.
    opaque_container_io_resource.hpp 142-173 and the two other classes. *)
Definition move (from to : N) (w : world) : outcome world :=
  match find_object from w with
  | Some o =>
      let b := obuf o in
      Ok (put from (Object [] (points_to o) (place o) (fill_amount o)
                     (Buffer [] (filled b) (bpos b) (read_dirty b) (write_dirty b)))
           (put to o w))
  | None => UB DanglingPointer
  end.

(** The implicit destructor of opaque_container_io_resource.hpp: no object is there any more *)
Definition destroy (a : N) (w : world) : world := remove_object a w.

(** A call on the object at address a, for elements of [width] bytes: it works on
    the content of the object pointed to.  opaque_container_io_resource.ipp 59-93, 117-164. *)
Definition call_object (width : Z) (a : N) (c : call) (w : world) : outcome (world * answer) :=
  match find_object a w with
  | None => UB DanglingPointer
  | Some o =>
      match find_object (points_to o) w with
      | None => UB DanglingPointer
      | Some t =>
          bind (call_io (Resource (Container (own t) width (place o) (fill_amount o)) (obuf o)) c) (fun '(r, ans) =>
          let w := put (points_to o) (Object (content (inner r)) (points_to t) (place t) (fill_amount t) (obuf t)) w in
          match find_object a w with
          | None => UB DanglingPointer
          | Some o =>
              Ok (put a (Object (own o) (points_to o) (position (inner r)) (last_fill (inner r)) (buf r)) w, ans)
          end)
      end
  end.

(** opaque_container_io_resource.ipp 95-115: grab_content *)
Definition grab_content (a : N) (w : world) : option (list N) := option_map own (find_object a w).

(** What a program does with such objects.  opaque_container_io_resource.hpp: the member functions. *)
Inductive action : Type :=
| Construct (a : N) (content : list N) (cap : nat)
| Copy (from to : N)
| Move (from to : N)
| Destroy (a : N)
| Use (a : N) (c : call).

(** opaque_container_io_resource.ipp 12-164: one of them *)
Definition act (width : Z) (w : world) (x : action) : outcome (world * option answer) :=
  match x with
  | Construct a l cap => Ok (construct a l cap w, None)
  | Copy from to => bind (copy from to w) (fun w => Ok (w, None))
  | Move from to => bind (move from to w) (fun w => Ok (w, None))
  | Destroy a => Ok (destroy a w, None)
  | Use a c => bind (call_object width a c w) (fun '(w, ans) => Ok (w, Some ans))
  end.

(** No code of /repo: the actions one after the other *)
Fixpoint acts (width : Z) (w : world) (xs : list action) : outcome (world * list (option answer)) :=
  match xs with
  | [] => Ok (w, [])
  | x :: xs =>
      bind (act width w x) (fun '(w, a) => bind (acts width w xs) (fun '(w, l) => Ok (w, a :: l)))
  end.
