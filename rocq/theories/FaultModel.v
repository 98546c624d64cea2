(** Model of resources whose device fails: what input_resource.cpp and output_resource.cpp
    leave behind when the virtual functions read_raw and write_raw throw.

    In ResourceModel.v a call that throws ends the history; here the object is kept, as a
    program that catches the exception finds it. *)
From Coq Require Import NArith ZArith List Bool.
From Verif Require Import Base Integers ResourceModel.
Import ListNotations.
Open Scope Z_scope.

(** Models no function of /repo: how a call ends.  [Raised]: with an exception of the
    device (a class of the program, std::bad_alloc, ...), whose kind does not matter. *)
Inductive result (A : Type) : Type :=
| Returned (a : A)
| Raised
| Undefined (k : ub_kind)
| Ended.              (* std::terminate *)
Arguments Returned {A} _.
Arguments Raised {A}.
Arguments Undefined {A} _.
Arguments Ended {A}.

(** Sequencing of calls that change an object.  No code of /repo: how C++ goes on after a call. *)
Definition next {S A B : Type} (r : S * result A) (f : S -> A -> S * result B) : S * result B :=
  match r with
  | (s, Returned a) => f s a
  | (s, Raised) => (s, Raised)
  | (s, Undefined k) => (s, Undefined k)
  | (s, Ended) => (s, Ended)
  end.

(** Functions of io_buffer, which do not throw.  io_buffer.cpp 12-134. *)
Definition plainly {A : Type} (x : outcome A) : result A :=
  match x with
  | Ok a => Returned a
  | Throw _ => Raised
  | UB k => Undefined k
  | Terminate | Diverge => Ended
  end.

(** An exception leaves a noexcept function.  No code of /repo: the rule of C++ for noexcept. *)
Definition no_throw {S A : Type} (r : S * result A) : S * result A :=
  match r with (s, Raised) => (s, Ended) | r => r end.

(** read_raw and write_raw of a resource with state S, the state kept when they throw.
    device_read s n is what it would put into the block; it writes nothing when it throws.
    input_resource.hpp and output_resource.hpp: the pure virtual functions read_raw and write_raw,
    which derived classes outside /repo may define to throw. *)
Record device (S : Type) : Type := Device {
  device_read : S -> Z -> read_request -> S * result (list N);
  device_write : S -> list N -> S * result Z }.
Arguments device_read {S} _.
Arguments device_write {S} _.

(** output_resource.cpp 33-40 *)
Definition fault_flush {S : Type} (d : device S) (r : resource S) : resource S * result unit :=
  if write_dirty (buf r) then
    match slice (mem (buf r)) 0 (bpos (buf r)) with
    | Ok data =>
        match device_write d (inner r) data with
        | (s, Returned _) => (Resource s (set_write_dirty (buf r) false), Returned tt)
        | (s, Raised) => (Resource s (buf r), Raised)
        | (s, Undefined k) => (Resource s (buf r), Undefined k)
        | (s, Ended) => (Resource s (buf r), Ended)
        end
    | x => (r, plainly (bind x (fun _ => Ok tt)))
    end
  else (r, Returned tt).

Definition direct_write {S : Type} (d : device S) (r : resource S) (data : list N) : resource S * result Z :=
  let '(s, x) := device_write d (inner r) data in (Resource s (buf r), x).

(** output_resource.cpp 44-73 *)
Definition fault_write_buffered {S : Type} (d : device S) (r : resource S) (data : list N) : resource S * result Z :=
  let n := size_of data in
  next (if capacity (buf r) <? bpos (buf r) + n then fault_flush d r else (r, Returned tt)) (fun r' _ =>
  if (capacity (buf r) <? bpos (buf r) + n) && (capacity (buf r) <? n) then direct_write d r' data
  else
    match buffer_write (buf r') data with
    | Ok b => (Resource (inner r') b, Returned n)
    | x => (r', plainly (bind x (fun _ => Ok n)))
    end).

(** output_resource.cpp 21-31 *)
Definition fault_write {S : Type} (d : device S) (r : resource S) (data : list N) : resource S * result Z :=
  if 0 <? capacity (buf r) then fault_write_buffered d r data else direct_write d r data.

(** input_resource.cpp 48-61 *)
Definition fault_fill {S : Type} (d : device S) (r : resource S) : resource S * result Z :=
  match device_read d (inner r) (capacity (buf r)) FillBuffer with
  | (s, Returned bytes) =>
      match blit (mem (buf r)) 0 bytes with
      | Ok m => (Resource s (Buffer m (size_of bytes) 0 false (write_dirty (buf r))), Returned (size_of bytes))
      | x => (Resource s (buf r), plainly (bind x (fun _ => Ok 0)))
      end
  | (s, Raised) => (Resource s (buf r), Raised)
  | (s, Undefined k) => (Resource s (buf r), Undefined k)
  | (s, Ended) => (Resource s (buf r), Ended)
  end.

(** io_buffer.cpp 110-123 for a read of n bytes that are there: the bytes and the buffer. *)
Definition take_from {S : Type} (r : resource S) (n : Z) : resource S * result (list N) :=
  match slice (mem (buf r)) (bpos (buf r)) n with
  | Ok bytes => (Resource (inner r) (Buffer (mem (buf r)) (filled (buf r)) (bpos (buf r) + n) (read_dirty (buf r)) (write_dirty (buf r))), Returned bytes)
  | x => (r, plainly x)
  end.

(** input_resource.cpp 65-166.  The result is what the call leaves in the block of the
    program, from its beginning. *)
Definition fault_read_buffered {S : Type} (d : device S) (r : resource S) (n : Z) : resource S * result (list N) :=
  next (if read_dirty (buf r) then fault_fill d r else (r, Returned 0)) (fun r _ =>
  if filled (buf r) <? bpos (buf r) + n then
    let difference := as_size (filled (buf r) - bpos (buf r)) in
    next (if 0 <? difference then take_from r difference else (r, Returned [])) (fun r first =>
    let n := as_size (n - size_of first) in
    if capacity (buf r) <? n then
      let '(s, x) := device_read d (inner r) n LeanRetrieval in
      next (Resource s (buf r), x) (fun r more => (r, Returned (first ++ more)))
    else
      next (fault_fill d r) (fun r bytes_filled =>
      next (take_from r (if bytes_filled <? n then bytes_filled else n)) (fun r more =>
      (r, Returned (first ++ more)))))
  else take_from r n).

(** input_resource.cpp 22-35, without a tied resource *)
Definition fault_read {S : Type} (d : device S) (r : resource S) (n : Z) : resource S * result (list N) :=
  if 0 <? capacity (buf r) then fault_read_buffered d r n
  else let '(s, x) := device_read d (inner r) n LeanRetrieval in (Resource s (buf r), x).

(** output_stream.ipp 25-31: the destructor of a stream, which like all destructors is
    noexcept, flushes the resource. *)
Definition stream_destructor {S : Type} (d : device S) (r : resource S) : resource S * result unit :=
  no_throw (fault_flush d r).

(* --------------------------------------------------------------- devices *)

(** Models no function of /repo: a device that keeps what is written to it, or throws
    without having taken anything, as the list says (true: it works). *)
Record recorder : Type := Recorder { taken : list N; works : list bool }.
Definition record_write (s : recorder) (data : list N) : recorder * result Z :=
  match works s with
  | false :: w => (Recorder (taken s) w, Raised)
  | true :: w => (Recorder (taken s ++ data) w, Returned (size_of data))
  | [] => (Recorder (taken s ++ data) [], Returned (size_of data))
  end.
Definition recording : device recorder := Device recorder (fun s _ _ => (s, Returned [])) record_write.

(** Models no function of /repo: a device that gives its bytes in order, as many as it is
    asked for while it has them, or throws without having lost anything. *)
Record tape : Type := Tape { left : list N; plays : list bool }.
Definition tape_read (s : tape) (n : Z) (rr : read_request) : tape * result (list N) :=
  let give w := (Tape (skipn (Z.to_nat n) (left s)) w, Returned (firstn (Z.to_nat n) (left s))) in
  match plays s with
  | false :: w => (Tape (left s) w, Raised)
  | true :: w => give w
  | [] => give []
  end.
Definition playing : device tape := Device tape tape_read (fun s _ => (s, Returned 0)).

(** ctr_essence.ipp 173-223: container_write of ResourceModel.v when resize has to ask for
    memory (true: there is some; resize changes nothing when it throws std::bad_alloc). *)
Record growing : Type := Growing { inside : container; memory : list bool }.
Definition growing_write (s : growing) (data : list N) : growing * result Z :=
  let write w := match container_write (inside s) data with
                 | Ok (c, n) => (Growing c w, Returned n)
                 | x => (Growing (inside s) w, plainly (bind x (fun _ => Ok 0)))
                 end in
  if size_of (content (inside s)) <? as_size (position (inside s) + size_of data) then
    match memory s with
    | false :: w => (Growing (inside s) w, Raised)
    | true :: w => write w
    | [] => write []
    end
  else write (memory s).
Definition growing_container : device growing := Device growing (fun s _ _ => (s, Returned [])) growing_write.

(** seekable_output_resource.ipp 26-38: noexcept *)
Definition fault_seek (r : resource growing) (new : Z) (pr : position_reference) : resource growing * result unit :=
  no_throw (next (fault_flush growing_container r) (fun r _ =>
  (Resource (Growing (set_position_raw (inside (inner r)) new pr) (memory (inner r))) (buf r), Returned tt))).
