(** Model of buffered input and output and of the container resources:
    /repo/api/src/cmp/io/io_buffer.cpp, input_resource.cpp, output_resource.cpp,
    seekable_transfer_resource.ipp, seekable_input_resource.ipp,
    seekable_output_resource.ipp, seekable_io_resource.ipp, impl/ctr_essence.ipp.

    Bytes are N, memory blocks are lists of bytes, sizes and positions are Z.
    A size_t difference that is negative wraps; sums of sizes of blocks in memory
    do not (where a wrapped difference is added to again, the copy that follows is
    out of bounds with or without a second wrap). *)
From Coq Require Import NArith ZArith List Bool.
From Verif Require Import Base Integers.
Import ListNotations.
Open Scope Z_scope.

(* ------------------------------------------------------------------ memory *)

(** A value as a size_t (values above -2^64). *)
Definition as_size (x : Z) : Z := if x <? 0 then x + 2 ^ 64 else x.

Definition size_of (m : list N) : Z := Z.of_nat (length m).

(** The n bytes at offset off of a block: the source side of std::memcpy.  Used in io_buffer.cpp
    110-134, ctr_essence.ipp 149, 210. *)
Definition slice (m : list N) (off n : Z) : outcome (list N) :=
  if (0 <=? off) && (0 <=? n) && (off + n <=? size_of m)
  then Ok (firstn (Z.to_nat n) (skipn (Z.to_nat off) m))
  else UB OutOfBoundsRead.

(** The destination side of std::memcpy.  Used in io_buffer.cpp 110-134, ctr_essence.ipp 149, 210. *)
Definition blit (m : list N) (off : Z) (bytes : list N) : outcome (list N) :=
  if (0 <=? off) && (off + size_of bytes <=? size_of m)
  then Ok (firstn (Z.to_nat off) m ++ bytes ++ skipn (Z.to_nat (off + size_of bytes)) m)
  else UB OutOfBoundsWrite.

(** std::memcpy: the two together; used in io_buffer.cpp 110-134, ctr_essence.ipp 149, 210 *)
Definition memcpy (dst : list N) (doff : Z) (src : list N) (soff n : Z) : outcome (list N) :=
  bind (slice src soff n) (fun bytes => blit dst doff bytes).

(* ------------------------------------------------------------------ buffer *)

(** class io_buffer.  The vector's capacity is taken to be the size it was resized
    to (io_buffer.cpp 20-21, 26-31). *)
Record buffer : Type := Buffer {
  mem : list N;
  filled : Z;         (* m_size *)
  bpos : Z;           (* m_position *)
  read_dirty : bool;
  write_dirty : bool }.

(** io_buffer.cpp 12-22 *)
Definition new_buffer (capacity : nat) : buffer := Buffer (repeat 0%N capacity) 0 0 true false.

(** io_buffer.cpp 26-31 *)
Definition capacity (b : buffer) : Z := size_of (mem b).

(** io_buffer.cpp 79-87 *)
Definition set_read_dirty (b : buffer) (f : bool) : buffer :=
  Buffer (mem b) (filled b) 0 f (write_dirty b).

(** io_buffer.cpp 96-106 *)
Definition set_write_dirty (b : buffer) (f : bool) : buffer :=
  Buffer (mem b) (filled b) (if f then bpos b else 0) (read_dirty b) f.

(** io_buffer.cpp 110-123: read into a block at an offset *)
Definition buffer_read (b : buffer) (dst : list N) (off n : Z) : outcome (buffer * list N * Z) :=
  let boundary := bpos b + n in
  let n := if filled b <? boundary then as_size (n - (boundary - filled b)) else n in
  bind (memcpy dst off (mem b) (bpos b) n) (fun dst =>
  Ok (Buffer (mem b) (filled b) (bpos b + n) (read_dirty b) (write_dirty b), dst, n)).

(** io_buffer.cpp 125-134 *)
Definition buffer_write (b : buffer) (data : list N) : outcome buffer :=
  bind (blit (mem b) (bpos b) data) (fun m =>
  Ok (set_write_dirty (Buffer m (filled b) (bpos b + size_of data) (read_dirty b) (write_dirty b)) true)).

(* --------------------------------------------------------- raw operations *)

(** include/cmp/io/general.hpp, enum class read_request *)
Inductive read_request : Type := LeanRetrieval | FillBuffer.

(** The virtual functions read_raw and write_raw of a resource with state S.
    raw_read s dst off n rr reads up to n bytes to offset off of the block dst and
    returns the new state, the block and the reported number of bytes.  input_resource.hpp and
    output_resource.hpp. *)
Record raw (S : Type) : Type := Raw {
  raw_read : S -> list N -> Z -> Z -> read_request -> outcome (S * list N * Z);
  raw_write : S -> list N -> outcome (S * Z) }.
Arguments raw_read {S} _.
Arguments raw_write {S} _.

(** A transfer resource: what is behind it, and the buffer.  transfer_resource.hpp 127. *)
Record resource (S : Type) : Type := Resource { inner : S; buf : buffer }.
Arguments Resource {S} _ _.
Arguments inner {S} _.
Arguments buf {S} _.

(** input_resource.cpp 48-61 *)
Definition fill {S : Type} (ops : raw S) (r : resource S) : outcome (resource S * Z) :=
  bind (raw_read ops (inner r) (mem (buf r)) 0 (capacity (buf r)) FillBuffer) (fun '(s, m, n) =>
  Ok (Resource s (Buffer m n 0 false (write_dirty (buf r))), n)).

(** input_resource.cpp 65-166 *)
Definition read_buffered {S : Type} (ops : raw S) (r : resource S) (dst : list N) (n : Z)
  : outcome (resource S * list N * Z) :=
  bind (if read_dirty (buf r) then bind (fill ops r) (fun '(r, _) => Ok r) else Ok r) (fun r =>
  if filled (buf r) <? bpos (buf r) + n then
    let difference := as_size (filled (buf r) - bpos (buf r)) in
    bind (if 0 <? difference then
            bind (buffer_read (buf r) dst 0 difference) (fun '(b, dst, k) =>
            Ok (Resource (inner r) b, dst, k, as_size (n - k)))
          else Ok (r, dst, 0, n)) (fun '(r, dst, bytes_read, n) =>
    if capacity (buf r) <? n then
      bind (raw_read ops (inner r) dst bytes_read n LeanRetrieval) (fun '(s, dst, k) =>
      Ok (Resource s (buf r), dst, bytes_read + k))
    else
      bind (fill ops r) (fun '(r, bytes_filled) =>
      let last := if bytes_filled <? n then bytes_filled else n in
      bind (buffer_read (buf r) dst bytes_read last) (fun '(b, dst, k) =>
      Ok (Resource (inner r) b, dst, bytes_read + k))))
  else
    bind (buffer_read (buf r) dst 0 n) (fun '(b, dst, k) =>
    Ok (Resource (inner r) b, dst, k))).

(** input_resource.cpp 22-35, without a tied resource (read_tied below is with): reads to the block dst and
    returns the block and the number of bytes. *)
Definition read {S : Type} (ops : raw S) (r : resource S) (dst : list N) (n : Z)
  : outcome (resource S * list N * Z) :=
  if 0 <? capacity (buf r) then read_buffered ops r dst n
  else bind (raw_read ops (inner r) dst 0 n LeanRetrieval) (fun '(s, dst, k) =>
       Ok (Resource s (buf r), dst, k)).

(** output_resource.cpp 33-40: what write_raw returns is ignored *)
Definition flush {S : Type} (ops : raw S) (r : resource S) : outcome (resource S) :=
  if write_dirty (buf r) then
    bind (slice (mem (buf r)) 0 (bpos (buf r))) (fun data =>
    bind (raw_write ops (inner r) data) (fun '(s, _) =>
    Ok (Resource s (set_write_dirty (buf r) false))))
  else Ok r.

(** output_resource.cpp 44-73 *)
Definition write_buffered {S : Type} (ops : raw S) (r : resource S) (data : list N)
  : outcome (resource S * Z) :=
  let n := size_of data in
  bind (if capacity (buf r) <? bpos (buf r) + n then flush ops r else Ok r) (fun r' =>
  if (capacity (buf r) <? bpos (buf r) + n) && (capacity (buf r) <? n) then
    bind (raw_write ops (inner r') data) (fun '(s, k) => Ok (Resource s (buf r'), k))
  else
    bind (buffer_write (buf r') data) (fun b => Ok (Resource (inner r') b, n))).

(** output_resource.cpp 21-31 *)
Definition write {S : Type} (ops : raw S) (r : resource S) (data : list N)
  : outcome (resource S * Z) :=
  if 0 <? capacity (buf r) then write_buffered ops r data
  else bind (raw_write ops (inner r) data) (fun '(s, k) => Ok (Resource s (buf r), k)).

(* -------------------------------------------------------------- containers *)

(** impl::ctr_essence<Container>: the content's bytes, sizeof the element type,
    m_position (an int64_t) and m_last_fill_amount.  ctr_essence.hpp 34-37. *)
Record container : Type := Container {
  content : list N;
  elem : Z;
  position : Z;
  last_fill : Z }.

(** include/cmp/io/general.hpp, enum class position_reference *)
Inductive position_reference : Type := FromBegin | FromCurrent | FromEnd.

(** ctr_essence.ipp 81-106: the arithmetic is size_t and is then converted to
    int64_t *)
Definition set_position_raw (c : container) (new : Z) (pr : position_reference) : container :=
  let p :=
    match pr with
    | FromBegin => new * elem c
    | FromCurrent => position c + new * elem c
    | FromEnd => (size_of (content c) / elem c - new) * elem c
    end in
  Container (content c) (elem c) (convert I64 p) 0.

(** seekable_transfer_resource.ipp 24-46 *)
Definition go_back (c : container) (n : Z) : container := set_position_raw c (- n) FromCurrent.
Definition go_forward (c : container) (n : Z) : container := set_position_raw c n FromCurrent.

Definition set_position (c : container) (p : Z) : container :=
  Container (content c) (elem c) p (last_fill c).

(** ctr_essence.ipp 108-171 *)
Definition container_read (c : container) (dst : list N) (off n : Z) (rr : read_request)
  : outcome (container * list N * Z) :=
  let c :=
    match rr with
    | FillBuffer => if 0 <? last_fill c then go_forward c (last_fill c) else c
    | LeanRetrieval => c
    end in
  let content_size := size_of (content c) in
  let n := if content_size <? as_size (position c + n) then as_size (content_size - position c) else n in
  bind (memcpy dst off (content c) (position c) n) (fun dst =>
  let c := set_position c (position c + n) in
  let c :=
    match rr with
    | FillBuffer => let c := go_back c n in Container (content c) (elem c) (position c) n
    | LeanRetrieval => c
    end in
  Ok (c, dst, n)).

(** ctr_essence.ipp 173-223: resize value-initialises new elements *)
Definition container_write (c : container) (data : list N) : outcome (container * Z) :=
  let n := size_of data in
  let content_size := size_of (content c) in
  let grown :=
    if content_size <? as_size (position c + n)
    then content c ++ repeat 0%N (Z.to_nat (n / elem c * elem c))
    else content c in
  bind (blit grown (position c) data) (fun m =>
  Ok (Container m (elem c) (position c + n) (last_fill c), n)).

Definition container_ops : raw container := Raw container container_read container_write.

(** The container resources' constructors: transparent_container_*_resource.ipp,
    opaque_container_*_resource.ipp, ctr_essence.ipp 14-30 *)
Definition new_resource (bytes : list N) (sizeof : Z) (cap : nat) : resource container :=
  Resource (Container bytes sizeof 0 0) (new_buffer cap).

(** ctr_essence.ipp 69-79, 54-67 (the comparison is unsigned) *)
Definition get_position (r : resource container) : Z := position (inner r) + bpos (buf r).
Definition is_at_end (r : resource container) : bool :=
  as_size (get_position r) =? size_of (content (inner r)).

(** seekable_input_resource.ipp 26-38 *)
Definition seek_input (r : resource container) (new : Z) (pr : position_reference)
  : resource container :=
  Resource (set_position_raw (inner r) new pr) (set_read_dirty (buf r) true).

(** seekable_output_resource.ipp 26-38 *)
Definition seek_output (r : resource container) (new : Z) (pr : position_reference)
  : outcome (resource container) :=
  noexcept (bind (flush container_ops r) (fun r =>
  Ok (Resource (set_position_raw (inner r) new pr) (buf r)))).

(** seekable_io_resource.ipp 26-39 *)
Definition seek_io (r : resource container) (new : Z) (pr : position_reference)
  : outcome (resource container) :=
  noexcept (bind (flush container_ops r) (fun r =>
  Ok (Resource (set_position_raw (inner r) new pr) (set_read_dirty (buf r) true)))).


(** input_resource.cpp 22-35 with a tied output resource *)
Definition read_tied {S T : Type} (ops : raw S) (out_ops : raw T) (r : resource S) (out : resource T)
    (dst : list N) (n : Z) : outcome (resource S * resource T * list N * Z) :=
  bind (flush out_ops out) (fun out =>
  bind (read ops r dst n) (fun '(r, dst, k) => Ok (r, out, dst, k))).
