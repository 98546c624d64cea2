(** A data I/O stream.  /repo/api/include/cmp/io/data_io_stream.hpp,
    /repo/api/src/cmp/io/data_io_stream.ipp.  The operators >> and << are those of
    StreamModel.v, files as their resources those of TextFileModel.v. *)
From Coq Require Import NArith ZArith List Bool.
From Verif Require Import Base Integers UnicodeModel ResourceModel StreamModel.
Import ListNotations.
Open Scope Z_scope.

(** data_io_stream.hpp 19-25: the input stream and the output stream refer to the
    same resource; each has a byte order of its own. *)
Record data_io (R : Type) : Type := DataIO { dio_res : R; dio_in : endian; dio_out : endian }.
Arguments DataIO {R} _ _ _.
Arguments dio_res {R} _.
Arguments dio_in {R} _.
Arguments dio_out {R} _.

(** data_io_stream.ipp 12-24 *)
Definition new_data_io {R : Type} (r : R) (order : endian) : data_io R := DataIO r order order.

(** operator >> on the stream: data_input_stream.ipp 26-73 *)
Definition get_value {R : Type} (native : endian) (ops : source R) (st : data_io R) (w : nat)
  : outcome (data_io R * list N) :=
  bind (data_read native ops (dio_in st) (dio_res st) w) (fun '(r, data) =>
  Ok (DataIO r (dio_in st) (dio_out st), data)).

(** operator << on the stream: data_output_stream.ipp 26-66 *)
Definition put_value {R : Type} (native : endian) (ops : sink R) (st : data_io R) (object : list N)
  : outcome (data_io R) :=
  bind (data_write native ops (dio_out st) (dio_res st) object) (fun r =>
  Ok (DataIO r (dio_in st) (dio_out st))).

(** data_io_stream.ipp 28-36: operator ->, through which a member function of the
    resource is called *)
Definition through {R : Type} (st : data_io R) (f : R -> outcome R) : outcome (data_io R) :=
  bind (f (dio_res st)) (fun r => Ok (DataIO r (dio_in st) (dio_out st))).

(** output_stream.ipp 114-121 *)
Definition flush_io {R : Type} (ops : sink R) (st : data_io R) : outcome (data_io R) :=
  through st (sink_flush ops).
