(** Streams on files: how the streams of StreamModel.v use the files of
    FileModel.v.  /repo/api/src/cmp/io/input_stream.ipp 66-94, output_stream.ipp
    25-31, 77-121 (calls of m_resource), file.cpp 53-81, output_resource.cpp 33-40,
    text_io_stream.ipp. *)
From Coq Require Import NArith ZArith List Bool.
From Verif Require Import Base Integers UnicodeModel ResourceModel FileModel StreamModel.
Import ListNotations.
Open Scope Z_scope.

(** An exception thrown by file::read or file::write leaves the stream's operation;
    the state of the file is not returned then (simplification).  file.cpp 53-81. *)
Definition returned {A : Type} (x : outcome (file * reply A)) : outcome (file * A) :=
  bind x (fun '(f, r) => match r with Returned a => Ok (f, a) | Threw e => Throw e end).

(** m_resource.read and m_resource.is_at_end of an input stream: input_stream.ipp 70-94,
    file.cpp 44-66 *)
Definition file_source (pl : platform) : source file :=
  Source file
    (fun f dst n => bind (returned (file_read pl f dst n)) (fun '(f, (dst, k)) => Ok (f, dst, k)))
    (file_is_at_end pl).

(** m_resource.write and m_resource.flush of an output stream: output_stream.ipp 89-121,
    file.cpp 68-81, output_resource.cpp 33-40 *)
Definition file_sink (pl : platform) : sink file :=
  Sink file (fun f data => returned (file_write pl f data)) (file_flush pl).

(** text_io_stream.hpp, text_io_stream.ipp 12-25: the input stream and the output stream
    refer to the same resource; each has an encoding form and a byte order of its own. *)
Record text_io (R : Type) : Type := TextIO {
  io_res : R; io_in_order : endian; io_in_form : encoding_form;
  io_out_order : endian; io_out_form : encoding_form }.
Arguments TextIO {R} _ _ _ _ _.
Arguments io_res {R} _.
Arguments io_in_order {R} _.
Arguments io_in_form {R} _.
Arguments io_out_order {R} _.
Arguments io_out_form {R} _.

(** text_io_stream.ipp 12-25 *)
Definition new_text_io {R : Type} (r : R) (form : encoding_form) (order : endian) : text_io R :=
  TextIO r order form order form.

(** A member function inherited from text_input_stream, and one inherited from
    text_output_stream.  text_io_stream.hpp: the base classes of text_io_stream in /repo. *)
Definition as_input {R A : Type} (st : text_io R) (f : text_input R -> outcome (text_input R * A))
  : outcome (text_io R * A) :=
  bind (f (TextInput (io_res st) (io_in_order st) (io_in_form st))) (fun '(i, a) =>
  Ok (TextIO (in_res i) (in_order_ i) (in_form i) (io_out_order st) (io_out_form st), a)).
(** The same for the output stream: text_io_stream.hpp of /repo *)
Definition as_output {R : Type} (st : text_io R) (f : text_output R -> outcome (text_output R))
  : outcome (text_io R) :=
  bind (f (TextOutput (io_res st) (io_out_order st) (io_out_form st))) (fun o =>
  Ok (TextIO (out_res o) (io_in_order st) (io_in_form st) (out_order o) (out_form o))).
