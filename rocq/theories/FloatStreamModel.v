(** Model of the shift operators of text streams for floating-point numbers. *)
From Coq Require Import NArith ZArith List Bool.
From Verif Require Import Base Integers UnicodeSpec UnicodeModel NumberModel FloatModel ResourceModel StreamModel.
Import ListNotations.
Open Scope Z_scope.

(** api/src/cmp/io/text_output_stream.ipp 452-481, for a value of the type t; the string
    type follows the encoding form of the stream.  cs: whether plain char is signed, as
    for write_integer. *)
Definition write_float {R : Type} (native : endian) (ops : sink R) (cs : bool) (t : float_type)
    (st : text_output R) (x : fval) : outcome (text_output R) :=
  let k := own_kind (out_form st) in
  bind (format_floating_point k cs t x default_float_format) (fun s => write_string native ops k st s).

(** api/src/cmp/io/text_input_stream.ipp 499-512; the value the target receives is
    returned. *)
Definition read_float {R : Type} (native : endian) (ops : source R) (fuel : nat) (t : float_type)
    (st : text_input R) : outcome (text_input R * fval) :=
  bind (read_word native ops fuel K8 st) (fun '(st, input) =>
  bind (parse_floating_point K8 t input default_float_format) (fun x => Ok (st, x))).
