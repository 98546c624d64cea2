(** Programs that save and load floating-point numbers, as in the theorem statements. *)
From Coq Require Import NArith ZArith List Bool.
From Verif Require Import Base Integers UnicodeSpec UnicodeModel NumeralSpec NumberModel FloatModel ResourceSpec ResourceModel
  StreamSpec StreamModel StreamText FileSpec FileModel FileText TextFileSpec TextFileModel FloatStreamModel.
Import ListNotations.
Open Scope Z_scope.

(** for (x : numbers) stream << x << U'\n'; *)
Fixpoint put_numbers {R : Type} (native : endian) (cs : bool) (ops : sink R) (st : text_output R)
    (l : list (float_type * fval)) : outcome (text_output R) :=
  match l with
  | [] => Ok st
  | (t, x) :: l =>
      bind (write_float native ops cs t st x) (fun st =>
      bind (write_code_point native ops st 10%N) (fun st => put_numbers native cs ops st l))
  end.

(** stream >> x, once for every type of the list. *)
Fixpoint get_numbers {R : Type} (native : endian) (ops : source R) (fuel : nat) (st : text_input R)
    (ts : list float_type) : outcome (text_input R * list fval) :=
  match ts with
  | [] => Ok (st, [])
  | t :: ts =>
      bind (read_float native ops fuel t st) (fun '(st, x) =>
      bind (get_numbers native ops fuel st ts) (fun '(st, l) => Ok (st, x :: l)))
  end.

(** A file is opened, numbers are written through a text output stream, and stream and
    file are destroyed. *)
Definition save_numbers (pl : platform) (w : world) (q : N) (m : access_mode) (how : if_not_there) (cap : nat)
    (native : endian) (cs : bool) (e : encoding) (o : byte_order) (l : list (float_type * fval)) : outcome world :=
  bind (new_file pl w q m how cap) (fun f =>
  bind (put_numbers native cs (file_sink pl) (TextOutput f (order_of o) (form_of e)) l) (fun st =>
  bind (noexcept (text_flush (file_sink pl) st)) (fun st => destroy pl (out_res st)))).

(** A file is opened, numbers of the types ts are read through a text input stream, and
    stream and file are destroyed. *)
Definition load_numbers (pl : platform) (w : world) (q : N) (m : access_mode) (cap : nat)
    (native : endian) (e : encoding) (o : byte_order) (fuel : nat) (ts : list float_type)
  : outcome (world * list fval) :=
  bind (new_file pl w q m Fail cap) (fun f =>
  bind (get_numbers native (file_source pl) fuel (TextInput f (order_of o) (form_of e)) ts) (fun '(st, l) =>
  bind (destroy pl (in_res st)) (fun w => Ok (w, l)))).

(** The lines, each ended by a line feed. *)
Definition lines_text (lines : list (list N)) : list N := flat_map (fun s => s ++ [10%N]) lines.

(** The decimal text of a number that is not negative, whose integral part fits a long
    long: digits without needless zeros in front, and perhaps a period and digits. *)
Definition decimal_text (s : list N) : Prop :=
  exists i itext ds, 0 <= i < 2 ^ 63 /\ numeral 10 false None i itext /\ Forall (fun d => (d < 10)%N) ds /\
    (s = itext \/ (ds <> [] /\ s = itext ++ 46%N :: map digit_char ds)).
