(** Values passed on through a container or a file to a reader that does not wait. *)
From Coq Require Import NArith ZArith List Bool.
From Verif Require Import Base Integers UnicodeModel ResourceSpec ResourceModel StreamSpec StreamModel StreamText SharedModel
  FileModel FileText FollowText RelayText PassSpec.
Import ListNotations.
Open Scope Z_scope.

(** data_input_stream.ipp 26-74 with the resource as it is after an exception (StreamModel.v,
    data_read).  An exception of the resource itself would leave it as it was
    (simplification); none is thrown here. *)
Definition kept_data_read {R : Type} (native : endian) (ops : source R) (order : endian) (r : R) (w : nat)
  : R * outcome (list N) :=
  match stream_read native ops order r (repeat 0%N w) (Z.of_nat w) with
  | Ok (r, data, k) =>
      if k <? Z.of_nat w then (r, Throw ReadPastEnd)
      else (r, if negb (endian_eqb order native) then invert_endianness data (Z.of_nat w) else Ok data)
  | Throw x => (r, Throw x)
  | UB u => (r, UB u)
  | Terminate => (r, Terminate)
  | Diverge => (r, Diverge)
  end.

(** The program: values are written with << (data_output_stream.ipp 26-66), the output is
    flushed (output_resource.cpp 33-40), a value is read with >> in a try block.  The n-th
    value written and the n-th value read have a type of [size n] bytes.  Exceptions other
    than read_past_end_exception end the program. *)
Fixpoint run_pass {R : Type} (native order : endian) (src : source R) (snk : sink R) (size : nat -> nat) (s : R) (put got : nat) (acts : list act)
  : outcome (R * list reply) :=
  match acts with
  | [] => Ok (s, [])
  | Puts v :: acts =>
      bind (data_write native snk order s (to_memory native (size put) v)) (fun s =>
      run_pass native order src snk size s (S put) got acts)
  | Publishes :: acts => bind (sink_flush snk s) (fun s => run_pass native order src snk size s put got acts)
  | TriesValue :: acts =>
      match kept_data_read native src order s (size got) with
      | (s, Ok data) =>
          bind (run_pass native order src snk size s put (S got) acts) (fun '(s, l) => Ok (s, Value (from_memory native data) :: l))
      | (s, Throw ReadPastEnd) =>
          bind (run_pass native order src snk size s put got acts) (fun '(s, l) => Ok (s, TooEarly :: l))
      | (_, Throw x) => Throw x
      | (_, UB u) => UB u
      | (_, Terminate) => Terminate
      | (_, Diverge) => Diverge
      end
  end.

(** An output resource and an input resource on a container of bytes in which the values
    old are, with buffers of the given capacities, the output resource set to its end, and a
    data stream on each of them, in the byte order of the machine.  A program that uses the library; no code of /repo. *)
Definition pass_on (native : byte_order) (size : nat -> nat) (wcap rcap : nat) (old : list N) (acts : list act)
  : outcome (shared * list reply) :=
  bind (shared_seek (share (value_bytes native size 0 old) 1 wcap rcap) 0 FromEnd) (fun s =>
  run_pass (order_of native) (order_of native) shared_source shared_sink size s (length old) 0 acts).

(** The same with two file objects on the file q, the first one set to its end
    (RelayText.v, file.cpp 53-81).  No code of /repo. *)
Definition pass_on_file (pl : platform) (w : world) (q : N) (mw mr : access_mode) (how : if_not_there) (wcap rcap : nat)
    (native : byte_order) (size : nat -> nat) (old : list N) (acts : list act) : outcome (duo * list reply) :=
  bind (open_both pl w q mw mr how wcap rcap) (fun '(f, g) =>
  run_pass (order_of native) (order_of native) (second_source pl) (first_sink pl) size (Duo (system_of g) f g) (length old) 0 acts).

(** The types have sizes the input resource can read at once (C33). *)
Definition sizes_fit (size : nat -> nat) (rcap : nat) : Prop := forall i, (0 < size i <= 16)%nat /\ roomy rcap (size i).
