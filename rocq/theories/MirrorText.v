(** The programs of PassText.v with data streams in any byte order. *)
From Coq Require Import NArith ZArith List Bool.
From Verif Require Import Base Integers UnicodeModel ResourceSpec ResourceModel StreamSpec StreamModel StreamText SharedModel
  FileModel FileText FollowText RelayText PassSpec PassText.
Import ListNotations.
Open Scope Z_scope.

(** PassText.v, pass_on; both streams were given the byte order o (data_input_stream.ipp 26-74,
    data_output_stream.ipp 26-66), and the values old are in the container in this order.  A
    program that uses the library; no code of /repo. *)
Definition pass_on_in (native o : byte_order) (size : nat -> nat) (wcap rcap : nat) (old : list N) (acts : list act)
  : outcome (shared * list reply) :=
  bind (shared_seek (share (value_bytes o size 0 old) 1 wcap rcap) 0 FromEnd) (fun s =>
  run_pass (order_of native) (order_of o) shared_source shared_sink size s (length old) 0 acts).

(** PassText.v, pass_on_file, likewise.  No code of /repo. *)
Definition pass_on_file_in (pl : platform) (w : world) (q : N) (mw mr : access_mode) (how : if_not_there) (wcap rcap : nat)
    (native o : byte_order) (size : nat -> nat) (old : list N) (acts : list act) : outcome (duo * list reply) :=
  bind (open_both pl w q mw mr how wcap rcap) (fun '(f, g) =>
  run_pass (order_of native) (order_of o) (second_source pl) (first_sink pl) size (Duo (system_of g) f g) (length old) 0 acts).
