(** Values passed on through a container or a file to a reader that does not wait (C167, C168). *)
From Coq Require Import NArith ZArith List.
From Verif Require Import StreamSpec.
Import ListNotations.
Open Scope N_scope.

(** A value is put into the container or file, what was put is published (flushed), or the reader
    tries to get a value. *)
Inductive act : Type := Puts (v : N) | Publishes | TriesValue.

(** What a try gives: a value, or the exception for a read past the end. *)
Inductive reply : Type := Value (v : N) | TooEarly.

(** [passes sure unread acts replies rest]: the values unread were put and have not been
    read, at least the first sure of them are to be had.  Then a try gets the next value.
    Otherwise it gets the next value or is too early, and then nothing is lost. *)
Inductive passes : nat -> list N -> list act -> list reply -> list N -> Prop :=
| PassesEnd sure unread : passes sure unread [] [] unread
| PassesPut sure unread v acts replies rest : passes sure (unread ++ [v]) acts replies rest ->
    passes sure unread (Puts v :: acts) replies rest
| PassesPublish sure unread acts replies rest : passes (length unread) unread acts replies rest ->
    passes sure unread (Publishes :: acts) replies rest
| PassesGets sure v unread acts replies rest : passes (sure - 1) unread acts replies rest ->
    passes sure (v :: unread) (TriesValue :: acts) (Value v :: replies) rest
| PassesFails unread acts replies rest : passes 0 unread acts replies rest ->
    passes 0 unread (TriesValue :: acts) (TooEarly :: replies) rest.

(** The values that are put. *)
Definition all_values (acts : list act) : list N := flat_map (fun a => match a with Puts v => [v] | _ => [] end) acts.

(** The i-th value has a type of [size i] bytes. *)
Definition values_fit (size : nat -> nat) (l : list N) : Prop :=
  forall i v, nth_error l i = Some v -> v < 256 ^ N.of_nat (size i).

(** The bytes the first n values take. *)
Fixpoint bytes_of_values (size : nat -> nat) (n : nat) : Z :=
  match n with O => 0%Z | S n => (bytes_of_values size n + Z.of_nat (size n))%Z end.

(** The bytes of values one after the other, the first of them being the i-th, in the given byte order. *)
Fixpoint value_bytes (o : byte_order) (size : nat -> nat) (i : nat) (l : list N) : list N :=
  match l with [] => [] | v :: l => in_order o (size i) v ++ value_bytes o size (S i) l end.

(** These bytes are whole values, the first ones of l. *)
Definition whole_values (o : byte_order) (size : nat -> nat) (l : list N) (bytes : list N) : Prop :=
  exists k, bytes = value_bytes o size 0 (firstn k l).
