(** Programs that read the same bytes from different places, as in the C143 statements. *)
From Coq Require Import NArith ZArith List.
From Verif Require Import Base UnicodeSpec UnicodeModel ResourceSpec ResourceModel StreamSpec StreamModel StreamText
  FileSpec FileModel TextFileSpec TextFileModel TextFileText RecoverSpec RecoverModel.
Import ListNotations.

(** Requests to a text input stream over a container, after reading a byte order mark, if
    marked. *)
Definition read_memory (cap : nat) (marked : bool) (native : endian) (e : encoding) (o : byte_order) (fuel : nat)
    (bytes : list N) (qs : list (request * ukind)) : outcome (list TextFileSpec.piece) :=
  let st := open_input bytes cap e o in
  bind (if marked then bind (read_bom native container_source st) (fun '(st, _) => Ok st) else Ok st) (fun st =>
  bind (answer_requests native container_source fuel st qs) (fun '(_, l) => Ok l)).

(** What a program that reads a file obtained. *)
Definition obtained {W A : Type} (x : outcome (W * A)) : outcome A := bind x (fun '(_, l) => Ok l).

(** The program of C142 with a file: what it noted. *)
Definition read_on_file (pl : platform) (w : world) (q : N) (m : access_mode) (cap : nat) (native : endian)
    (e : encoding) (o : byte_order) (fuel : nat) : outcome (list event) :=
  bind (new_file pl w q m Fail cap) (fun f =>
  read_on native (file_source pl) fuel (TextInput f (order_of o) (form_of e))).
