(** Programs that note places in a text and return to them, as in the C144 statements. *)
From Coq Require Import NArith ZArith List.
From Verif Require Import Base UnicodeSpec UnicodeModel ResourceSpec ResourceModel StreamSpec StreamModel StreamText
  FileSpec FileModel TextFileSpec TextFileModel TextFileText RecoverModel BookSpec.
Import ListNotations.
Open Scope Z_scope.

(** The moves on a text input stream: Take reads one character with operator >> (an
    exception is caught and noted as what was found), Note calls get_position() of the
    resource and Return calls set_position() of the resource with a position noted. *)
Section Moves.
Context {R : Type} (native : endian) (ops : source R) (tell : R -> outcome Z) (go : R -> Z -> outcome R).

Fixpoint run_moves (st : text_input R) (notes : list Z) (ms : list move) : outcome (list (outcome N) * list Z) :=
  match ms with
  | [] => Ok ([], notes)
  | Take :: ms =>
      let '(st, r) := kept_filtered native ops st in
      bind (run_moves st notes ms) (fun '(l, n) => Ok (r :: l, n))
  | Note :: ms => bind (tell (in_res st)) (fun p => run_moves st (notes ++ [p]) ms)
  | Return k :: ms =>
      bind (go (in_res st) (nth k notes 0)) (fun r => run_moves (TextInput r (in_order_ st) (in_form st)) notes ms)
  end.
End Moves.

(** On a container with elements of [sizeof] bytes (ctr_essence.ipp 69-79,
    seekable_input_resource.ipp 26-38). *)
Definition moves_in_memory (sizeof : Z) (cap : nat) (native : endian) (e : encoding) (o : byte_order) (bytes : list N)
    (ms : list move) : outcome (list (outcome N) * list Z) :=
  run_moves native container_source (fun r => Ok (get_position r)) (fun r p => Ok (seek_input r p FromBegin))
    (TextInput (new_resource bytes sizeof cap) (order_of o) (form_of e)) [] ms.

(** On a file (unix_like_file.cpp 47-52, windows_file.cpp 47-61,
    seekable_io_resource.ipp 26-39). *)
Definition moves_in_file (pl : platform) (w : world) (q : N) (m : access_mode) (cap : nat) (native : endian)
    (e : encoding) (o : byte_order) (ms : list move) : outcome (list (outcome N) * list Z) :=
  bind (new_file pl w q m Fail cap) (fun f =>
  run_moves native (file_source pl) (file_position pl) (fun f p => file_seek pl f p FromBegin)
    (TextInput f (order_of o) (form_of e)) [] ms).

(** What is found at a place: what a new stream without a buffer finds in the bytes from
    there on; and what follows is where that stream then is. *)
Definition found_at (native : endian) (e : encoding) (o : byte_order) (bytes : list N) (here : Z) : outcome N * Z :=
  let '(st, r) := kept_filtered native container_source (open_input (drop here bytes) 0 e o) in
  (r, here + get_position (in_res st)).
