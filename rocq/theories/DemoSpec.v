(** What the example program shows.  Independent of the model. *)
From Coq Require Import NArith List Ascii String.
From Verif Require Import UnicodeSpec StreamSpec.
Import ListNotations.
Open Scope N_scope.

(** The bytes between the quotation marks, as they are in this file (UTF-8). *)
Definition bytes_of (s : string) : list N := map N_of_ascii (list_ascii_of_string s).

Definition first : list N := bytes_of "How easy does CCL make it to do Unicode in C++?
".

Definition question_to_user : list N := bytes_of "I dunno, try it ¯\_(ツ)_/¯
Huh, let me see. Say something in Unicode: ".

(** The reply to the word w. *)
Definition reply_to_user (o : byte_order) (w : list N) : list N :=
  bytes_of "You said: " ++ text_bytes UTF8 o w ++ bytes_of "
Cool.
".
