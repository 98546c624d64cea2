(** Used in the statements about strings and memory. *)
From Coq Require Import NArith List Bool Arith.
From Verif Require Import Base UnicodeSpec UnicodeModel UnicodeText MemoryModel.
Import ListNotations.
Open Scope N_scope.

(** The code points that insert_code_point accepts and encodes (C01, C02): those that the
    kind can hold, without those UTF-8 strings refuse. *)
Definition accepted (k : ukind) (c : N) : Prop :=
  holds k c /\ (k = K8 -> ~ (0xD800 <= c mod 0x10000 <= 0xDFFF)).

(** [p] is a beginning of [l], but not all of it. *)
Definition beginning {A : Type} (p l : list A) : Prop := exists rest, l = p ++ rest /\ rest <> [].

(** Texts of kind [ki] need no more units in kind [ko]. *)
Definition no_longer (ki ko : ukind) : Prop :=
  match encoding_of ki, encoding_of ko with
  | UTF8, _ => True
  | UTF16, UTF8 => False
  | UTF16, _ => True
  | UTF32, UTF32 => True
  | UTF32, _ => False
  end.
