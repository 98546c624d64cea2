(** Which Unicode encoding form a string kind holds, and which code points it can
    represent.  Used in theorem statements only. *)
From Coq Require Import NArith List Bool.
From Verif Require Import UnicodeSpec UnicodeModel.
Import ListNotations.
Open Scope N_scope.

(** A std::string is one code point per char; the others are the encoding forms
    of the standard. *)
Definition encoding_of (k : ukind) : encoding :=
  match k with
  | K8 => UTF8
  | K16 | KW2 => UTF16
  | KChar _ | K32 | KW4 => UTF32
  end.

(** Code points a string of the kind can hold: ASCII for signed char, Latin-1
    for unsigned char, every scalar value otherwise. *)
Definition holds (k : ukind) (c : N) : Prop :=
  match k with
  | KChar true => c < 128
  | KChar false => c < 256
  | _ => scalar c
  end.

(** The code units of a text in a string of kind [k]. *)
Definition units (k : ukind) (l : list N) : list N := encode (encoding_of k) l.

(** A code point that needs one UTF-16 unit, if the kind is UTF-16. *)
Definition single_unit (k : ukind) (c : N) : Prop :=
  match k with
  | K16 | KW2 => bmp c
  | _ => True
  end.

(** The range of a code unit of the kind. *)
Definition unit_range (k : ukind) (u : N) : Prop :=
  match k with
  | KChar _ | K8 => u < 0x100
  | K16 | KW2 => u < 0x10000
  | K32 | KW4 => u < 0x100000000
  end.
