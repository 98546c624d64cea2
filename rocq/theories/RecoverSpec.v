(** Damaged text: what a C142 reader may expect of it.  Independent of the model. *)
From Coq Require Import NArith List.
From Verif Require Import Base UnicodeSpec StreamSpec.
Import ListNotations.
Open Scope N_scope.

(** What one attempt to read a character gives: the character or an exception. *)
Inductive event : Type := Got (c : N) | Failed (x : exn).

(** A text with damaged places, piece by piece.
    [Whole c]: the encoding of the character c.
    [Stray u]: a code unit that starts no character.
    [Torn c n d]: only the first n units of the encoding of c, followed by the
    encoding of the character d. *)
Inductive piece : Type := Whole (c : N) | Stray (u : N) | Torn (c : N) (n : nat) (d : N).

(** Code units no character starts with: in UTF-8 the continuation bytes and the bytes
    from F8 on, in UTF-16 the trailing surrogates, in UTF-32 none. *)
Definition starts_nothing (e : encoding) (u : N) : Prop :=
  match e with
  | UTF8 => 0x80 <= u <= 0xBF \/ 0xF8 <= u <= 0xFF
  | UTF16 => 0xDC00 <= u <= 0xDFFF
  | UTF32 => False
  end.

(** The characters are other than the carriage return, which operator >> treats
    together with what follows. *)
Definition plain (c : N) : Prop := scalar c /\ c <> 13.

Definition proper_piece (e : encoding) (p : piece) : Prop :=
  match p with
  | Whole c => plain c
  | Stray u => starts_nothing e u
  | Torn c n d => plain c /\ plain d /\ (0 < n < length (encode1 e c))%nat
  end.

Definition piece_units (e : encoding) (p : piece) : list N :=
  match p with
  | Whole c => encode1 e c
  | Stray u => [u]
  | Torn c n d => firstn n (encode1 e c) ++ encode1 e d
  end.

(** The bytes of a damaged text. *)
Definition damaged (e : encoding) (o : byte_order) (ps : list piece) : list N :=
  flat_map (in_order o (unit_width e)) (flat_map (piece_units e) ps).

(** What a reader would like to get: every character that is there in whole, and an
    exception for every other piece. *)
Definition wished (p : piece) : list event :=
  match p with
  | Whole c => [Got c]
  | Stray _ => [Failed InvalidUnicodeEncoding]
  | Torn _ _ d => [Failed InvalidUnicodeEncoding; Got d]
  end.

(** What the library gives: the character after a torn one is lost, and there is one
    exception for each of its units. *)
Definition given (e : encoding) (p : piece) : list event :=
  match p with
  | Whole c => [Got c]
  | Stray _ => [Failed InvalidUnicodeEncoding]
  | Torn _ _ d => repeat (Failed InvalidUnicodeEncoding) (length (encode1 e d))
  end.

(** The characters that are there in whole, apart from those after a torn one. *)
Definition saved (ps : list piece) : list N :=
  flat_map (fun p => match p with Whole c => [c] | _ => [] end) ps.

Definition got_of (l : list event) : list N :=
  flat_map (fun x => match x with Got c => [c] | Failed _ => [] end) l.
