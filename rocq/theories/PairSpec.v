(** What the defects of UTF-16 iteration and of the code point test make of a text.  Independent
    of the model. *)
From Coq Require Import NArith List Bool.
From Verif Require Import Base.
Import ListNotations.
Open Scope N_scope.

(** Code points that take two units in UTF-16. *)
Definition paired (c : N) : bool := 0x10000 <=? c.

(** Code points that are taken for surrogates, since only their last 16 bits are looked at. *)
Definition mistaken (c : N) : bool := (0xD800 <=? c mod 0x10000) && (c mod 0x10000 <=? 0xDFFF).

(** The exception with which the conversion of a text fails, if it does: from UTF-16
    ([from16]), to UTF-8 ([to8]). *)
Fixpoint failure (from16 to8 : bool) (l : list N) : option exn :=
  match l with
  | [] => None
  | c :: l =>
      if to8 && mistaken c then Some InvalidCodePoint
      else if from16 && paired c then Some InvalidUnicodeEncoding
      else failure from16 to8 l
  end.

(** Whether the text l starts with the text m, as it is found out: [p1] and [p2] tell whether
    l and m are in UTF-16.  The program is ended when an iterator is used that stands in the
    middle of a pair; and if the rest of l is empty then, the answer is no. *)
Fixpoint compared (p1 p2 : bool) (l m : list N) : outcome bool :=
  match m, l with
  | [], _ => Ok true
  | _ :: _, [] => Ok false
  | y :: m', x :: l' =>
      if negb (x =? y) then Ok false
      else if paired x then
        match p1, p2 with
        | false, false => compared p1 p2 l' m'
        | true, true => Terminate
        | true, false => match m' with [] => Ok true | _ => Terminate end
        | false, true => match l' with [] => Ok false | _ => Terminate end
        end
      else compared p1 p2 l' m'
  end.
