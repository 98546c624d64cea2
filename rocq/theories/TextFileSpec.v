(** What a user expects when a text is written and read piece by piece.
    Independent of the model. *)
From Coq Require Import NArith ZArith List Bool.
From Verif Require Import Integers UnicodeSpec NumeralSpec.
Import ListNotations.
Open Scope N_scope.

(** The text with every CR LF replaced by LF. *)
Fixpoint lf_text (l : list N) : list N :=
  match l with
  | [] => []
  | c :: r =>
      match r with
      | d :: _ => if (c =? 13) && (d =? 10) then lf_text r else c :: lf_text r
      | [] => [c]
      end
  end.

(** What can be asked for: the next character, the rest of the line, the next word,
    everything that is left, the next word as a number or as a truth value, or
    whether anything is left. *)
Inductive request : Type :=
| Character
| Line
| Word
| Rest
| Integer (t : int_type)
| Boolean
| AtEnd.

Inductive piece : Type :=
| ACharacter (c : N)
| AText (l : list N)
| AnInteger (x : Z)
| ABoolean (b : bool).

(** The first word of a text, and what is left behind the one white space character
    that ends it. *)
Inductive next_word : list N -> list N -> list N -> Prop :=
| WordThenSpace s w c r : Forall white_space s -> w <> [] -> Forall (fun c => ~ white_space c) w ->
    white_space c -> next_word (s ++ w ++ c :: r) w r
| LastWord s w : Forall white_space s -> w <> [] -> Forall (fun c => ~ white_space c) w ->
    next_word (s ++ w) w [].

(** [obtains q l a r]: asked for q in front of the text l, the answer is a, and r is
    left. *)
Inductive obtains : request -> list N -> piece -> list N -> Prop :=
| ObtainsCharacter c r : obtains Character (c :: r) (ACharacter c) r
| ObtainsLine a r : ~ In 10 a -> obtains Line (a ++ 10 :: r) (AText a) r
| ObtainsLastLine a : ~ In 10 a -> obtains Line a (AText a) []
| ObtainsWord l w r : next_word l w r -> obtains Word l (AText w) r
| ObtainsNoWord l : Forall white_space l -> obtains Word l (AText []) []
| ObtainsRest l : obtains Rest l (AText l) []
| ObtainsInteger t x l w r : next_word l w r -> numeral 10 false None x w -> in_range t x ->
    obtains (Integer t) l (AnInteger x) r
| ObtainsBoolean (b : bool) l r : next_word l [if b then 49 else 48] r -> obtains Boolean l (ABoolean b) r
| ObtainsAtEnd l : obtains AtEnd l (ABoolean (match l with [] => true | _ => false end)) l.

(** One request after the other. *)
Inductive obtains_all : list request -> list N -> list piece -> list N -> Prop :=
| ObtainsNothing l : obtains_all [] l [] l
| ObtainsNext q qs l a l' answers r : obtains q l a l' -> obtains_all qs l' answers r ->
    obtains_all (q :: qs) l (a :: answers) r.

(** What can be written: a character, a string, an integer, a truth value, a byte
    order mark, or nothing (a flush). *)
Inductive entry : Type :=
| EnterCharacter (c : N)
| EnterText (l : list N)
| EnterInteger (t : int_type) (x : Z)
| EnterBoolean (b : bool)
| EnterMark
| EnterNothing.

(** The text of an entry. *)
Inductive entry_text : entry -> list N -> Prop :=
| TextOfCharacter c : entry_text (EnterCharacter c) [c]
| TextOfText l : entry_text (EnterText l) l
| TextOfInteger t x s : numeral 10 false None x s -> entry_text (EnterInteger t x) s
| TextOfBoolean (b : bool) : entry_text (EnterBoolean b) [if b then 49 else 48]
| TextOfMark : entry_text EnterMark [0xFEFF]
| TextOfNothing : entry_text EnterNothing [].

(** The text of all of them. *)
Inductive entries_text : list entry -> list N -> Prop :=
| NoEntries : entries_text [] []
| AnotherEntry p s ps l : entry_text p s -> entries_text ps l -> entries_text (p :: ps) (s ++ l).
