(** What is found when arbitrary code units are read as characters, from the front and from the
    back.  Independent of the model. *)
From Coq Require Import NArith List Bool.
From Verif Require Import Base.
Import ListNotations.
Open Scope N_scope.

(** How a string is to be read: one character for each unit; the same with negative units (char
    where it is signed); UTF-8; UTF-16. *)
Inductive form : Type := OneUnit | SignedUnit | Form8 | Form16.

(** What is found: nothing, since there are no units; a character, and the units that are left;
    something that is no character; or units are needed that the string does not have. *)
Inductive found : Type := Nothing | Char (c : N) (others : list N) | NoChar | Beyond.

Definition trail8 (u : N) : bool := (0x80 <=? u) && (u <? 0xC0).
Definition lead16 (u : N) : bool := (0xD800 <=? u) && (u <=? 0xDBFF).
Definition trail16 (u : N) : bool := (0xDC00 <=? u) && (u <=? 0xDFFF).
Definition pair16 (a b : N) : N := (a - 0xD800) * 0x400 + (b - 0xDC00) + 0x10000.
(** A negative char becomes a number just below 2^32. *)
Definition signed_unit (u : N) : N := if u <? 0x80 then u else u + 0xFFFFFF00.

(** The n units after the first one of a UTF-8 sequence. *)
Fixpoint tail8 (n : nat) (v : N) (s : list N) : found :=
  match n, s with
  | O, _ => Char v s
  | S _, [] => Beyond
  | S n, u :: s => if trail8 u then tail8 n (v * 64 + (u - 0x80)) s else NoChar
  end.

(** The number of further units, and the first bits, that the first unit of UTF-8 stands for. *)
Definition lead8 (u : N) : option (nat * N) :=
  if u <? 0x80 then Some (0%nat, u)
  else if u <? 0xC0 then None
  else if u <? 0xE0 then Some (1%nat, u - 0xC0)
  else if u <? 0xF0 then Some (2%nat, u - 0xE0)
  else if u <? 0xF8 then Some (3%nat, u - 0xF0)
  else None.

(** At the front.  After a pair of UTF-16 only one unit is passed over. *)
Definition front (f : form) (s : list N) : found :=
  match s with
  | [] => Nothing
  | u :: s =>
      match f with
      | OneUnit => Char u s
      | SignedUnit => Char (signed_unit u) s
      | Form8 => match lead8 u with Some (n, v) => tail8 n v s | None => NoChar end
      | Form16 =>
          if lead16 u then
            match s with
            | [] => Beyond
            | w :: _ => if trail16 w then Char (pair16 u w) s else NoChar
            end
          else if trail16 u then NoChar
          else Char u s
      end
  end.

(** At the back, with the units in reverse order: the units [tr] have been passed over on the way
    to the first unit of the sequence. *)
Fixpoint back8 (tr : list N) (r : list N) : found :=
  match r with
  | [] => Beyond
  | u :: r =>
      if trail8 u then back8 (u :: tr) r
      else match lead8 u with
           | Some (n, v) => match tail8 n v tr with Char c _ => Char c r | _ => NoChar end
           | None => NoChar
           end
  end.
Definition back (f : form) (r : list N) : found :=
  match r with
  | [] => Nothing
  | u :: r' =>
      match f with
      | OneUnit => Char u r'
      | SignedUnit => Char (signed_unit u) r'
      | Form8 => back8 [] r
      | Form16 =>
          if trail16 u then
            match r' with
            | [] => Beyond
            | w :: r'' => if lead16 w then Char (pair16 w u) r'' else if trail16 w then NoChar else Char w r''
            end
          else if lead16 u then NoChar
          else Char u r'
      end
  end.

(** The answer to the question whether s has all of t, where [at1] and [at2] find the next
    character: a program that meets something that is no character is ended, and one that needs
    units beyond the string is undefined ([undefined] tells how). *)
Inductive answers (undefined : ub_kind) (at1 at2 : list N -> found) : list N -> list N -> outcome bool -> Prop :=
| AllOfIt s t : at2 t = Nothing -> answers undefined at1 at2 s t (Ok true)
| TooShort s t : at2 t <> Nothing -> at1 s = Nothing -> answers undefined at1 at2 s t (Ok false)
| Bad1 s t : at2 t <> Nothing -> at1 s = NoChar -> answers undefined at1 at2 s t Terminate
| Cut1 s t : at2 t <> Nothing -> at1 s = Beyond -> answers undefined at1 at2 s t (UB undefined)
| Bad2 s t c s' : at1 s = Char c s' -> at2 t = NoChar -> answers undefined at1 at2 s t Terminate
| Cut2 s t c s' : at1 s = Char c s' -> at2 t = Beyond -> answers undefined at1 at2 s t (UB undefined)
| Other s t c s' d t' : at1 s = Char c s' -> at2 t = Char d t' -> c <> d -> answers undefined at1 at2 s t (Ok false)
| Same s t c s' t' r : at1 s = Char c s' -> at2 t = Char c t' -> answers undefined at1 at2 s' t' r -> answers undefined at1 at2 s t r.
