(** Independent specification of fractional numerals.  Imports nothing of the
    model. *)
From Coq Require Import NArith ZArith List Bool.
From Verif Require Import NumeralSpec.
Import ListNotations.
Open Scope N_scope.

(** The text in front of the first [c], and after it. *)
Fixpoint before (c : N) (text : list N) : list N :=
  match text with
  | [] => []
  | x :: text' => if x =? c then [] else x :: before c text'
  end.

Fixpoint after (c : N) (text : list N) : list N :=
  match text with
  | [] => []
  | x :: text' => if x =? c then text' else after c text'
  end.

(** The digits a text has after its radix character [p]. *)
Definition places_in (r p : N) (text : list N) : nat := length (digits_in r (after p text)).

(** Reading a text in radix [r] with radix character [p]: it denotes the number
    numerator / r^places. *)
Definition numerator (r p : N) (text : list N) : Z :=
  let digits := digits_in r (before p text) ++ digits_in r (after p text) in
  match text with
  | 45 :: _ => (- Z.of_N (value r digits))%Z
  | _ => Z.of_N (value r digits)
  end.

(** The text denotes exactly a / b. *)
Definition denotes (r p : N) (text : list N) (a b : Z) : Prop :=
  (numerator r p text * b = a * Z.of_N r ^ Z.of_nat (places_in r p text))%Z.

(** The number it denotes differs from a / b by at most 2^-m. *)
Definition denotes_near (r p : N) (text : list N) (a b m : Z) : Prop :=
  (Z.abs (numerator r p text * b - a * Z.of_N r ^ Z.of_nat (places_in r p text)) * 2 ^ m
   <= b * Z.of_N r ^ Z.of_nat (places_in r p text))%Z.

(** Fraction digits as text: a separator after every third digit, [n] digits
    having gone before. *)
Fixpoint fraction_text (sep : option N) (n : nat) (ds : list N) : list N :=
  match ds with
  | [] => []
  | d :: ds' =>
    digit_char d ::
    match sep with
    | Some c => if Nat.eqb (S n mod 3) 0 then [c] else []
    | None => []
    end ++ fraction_text sep (S n) ds'
  end.
