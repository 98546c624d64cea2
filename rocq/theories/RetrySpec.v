(** What a program that asks for numbers and truth values expects.  Independent of the
    model. *)
From Coq Require Import NArith ZArith List Bool.
From Verif Require Import Integers UnicodeSpec NumeralSpec StdioSpec.
Import ListNotations.
Open Scope N_scope.

(** What is asked for, and what the program gets: a number, a truth value, or an
    exception that says the answer was wrong. *)
Inductive wanted : Type := WantNumber (t : int_type) | WantTruth.
Inductive reply : Type := Number (x : Z) | Truth (b : bool) | Wrong.

(** The word w is a decimal numeral of x: digits, and a minus sign in front if the type
    has negative numbers. *)
Definition denotes (signed : bool) (w : list N) (x : Z) : Prop :=
  exists neg sg cs ds, w = sg ++ cs /\ sign_prefix false neg sg /\ (neg = true -> signed = true) /\
    digits_text 10 cs ds /\ cs <> [] /\ x = signed_value neg (value 10 ds).

(** The reply to q when w was typed. *)
Definition right_reply (q : wanted) (w : list N) (a : reply) : Prop :=
  match q, a with
  | WantNumber t, Number x => denotes (is_signed t) w x /\ in_range t x
  | WantNumber t, Wrong => forall x, ~ (denotes (is_signed t) w x /\ in_range t x)
  | WantTruth, Truth b => w = [if b then 49 else 48]
  | WantTruth, Wrong => w <> [49] /\ w <> [48]
  | _, _ => False
  end.

(** [words l ws r]: the words ws were typed in l, r is left after them. *)
Inductive words : list N -> list (list N) -> list N -> Prop :=
| NoWords l : words l [] l
| OneMore l w l' ws r : takes Word l w l' -> words l' ws r -> words l (w :: ws) r.

(** Words that show none of the defects of C20 to C22: no character above 255, a sign
    at most in front, and so few digits that any number of so many fits. *)
Definition modest (q : wanted) (w : list N) : Prop :=
  Forall (fun c => c <= 255) w /\
  match q with
  | WantNumber t => signs_in (tl w) = [] /\ (10 ^ Z.of_nat (length (digits_in 10 w)) <= max_of t + 1)%Z
  | WantTruth => True
  end.
