(** Independent specification of integer numerals.  Imports nothing of the model. *)
From Coq Require Import NArith ZArith List Bool.
Import ListNotations.
Open Scope N_scope.

(** The character of a digit: '0'..'9', then 'A'..'Z'. *)
Definition digit_char (d : N) : N := if d <? 10 then 48 + d else 55 + d.

(** The value of a digit character; both letter cases are digits. *)
Definition digit_value (c : N) : option N :=
  if (48 <=? c) && (c <=? 57) then Some (c - 48)
  else if (65 <=? c) && (c <=? 90) then Some (c - 55)
  else if (97 <=? c) && (c <=? 122) then Some (c - 87)
  else None.

(** [c] is a digit of radix [r] with value [d]. *)
Definition is_digit (r c d : N) : Prop := digit_value c = Some d /\ d < r.

(** [cs] are the digit characters of [ds] in radix [r]. *)
Definition digits_text (r : N) (cs ds : list N) : Prop := Forall2 (is_digit r) cs ds.

(** Positional value, most significant digit first. *)
Definition value (r : N) (ds : list N) : N := fold_left (fun a d => a * r + d) ds 0.

(** A digit list without superfluous leading zeros. *)
Definition canonical (r : N) (ds : list N) : Prop :=
  ds <> [] /\ Forall (fun d => d < r) ds /\ (hd_error ds = Some 0 -> ds = [0]).

(** The separator that follows a digit with [n] digits to its right: one between
    groups of three counted from the right, none after the last digit. *)
Definition separator_after (sep : option N) (n : nat) : list N :=
  match sep with
  | Some c => if Nat.eqb (n mod 3) 0 && negb (Nat.eqb n 0) then [c] else []
  | None => []
  end.

(** Digit characters [cs], to be followed by [n] more digits, in groups. *)
Fixpoint grouped_before (sep : option N) (cs : list N) (n : nat) : list N :=
  match cs with
  | [] => []
  | c :: cs' => c :: separator_after sep (length cs' + n) ++ grouped_before sep cs' n
  end.

(** A whole numeral. *)
Definition grouped (sep : option N) (cs : list N) : list N := grouped_before sep cs 0.

(** The sign of a number: '-' if negative, '+' if positive and wanted. *)
Definition sign_text (plus : bool) (x : Z) : list N :=
  if (x <? 0)%Z then [45] else if (0 <? x)%Z && plus then [43] else [].

(** [text] is the canonical numeral of [x]. *)
Definition numeral (r : N) (plus : bool) (sep : option N) (x : Z) (text : list N) : Prop :=
  exists ds, canonical r ds /\ value r ds = Z.abs_N x /\
             text = sign_text plus x ++ grouped sep (map digit_char ds).

(** The optional sign in front of a numeral: '-' always allowed, '+' only if
    wanted.  The flag says whether the number is negated. *)
Inductive sign_prefix (plus : bool) : bool -> list N -> Prop :=
| NoSign : sign_prefix plus false []
| Minus : sign_prefix plus true [45]
| Plus : plus = true -> sign_prefix plus false [43].

Definition signed_value (negative : bool) (n : N) : Z :=
  if negative then (- Z.of_N n)%Z else Z.of_N n.

(** What an arbitrary text contains: the values of its digits of radix [r], in
    order, and its sign characters, in order. *)
Definition digit_in (r c : N) : option N :=
  match digit_value c with
  | Some d => if d <? r then Some d else None
  | None => None
  end.

Definition digits_in (r : N) (text : list N) : list N :=
  flat_map (fun c => match digit_in r c with Some d => [d] | None => [] end) text.

Definition sign_char (c : N) : Prop := c = 43 \/ c = 45.

Definition signs_in (text : list N) : list N :=
  filter (fun c => (c =? 43) || (c =? 45)) text.
