(** Vocabulary for the statements about approximate comparison. *)
From Coq Require Import NArith ZArith.
From Verif Require Import FloatModel.
Open Scope Z_scope.

(** The finite value n of type t is the number n / one t. *)

(** std::pow(10, k) returns exactly 10^k. *)
Definition exact_power (pow10 : N -> fval) (k : N) : Prop :=
  pow10 k = Fin (10 ^ Z.of_N k * one F64).

(** The precision of the products: that of double, or of the type if larger. *)
Definition product_precision (t : float_type) : Z := Z.max 53 (prec t).

(** |value| * 10^k < 2^precision. *)
Definition scaled_small (t : float_type) (n k : Z) : Prop :=
  10 ^ k * Z.abs n < 2 ^ product_precision t * one t.
