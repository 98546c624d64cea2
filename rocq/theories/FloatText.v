(** The floating-point types and values of the model, for statements. *)
From Coq Require Import NArith ZArith.
From Verif Require Import FloatModel.
Open Scope Z_scope.

(** float, double and the usual forms of long double. *)
Definition ieee (t : float_type) : Prop := t = F32 \/ t = F64 \/ t = F80 \/ t = F128.

(** n * 2^-scale is a finite value of the type. *)
Definition has_value (t : float_type) (n : Z) : Prop :=
  exists m e, Z.abs n = m * 2 ^ e /\ 0 <= m < 2 ^ prec t /\ 0 <= e /\ Z.abs n < 2 ^ (emax t + scale t).

(** The integral part (towards minus infinity) fits a long long and is not its
    minimum. *)
Definition integral_part_fits (t : float_type) (n : Z) : Prop :=
  - (2 ^ 63 - 1) * one t <= n < 2 ^ 63 * one t.
