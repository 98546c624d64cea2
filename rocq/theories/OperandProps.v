(** C16: the order in which the operands of == are evaluated does not matter. *)
From Coq Require Import NArith ZArith List Bool Lia.
From Verif Require Import Base UnicodeSpec UnicodeModel UnicodeText OperandModel.
Import ListNotations.
Open Scope N_scope.

Lemma starts_order : forall b fuel k1 s k2 t i j,
  noexcept (starts_with_from_right fuel k1 s k2 t i j) = Ok b <-> noexcept (starts_with_from fuel k1 s k2 t i j) = Ok b.
Proof.
  intros b. induction fuel as [|fuel IH]; intros k1 s k2 t i j; cbn [starts_with_from_right starts_with_from]; [reflexivity|].
  destruct (Nat.eqb j (length t)); [reflexivity|]. destruct (Nat.eqb i (length s)); [reflexivity|].
  destruct (post_inc k1 s i) as [[x i']| | | |], (post_inc k2 t j) as [[y j']| | | |]; cbn [bind noexcept]; try reflexivity; try (split; discriminate).
  destruct (x =? y); [apply IH|reflexivity].
Qed.

Lemma ends_order : forall b fuel k1 s k2 t i j,
  noexcept (ends_with_from_right fuel k1 s k2 t i j) = Ok b <-> noexcept (ends_with_from fuel k1 s k2 t i j) = Ok b.
Proof.
  intros b. induction fuel as [|fuel IH]; intros k1 s k2 t i j; cbn [ends_with_from_right ends_with_from]; [reflexivity|].
  destruct (Nat.eqb j 0); [reflexivity|]. destruct (Nat.eqb i 0); [reflexivity|].
  destruct (rpost_inc k1 s i) as [[x i']| | | |], (rpost_inc k2 t j) as [[y j']| | | |]; cbn [bind noexcept]; try reflexivity; try (split; discriminate).
  destruct (x =? y); [apply IH|reflexivity].
Qed.

(** A call that gives an answer gives the same one in either order; one that ends the program or is
    undefined does not give an answer in the other order. *)
Theorem C16_order : forall k1 k2 s t b,
  (starts_with_right k1 s k2 t = Ok b <-> starts_with k1 s k2 t = Ok b) /\
  (ends_with_right k1 s k2 t = Ok b <-> ends_with k1 s k2 t = Ok b).
Proof. intros k1 k2 s t b. split; [apply starts_order|apply ends_order]. Qed.
Print Assumptions C16_order.

(** Only what goes wrong may differ, if both strings are damaged at the same place. *)
Example C16_order_cases :
  starts_with_right K8 (encode UTF8 [0x48; 0x20AC; 0x49]) K16 (encode UTF16 [0x48; 0x20AC]) = Ok true /\
  ends_with_right K8 (encode UTF8 [0x48; 0x1F600]) K16 (encode UTF16 [0x1F600]) = Ok true /\
  starts_with K8 [0xFF] K8 [0xC3] = Terminate /\ starts_with_right K8 [0xFF] K8 [0xC3] = UB OutOfBoundsRead.
Proof. repeat split; reflexivity. Qed.
