(** Byte order marks of inputs that are too short. *)
From Coq Require Import NArith ZArith List Bool Lia ZifyBool ZifyNat ZifyN.
From Verif Require Import Base Integers UnicodeSpec UnicodeModel UnicodeText UnicodeLemmas UnicodeLemmas2
  ResourceSpec ResourceModel ResourceLemmas StreamSpec StreamModel StreamText
  StreamLemmas StreamLemmas2 StreamLemmas3 StreamLemmas4 StreamLemmas5 StreamLemmas6.
Import ListNotations.
Open Scope Z_scope.

(** C43: if the input ends before the first code unit does, read_bom throws read_past_end
    (rather than making up a code point). *)
Theorem C43_short : forall native e o cap bytes,
  Forall (fun b => b < 256)%N bytes -> (length bytes < unit_width e)%nat -> roomy cap (unit_width e) ->
  read_bom (order_of native) container_source (open_input bytes cap e o) = Throw ReadPastEnd.
Proof.
  intros native e o cap bytes F L R.
  assert (S : len bytes < 2 ^ 62).
  { unfold len. change (2 ^ 62) with 4611686018427387904. destruct e; cbn in L; lia. }
  exact (bom_short native container_source _ _ (container_good_source (Z.of_nat cap)) e o bytes _
    (open_input_ok bytes cap e o S) F (unit_roomy _ _ R) L).
Qed.
Print Assumptions C43_short.
Example C43_short_example : Forall (fun b => b < 256)%N [0xFF; 0xFE; 0]%N /\ (length [0xFF; 0xFE; 0]%N < unit_width UTF32)%nat /\
  roomy 8 (unit_width UTF32).
Proof. split; [repeat constructor|]. split; [cbn; lia|right; cbn; lia]. Qed.
