(** Reading a byte order mark from arbitrary bytes. *)
From Coq Require Import NArith ZArith List Bool Lia ZifyBool ZifyNat ZifyN.
From Verif Require Import Base Integers UnicodeSpec UnicodeModel UnicodeText UnicodeLemmas UnicodeLemmas2 UnicodeLemmas3
  ResourceSpec ResourceModel ResourceLemmas StreamSpec StreamModel StreamText StreamLemmas StreamLemmas2 StreamLemmas3 StreamLemmas5.
Import ListNotations.
Open Scope Z_scope.

Section Reading.
Context {R : Type} (native : byte_order) (ops : source R) (biggest : Z) (left : list N -> R -> Prop).
Context (G : good_source ops biggest left).
Let before := @before R left.

Lemma byte_end : forall e o st, before e o [] st -> 1 <= biggest ->
  read_byte (order_of native) ops st = Throw ReadPastEnd.
Proof.
  intros e o st (H & O & Fm) B. unfold read_byte, text_read, stream_read.
  destruct (gs_read _ _ _ G _ _ (repeat 0%N 1) (Z.of_nat 1) H) as (r' & E & _); [cbn; lia|lia|].
  rewrite E. cbn [bind]. destruct (endian_eqb _ _); reflexivity.
Qed.

Lemma byte_next : forall e o b rest st, before e o (b :: rest) st -> 1 <= biggest ->
  exists st', read_byte (order_of native) ops st = Ok (st', b) /\ before e o rest st'.
Proof.
  intros e o b rest st H B. change (b :: rest) with ([b] ++ rest) in H.
  destruct (text_read_ok native ops biggest left G e o [b] rest st H) as (st' & E & H'); [cbn; lia|cbn; lia|].
  exists st'. split; [|exact H']. unfold read_byte. cbn [length] in E. rewrite E. cbn [bind].
  destruct (endian_eqb _ _); reflexivity.
Qed.

Lemma bom_short : forall e o rest st, before e o rest st -> Forall byte rest -> Z.of_nat (unit_width e) <= biggest ->
  (length rest < unit_width e)%nat -> read_bom (order_of native) ops st = Throw ReadPastEnd.
Proof.
  intros e o rest st H F B L. pose proof H as (_ & _ & Fm). unfold read_bom. rewrite Fm.
  assert (B1 : 1 <= biggest) by (destruct e; cbn in B; lia).
  destruct e; cbn [form_of unit_width] in *.
  - destruct rest; [|cbn in L; lia]. unfold read_code_point. rewrite Fm. unfold read_utf8_code_point.
    destruct (unit_any native ops biggest left G UTF8 o 1 [] st H F ltac:(lia) ltac:(lia)) as [(st' & E)|(u & r & st' & Er & _)].
    + rewrite E. reflexivity.
    + exfalso. symmetry in Er. apply app_eq_nil in Er. destruct Er as [Er _]. apply (f_equal (@length N)) in Er.
      rewrite in_order_length in Er. discriminate.
  - unfold read_utf16_bom. destruct rest as [|a rest].
    { rewrite (byte_end _ _ _ H B1). reflexivity. }
    destruct (byte_next _ _ _ _ _ H B1) as (s1 & E1 & H1). rewrite E1. cbn [bind].
    destruct rest as [|b rest]; [|cbn in L; lia]. rewrite (byte_end _ _ _ H1 B1). reflexivity.
  - unfold read_utf32_bom. destruct rest as [|a rest].
    { rewrite (byte_end _ _ _ H B1). reflexivity. }
    destruct (byte_next _ _ _ _ _ H B1) as (s1 & E1 & H1). rewrite E1. cbn [bind].
    destruct rest as [|b rest].
    { rewrite (byte_end _ _ _ H1 B1). reflexivity. }
    destruct (byte_next _ _ _ _ _ H1 B1) as (s2 & E2 & H2). rewrite E2. cbn [bind].
    destruct rest as [|c rest].
    { rewrite (byte_end _ _ _ H2 B1). reflexivity. }
    destruct (byte_next _ _ _ _ _ H2 B1) as (s3 & E3 & H3). rewrite E3. cbn [bind].
    destruct rest as [|d rest]; [|cbn in L; lia]. rewrite (byte_end _ _ _ H3 B1). reflexivity.
Qed.

End Reading.
