(** What NSString takes is exactly UTF-8. *)
From Coq Require Import NArith ZArith List Bool Lia.
Require Import ZifyBool ZifyNat ZifyN.
From Verif Require Import Base UnicodeSpec KeySpec LookSpec LookModel LookText LookLemmas LookLemmas2.
Import ListNotations.
Open Scope N_scope.
Ltac Zify.zify_post_hook ::= Z.div_mod_to_equations.

Lemma valid_cons : forall n lo hi l, valid_utf8 (S n) lo hi l = true ->
  exists x l', l = x :: l' /\ lo <= x <= hi /\ valid_utf8 n 0x80 0xBF l' = true.
Proof.
  intros n lo hi [|x l] H; cbn [valid_utf8] in H; [discriminate|].
  apply andb_prop in H as [H V]. apply andb_prop in H as [H1 H2]. exists x, l. split; [reflexivity|]. split; [lia|exact V].
Qed.

Lemma well_formed_cons : forall c b l, scalar c -> utf8_of c = b -> well_formed UTF8 l -> well_formed UTF8 (b ++ l).
Proof.
  intros c b l H E (m & F & ->). exists (c :: m). split; [constructor; assumption|].
  change (encode UTF8 (c :: m)) with (utf8_of c ++ encode UTF8 m). now rewrite E.
Qed.

Lemma two_bytes : forall x y, 0xC2 <= x <= 0xDF -> 0x80 <= y <= 0xBF ->
  let c := (x - 0xC0) * 64 + (y - 0x80) in scalar c /\ utf8_of c = [x; y].
Proof.
  intros x y Hx Hy c. assert (B : 0x80 <= c < 0x800) by (unfold c; lia). split; [unfold scalar; lia|].
  unfold utf8_of. replace (c <? 0x80) with false by lia. replace (c <? 0x800) with true by lia.
  f_equal; [|f_equal]; unfold c; lia.
Qed.

Lemma three_bytes : forall x y z, 0xE0 <= x <= 0xEF -> 0x80 <= y <= 0xBF -> 0x80 <= z <= 0xBF ->
  (x = 0xE0 -> 0xA0 <= y) -> (x = 0xED -> y <= 0x9F) ->
  let c := (x - 0xE0) * 4096 + (y - 0x80) * 64 + (z - 0x80) in scalar c /\ utf8_of c = [x; y; z].
Proof.
  intros x y z Hx Hy Hz H0 H1 c. assert (B : 0x800 <= c < 0x10000) by (unfold c; lia).
  split; [unfold scalar; unfold c in *; lia|].
  unfold utf8_of. replace (c <? 0x80) with false by lia. replace (c <? 0x800) with false by lia. replace (c <? 0x10000) with true by lia.
  f_equal; [|f_equal; [|f_equal]]; unfold c; lia.
Qed.

Lemma four_bytes : forall x y z w, 0xF0 <= x <= 0xF4 -> 0x80 <= y <= 0xBF -> 0x80 <= z <= 0xBF -> 0x80 <= w <= 0xBF ->
  (x = 0xF0 -> 0x90 <= y) -> (x = 0xF4 -> y <= 0x8F) ->
  let c := (x - 0xF0) * 262144 + (y - 0x80) * 4096 + (z - 0x80) * 64 + (w - 0x80) in scalar c /\ utf8_of c = [x; y; z; w].
Proof.
  intros x y z w Hx Hy Hz Hw H0 H1 c. assert (B : 0x10000 <= c <= 0x10FFFF) by (unfold c; lia).
  split; [unfold scalar; lia|].
  unfold utf8_of. replace (c <? 0x80) with false by lia. replace (c <? 0x800) with false by lia. replace (c <? 0x10000) with false by lia.
  f_equal; [|f_equal; [|f_equal; [|f_equal]]]; unfold c; lia.
Qed.

Lemma valid_well_formed : forall n l, (length l <= n)%nat -> valid_utf8 0 0 0 l = true -> well_formed UTF8 l.
Proof.
  induction n as [|n IH]; intros l L V.
  { destruct l; [|cbn in L; lia]. exists []. split; [constructor|reflexivity]. }
  destruct l as [|x l]; [exists []; split; [constructor|reflexivity]|].
  cbn [valid_utf8] in V. cbn [length] in L.
  assert (Two : 0xC2 <= x <= 0xDF -> valid_utf8 1 0x80 0xBF l = true -> well_formed UTF8 (x :: l)).
  { intros Hx V1. apply valid_cons in V1 as (y & l1 & -> & Hy & V1). rewrite valid_zero in V1. cbn [length] in L.
    destruct (two_bytes x y Hx Hy) as [S E]. apply (well_formed_cons _ [x; y] l1 S E). apply IH; [lia|exact V1]. }
  assert (Three : forall lo hi, 0xE0 <= x <= 0xEF -> 0x80 <= lo -> hi <= 0xBF -> (x = 0xE0 -> 0xA0 <= lo) -> (x = 0xED -> hi <= 0x9F) ->
    valid_utf8 2 lo hi l = true -> well_formed UTF8 (x :: l)).
  { intros lo hi Hx Hlo Hhi H0 H1 V1. apply valid_cons in V1 as (y & l1 & -> & Hy & V1). apply valid_cons in V1 as (z & l2 & -> & Hz & V1).
    rewrite valid_zero in V1. cbn [length] in L.
    destruct (three_bytes x y z Hx ltac:(lia) Hz ltac:(lia) ltac:(lia)) as [S E]. apply (well_formed_cons _ [x; y; z] l2 S E). apply IH; [lia|exact V1]. }
  assert (Four : forall lo hi, 0xF0 <= x <= 0xF4 -> 0x80 <= lo -> hi <= 0xBF -> (x = 0xF0 -> 0x90 <= lo) -> (x = 0xF4 -> hi <= 0x8F) ->
    valid_utf8 3 lo hi l = true -> well_formed UTF8 (x :: l)).
  { intros lo hi Hx Hlo Hhi H0 H1 V1. apply valid_cons in V1 as (y & l1 & -> & Hy & V1). apply valid_cons in V1 as (z & l2 & -> & Hz & V1).
    apply valid_cons in V1 as (w & l3 & -> & Hw & V1). rewrite valid_zero in V1. cbn [length] in L.
    destruct (four_bytes x y z w Hx ltac:(lia) Hz Hw ltac:(lia) ltac:(lia)) as [S E]. apply (well_formed_cons _ [x; y; z; w] l3 S E). apply IH; [lia|exact V1]. }
  destruct (N.leb_spec x 0x7F).
  { apply (well_formed_cons x [x] l); [unfold scalar; lia| |apply IH; [lia|exact V]]. unfold utf8_of. now replace (x <? 0x80) with true by lia. }
  destruct ((0xC2 <=? x) && (x <=? 0xDF)) eqn:C2; [apply Two; [lia|exact V]|].
  destruct (N.eqb_spec x 0xE0); [apply (Three 0xA0 0xBF); auto; lia|].
  destruct (N.eqb_spec x 0xED); [apply (Three 0x80 0x9F); auto; lia|].
  destruct ((0xE1 <=? x) && (x <=? 0xEF)) eqn:C3; [apply (Three 0x80 0xBF); auto; lia|].
  destruct (N.eqb_spec x 0xF0); [apply (Four 0x90 0xBF); auto; lia|].
  destruct ((0xF1 <=? x) && (x <=? 0xF3)) eqn:C4; [apply (Four 0x80 0xBF); auto; lia|].
  destruct (N.eqb_spec x 0xF4); [apply (Four 0x80 0x8F); auto; lia|discriminate].
Qed.

Lemma valid_exactly : forall l, valid_utf8 0 0 0 l = true <-> well_formed UTF8 l.
Proof.
  intro l. split; [now apply (valid_well_formed (length l))|]. intros (m & F & ->). now apply valid_utf8_encode.
Qed.
