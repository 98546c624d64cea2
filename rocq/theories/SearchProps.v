(** C161: searching in converted strings, and cutting them at separators. *)
From Coq Require Import NArith ZArith List Bool Lia.
From Coq Require Import ZifyBool ZifyNat ZifyN.
From Verif Require Import Base UnicodeSpec SearchSpec UnicodeModel UnicodeText.
From Verif Require Import SortProps SortLemmas SearchLemmas.
Import ListNotations.
Open Scope N_scope.

Lemma convertible_app : forall ki ko a b, convertible ki ko (a ++ b) <-> convertible ki ko a /\ convertible ki ko b.
Proof. intros ki ko a b. unfold convertible. rewrite !Forall_app. intuition. Qed.

Lemma convertible_scalar : forall ki ko l, convertible ki ko l -> Forall scalar l.
Proof. intros ki ko l (H & _). now apply holds_scalar in H. Qed.

Lemma units_found : forall k part whole p q, part <> [] -> Forall scalar part -> Forall scalar whole ->
  units k whole = p ++ units k part ++ q ->
  exists a b, whole = a ++ part ++ b /\ p = units k a /\ q = units k b.
Proof. intros k [|d part] whole p q Ne P W H; [congruence|]. now apply encode_found in H. Qed.

(** A text that is found in a string is found at the corresponding place of the converted string,
    and nowhere else: what is in front of it and behind it is converted, too. *)
Theorem C161_found : forall ki ko part whole, part <> [] ->
  convertible ki ko part -> convertible ki ko whole ->
  exists s t, convert_string ko ki (units ki part) = Ok s /\ convert_string ko ki (units ki whole) = Ok t /\
    (forall p q, units ki whole = p ++ units ki part ++ q ->
       exists p' q', convert_string ko ki p = Ok p' /\ convert_string ko ki q = Ok q' /\ t = p' ++ s ++ q') /\
    (forall p' q', t = p' ++ s ++ q' ->
       exists p q, units ki whole = p ++ units ki part ++ q /\
                   convert_string ko ki p = Ok p' /\ convert_string ko ki q = Ok q').
Proof.
  intros ki ko part whole Ne P W. exists (units ko part), (units ko whole).
  split; [now apply converted|]. split; [now apply converted|].
  pose proof (convertible_scalar _ _ _ P) as P'. pose proof (convertible_scalar _ _ _ W) as W'. split.
  - intros p q H. destruct (units_found ki part whole p q Ne P' W' H) as (a & b & -> & -> & ->).
    apply convertible_app in W as [A W]. apply convertible_app in W as [_ B]. exists (units ko a), (units ko b).
    split; [now apply converted|]. split; [now apply converted|]. unfold units. now rewrite !encode_app.
  - intros p q H. destruct (units_found ko part whole p q Ne P' W' H) as (a & b & -> & -> & ->).
    apply convertible_app in W as [A W]. apply convertible_app in W as [_ B]. exists (units ki a), (units ki b).
    split; [unfold units; now rewrite !encode_app|]. split; now apply converted.
Qed.
Print Assumptions C161_found.

(** The places where it is found, counted in code units, are those of the text, counted in code
    points: the code points in front are passed over. *)
Theorem C161_places : forall ki ko part whole, part <> [] ->
  convertible ki ko part -> convertible ki ko whole ->
  exists s t, convert_string ko ki (units ki part) = Ok s /\ convert_string ko ki (units ki whole) = Ok t /\
    (forall i, stands_at s t i <-> exists j, stands_at part whole j /\ i = length (units ko (firstn j whole))) /\
    (forall i, found_at s t i <-> exists j, found_at part whole j /\ i = length (units ko (firstn j whole))).
Proof.
  intros ki ko part whole Ne P W. exists (units ko part), (units ko whole).
  split; [now apply converted|]. split; [now apply converted|].
  pose proof (convertible_scalar _ _ _ P) as P'. pose proof (convertible_scalar _ _ _ W) as W'. clear P W.
  assert (S : forall i, stands_at (units ko part) (units ko whole) i <->
    exists j, stands_at part whole j /\ i = length (units ko (firstn j whole))).
  { intros i. split.
    - intros (p & q & H & <-). destruct (units_found ko part whole p q Ne P' W' H) as (a & b & E & -> & ->).
      exists (length a). split; [exists a, b; auto|]. rewrite E, firstn_app, firstn_all, Nat.sub_diag, firstn_O. now rewrite app_nil_r.
    - intros (j & (a & b & E & <-) & ->). exists (units ko a), (units ko b). split; [rewrite E; unfold units; now rewrite !encode_app|].
      rewrite E, firstn_app, firstn_all, Nat.sub_diag, firstn_O. now rewrite app_nil_r. }
  split; [exact S|].
  assert (M : forall j j', (j < j')%nat -> (j' <= length whole)%nat ->
    (length (units ko (firstn j whole)) < length (units ko (firstn j' whole)))%nat).
  { clear S P' part Ne. induction whole as [|c l IH]; intros j j' L B; [cbn [length] in B; lia|].
    destruct j' as [|j']; [lia|]. apply Forall_cons_iff in W' as [C W']. unfold units, encode. cbn [firstn flat_map].
    destruct (first_unit (encoding_of ko) c C) as (x & t & E & _). rewrite app_length, E. cbn [length]. destruct j as [|j]; [cbn [firstn flat_map length]; lia|].
    cbn [firstn flat_map]. rewrite app_length, E. cbn [length] in *. specialize (IH W' j j' ltac:(lia) ltac:(lia)). unfold units, encode in IH. lia. }
  assert (B : forall j, stands_at part whole j -> (j <= length whole)%nat).
  { intros j (a & b & E & <-). rewrite E, !app_length. lia. }
  intros i. unfold found_at. split.
  - intros (F & N). apply S in F as (j & F & ->). exists j. split; [|reflexivity]. split; [exact F|].
    intros j' L F'. apply (N (length (units ko (firstn j' whole)))); [apply M; auto|]. apply S. now exists j'.
  - intros (j & (F & N) & ->). split; [apply S; now exists j|]. intros i L F'. apply S in F' as (j' & F' & ->).
    apply (N j'); [|exact F']. destruct (Nat.lt_trichotomy j j') as [X|[->|X]]; [|lia|exact X].
    specialize (M j j' X (B _ F')). lia.
Qed.
Print Assumptions C161_places.

Lemma example_texts : convertible K32 K8 [0x20AC; 0xE9] /\ convertible K32 K8 [0x41; 0x20AC; 0xE9; 0x1F600].
Proof.
  unfold convertible, holds, single_unit, scalar. split; repeat split; repeat constructor; intuition (try discriminate; lia).
Qed.

Example C161_found_example :
  convertible K32 K8 [0x20AC; 0xE9] /\ convertible K32 K8 [0x41; 0x20AC; 0xE9; 0x1F600] /\
  convert_string K8 K32 [0x20AC; 0xE9] = Ok [0xE2; 0x82; 0xAC; 0xC3; 0xA9] /\
  convert_string K8 K32 [0x41; 0x20AC; 0xE9; 0x1F600] = Ok ([0x41] ++ [0xE2; 0x82; 0xAC; 0xC3; 0xA9] ++ [0xF0; 0x9F; 0x98; 0x80]) /\
  stands_at [0x20AC; 0xE9] [0x41; 0x20AC; 0xE9; 0x1F600] 1.
Proof.
  split; [apply example_texts|]. split; [apply example_texts|]. split; [reflexivity|]. split; [reflexivity|].
  exists [0x41], [0x1F600]. auto.
Qed.

(** An empty text is found between the units of a code point, too. *)
Example C161_empty_example : exists t, convert_string K8 K32 [0xE9] = Ok t /\ stands_at [] t 1 /\
  ~ exists j, stands_at [] [0xE9] j /\ 1%nat = length (units K8 (firstn j [0xE9])).
Proof.
  exists [0xC3; 0xA9]. split; [reflexivity|]. split; [now exists [0xC3], [0xA9]|].
  intros (j & (a & b & E & L) & K). destruct j as [|[|j]]; cbn in K; try discriminate.
Qed.

(** Cut at a separator of one unit, such as a comma, the converted string falls into the
    converted pieces of the text. *)
Theorem C161_pieces : forall ki ko sep whole, scalar sep -> encode1 (encoding_of ko) sep = [sep] ->
  convertible ki ko whole ->
  exists t, convert_string ko ki (units ki whole) = Ok t /\
    Forall2 (fun piece s => convert_string ko ki (units ki piece) = Ok s) (pieces sep whole) (pieces sep t).
Proof.
  intros ki ko sep whole S1 S2 W. exists (units ko whole). split; [now apply converted|].
  unfold units at 2. rewrite encode_pieces; auto; [|now apply convertible_scalar in W].
  assert (F : Forall (convertible ki ko) (pieces sep whole)).
  { clear S1 S2. induction whole as [|c l IH]; cbn [pieces]; [repeat constructor|].
    change (c :: l) with ([c] ++ l) in W. apply convertible_app in W as [C W]. specialize (IH W).
    destruct (c =? sep).
    - constructor; [|exact IH]. unfold convertible. repeat constructor.
    - destruct (pieces sep l) as [|p ps]; [constructor; [exact C|constructor]|].
      apply Forall_cons_iff in IH as [P IH]. constructor; [|exact IH]. change (c :: p) with ([c] ++ p). now apply convertible_app. }
  clear - F. induction F as [|p ps P F IH]; cbn [map]; constructor; [now apply converted|exact IH].
Qed.
Print Assumptions C161_pieces.

Example C161_pieces_example :
  encode1 UTF8 0x2C = [0x2C] /\ pieces 0x2C [0xE9; 0x2C; 0x41] = [[0xE9]; [0x41]] /\
  convert_string K8 K32 [0xE9; 0x2C; 0x41] = Ok [0xC3; 0xA9; 0x2C; 0x41] /\
  pieces 0x2C [0xC3; 0xA9; 0x2C; 0x41] = [[0xC3; 0xA9]; [0x41]].
Proof. repeat split; reflexivity. Qed.
