(** Theorems C111 and C112: strings when memory runs out. *)
From Coq Require Import NArith List Bool Arith Lia.
From Coq Require Import ZifyBool ZifyNat ZifyN.
From Verif Require Import Base UnicodeSpec UnicodeModel UnicodeText UnicodeLemmas UnicodeLemmas2 MemoryModel MemoryText MemoryLemmas.
Import ListNotations.
Open Scope N_scope.
Ltac Zify.zify_post_hook ::= idtac.

(* ------------------------------------------------------------------- C111 *)

(** C111 is false: when memory runs out in the middle of a code point, its first units stay
    in the string, which is no longer well-formed.  E with acute accent, added to a full string
    whose first request for memory is met for one unit and whose second is refused, leaves
    the lone byte C3; the emoji leaves half of a surrogate pair. *)
Theorem C111_unchanged_refuted :
  store_append_code_point K8 (Store [0x41] 1) [Some 0%nat; None] 0xE9 = (Store [0x41; 0xC3] 2, [], OutOfMemory) /\
  store_append_code_point K16 (Store [0x41] 1) [Some 0%nat; None] 0x1F600 = (Store [0x41; 0xD83D] 2, [], OutOfMemory) /\
  ~ (exists l, Forall scalar l /\ encode UTF8 l = [0x41; 0xC3]).
Proof.
  split; [vm_compute; reflexivity|]. split; [vm_compute; reflexivity|]. intros (l & S & E).
  assert (H : forall c, (length (encode1 UTF8 c) = 1%nat -> encode1 UTF8 c = [c] /\ c < 128) /\ (1 <= length (encode1 UTF8 c))%nat).
  { intro c. cbn [encode1]. unfold utf8_of. destruct (c <? 0x80) eqn:E1; [cbn [length]; split; [intros _; split; [reflexivity|lia]|lia]|].
    destruct (c <? 0x800); [cbn [length]; split; [discriminate|lia]|]. destruct (c <? 0x10000); cbn [length]; (split; [discriminate|lia]). }
  destruct l as [|a [|b l]]; [discriminate| |].
  - cbn [encode flat_map] in E. rewrite app_nil_r in E. cbn [encode1] in E. unfold utf8_of in E.
    destruct (a <? 0x80); [discriminate|]. destruct (a <? 0x800) eqn:E2; [|destruct (a <? 0x10000); discriminate].
    apply (f_equal (fun l => hd 0 l)) in E. cbn [hd] in E. lia.
  - cbn [encode flat_map] in E. pose proof (f_equal (@length N) E) as L. rewrite !app_length in L. cbn [length] in L.
    destruct (H a) as [Ha Na]. destruct (H b) as [Hb Nb].
    destruct (Ha ltac:(lia)) as [Ea _]. destruct (Hb ltac:(lia)) as [Eb Lb]. rewrite Ea, Eb in E. cbn [app] in E.
    injection E as _ E _. lia.
Qed.
Print Assumptions C111_unchanged_refuted.

(** Exactly what is left, whatever the answers of the allocator are: all units of the code
    point if the call returns; otherwise a beginning of them, and the rest of the string is
    as it was.  Missing: that the beginning is empty. *)
Theorem C111_left_partial : forall k s m c i, accepted k c -> (i <= length (kept s))%nat ->
  match store_insert_code_point k s m c i with
  | (s', _, Done _) => kept s' = firstn i (kept s) ++ units k [c] ++ skipn i (kept s)
  | (s', _, OutOfMemory) => exists p, beginning p (units k [c]) /\ kept s' = firstn i (kept s) ++ p ++ skipn i (kept s)
  | _ => False
  end.
Proof.
  intros k s m c i A H. assert (U : units k [c] = encode1 (encoding_of k) c) by (unfold units; cbn; apply app_nil_r).
  rewrite U. rewrite code_point_each by (now apply valid_accepted). rewrite units_encode by assumption.
  destruct (each_outcome (encode1 (encoding_of k) c) s m i H) as [(m' & r & E)|(p & rest & m' & r & Eu & Nr & E)]; rewrite E.
  - reflexivity.
  - exists p. split; [exists rest; auto|reflexivity].
Qed.
Print Assumptions C111_left_partial.
Example C111_left_example : accepted K8 0x20AC /\ (1 <= length (kept (Store [0x41; 0x42]%N 3)))%nat /\
  store_insert_code_point K8 (Store [0x41; 0x42] 3) [Some 0%nat; None] 0x20AC 1
    = (Store [0x41; 0xE2; 0x82; 0x42] 4, [], OutOfMemory).
Proof.
  split; [split; [cbn; unfold scalar; lia|intros _; change (0x20AC mod 0x10000) with 0x20AC; lia]|].
  split; [cbn; lia|]. vm_compute. reflexivity.
Qed.

(** Code points of one unit (all in strings of char, char32_t and 32-bit wchar_t, ASCII in
    UTF-8, the basic plane in UTF-16) are added or nothing happens. *)
Theorem C111_unchanged_partial : forall k s m c i, accepted k c -> (i <= length (kept s))%nat -> length (units k [c]) = 1%nat ->
  match store_insert_code_point k s m c i with
  | (s', _, Done _) => kept s' = firstn i (kept s) ++ units k [c] ++ skipn i (kept s)
  | (s', _, OutOfMemory) => kept s' = kept s
  | _ => False
  end.
Proof.
  intros k s m c i A H L. pose proof (C111_left_partial k s m c i A H) as X.
  destruct (store_insert_code_point k s m c i) as [[s' m'] [u| |o]]; auto. destruct X as (p & (rest & E & Nr) & X).
  rewrite E, app_length in L. destruct rest; [congruence|]. cbn [length] in L.
  assert (p = []) by (apply length_zero_iff_nil; lia). subst p. cbn [app] in X. rewrite X. apply firstn_skipn.
Qed.
Print Assumptions C111_unchanged_partial.
Example C111_unchanged_example : accepted K16 0x20AC /\ length (units K16 [0x20AC]) = 1%nat /\
  store_insert_code_point K16 (Store [0x41] 1) [None] 0x20AC 0 = (Store [0x41] 1, [], OutOfMemory).
Proof. split; [split; [cbn; unfold scalar; lia|discriminate]|]. split; vm_compute; reflexivity. Qed.

(** A program that reserves room for the units first is safe: no memory is asked for. *)
Theorem C111_reserved : forall k s m c i, accepted k c -> (i <= length (kept s))%nat ->
  (length (kept s) + length (units k [c]) <= room s)%nat ->
  store_insert_code_point k s m c i = (Store (firstn i (kept s) ++ units k [c] ++ skipn i (kept s)) (room s), m, Done tt).
Proof.
  intros k s m c i A H R. assert (U : units k [c] = encode1 (encoding_of k) c) by (unfold units; cbn; apply app_nil_r).
  rewrite U in *. rewrite code_point_each by (now apply valid_accepted). rewrite units_encode by assumption. now apply each_roomy.
Qed.
Print Assumptions C111_reserved.
Example C111_reserved_example : accepted K8 0x1F600 /\ (length (kept (Store [0x41]%N 5)) + length (units K8 [0x1F600]%N) <= room (Store [0x41]%N 5))%nat.
Proof.
  split; [|vm_compute; lia]. split; [cbn; unfold scalar; lia|]. intros _. change (0x1F600 mod 0x10000) with 0xF600. lia.
Qed.

(** The calls are those of C01-C03: where memory does not run out, they do the same. *)
Theorem C111_same_calls : forall k s m c i,
  match store_insert_code_point k s m c i with
  | (s', _, Done _) => insert_code_point k (kept s) c i = (kept s', Ok tt)
  | (_, _, OutOfMemory) => In None m
  | (s', _, Otherwise o) => insert_code_point k (kept s) c i = (kept s', o)
  end.
Proof.
  intros k s m c i. pose proof (same_code_point k s m c i) as H. unfold same in H.
  pose proof (memory_used k s m c i) as U.
  destruct (store_insert_code_point k s m c i) as [[s' m'] [u| |o]]; auto.
Qed.
Print Assumptions C111_same_calls.
Example C111_same_calls_example :
  store_insert_code_point K8 (Store [0x41] 1) [] 0x20AC 1 = (Store [0x41; 0xE2; 0x82; 0xAC] 4, [], Done tt) /\
  insert_code_point K8 [0x41] 0x20AC 1 = ([0x41; 0xE2; 0x82; 0xAC], Ok tt).
Proof. split; vm_compute; reflexivity. Qed.

(* ------------------------------------------------------------------- C112 *)

(** C112 is false: room is reserved for as many units as the source has, which is too few
    when the target needs more.  Two requests, the second refused: the conversion of a Euro
    sign from UTF-16 to UTF-8 fails after its first byte. *)
Theorem C112_once_refuted :
  store_convert_string 0 K8 K16 [0x20AC] [Some 0%nat; None] = (Store [0xE2] 1, [], OutOfMemory).
Proof. vm_compute. reflexivity. Qed.
Print Assumptions C112_once_refuted.

(** When the text needs no more units in the target than in the source, at most one request
    is made, before anything else, and all the rest of the conversion cannot run out of
    memory: [m] is what the allocator answers after that request. *)
Theorem C112_once_partial : forall small ko ki l m, Forall (holds ki) l -> Forall (single_unit ki) l -> Forall (accepted ko) l ->
  (length (units ko l) <= length (units ki l))%nat ->
  ((length (units ki l) <= small)%nat -> exists r, store_convert_string small ko ki (units ki l) m = (Store (units ko l) r, m, Done tt)) /\
  (forall extra, (small < length (units ki l))%nat ->
     exists r, store_convert_string small ko ki (units ki l) (Some extra :: m) = (Store (units ko l) r, m, Done tt)) /\
  ((small < length (units ki l))%nat -> store_convert_string small ko ki (units ki l) (None :: m) = (Store [] small, m, OutOfMemory)).
Proof.
  intros small ko ki l m Hi Hs Ho L. pose proof (visit_ok ki l Hi Hs) as V. unfold visit in V.
  unfold store_convert_string, make_room. cbn [room kept]. split; [|split].
  - intro H. rewrite (proj2 (Nat.leb_le _ _) H). cbn [step]. exists small.
    rewrite (loop_visits _ ko ki _ _ l _ m V Ho); [reflexivity|]. cbn [kept room length]. lia.
  - intros extra H. rewrite (proj2 (Nat.leb_gt _ _) H). cbn [step]. eexists.
    rewrite (loop_visits _ ko ki _ _ l _ m V Ho); [reflexivity|]. cbn [kept room length]. lia.
  - intro H. rewrite (proj2 (Nat.leb_gt _ _) H). reflexivity.
Qed.
Print Assumptions C112_once_partial.
Example C112_once_example : let l := [0x41; 0x20AC; 0x1F600] in
  Forall (holds K8) l /\ Forall (single_unit K8) l /\ Forall (accepted K16) l /\ (length (units K16 l) <= length (units K8 l))%nat /\
  store_convert_string 0 K16 K8 (units K8 l) [Some 0%nat; None] = (Store (units K16 l) 8, [None], Done tt).
Proof.
  cbv zeta. split; [repeat constructor; cbn; unfold scalar; lia|]. split; [repeat constructor|].
  split; [repeat constructor; try (cbn; unfold scalar; lia); discriminate|]. split; vm_compute; [lia|reflexivity].
Qed.

(** So it is for all texts from UTF-8, from UTF-16 to char32_t, and between strings of
    the same kind. *)
Theorem C112_kinds : forall ki ko l, no_longer ki ko -> Forall scalar l -> (length (units ko l) <= length (units ki l))%nat.
Proof.
  intros ki ko l H S. induction S as [|c l Hc S IH]; [reflexivity|].
  assert (U : forall k, units k (c :: l) = encode1 (encoding_of k) c ++ units k l) by reflexivity.
  rewrite !U, !app_length. apply Nat.add_le_mono; [|exact IH]. unfold no_longer in H. unfold scalar in Hc.
  destruct (encoding_of ki), (encoding_of ko); try contradiction; cbn [encode1]; try lia; unfold utf8_of, utf16_of, utf32_of;
    repeat match goal with |- context [if ?b then _ else _] => destruct b eqn:?; cbn [length] end; lia.
Qed.
Print Assumptions C112_kinds.
Example C112_kinds_example : no_longer K8 K16 /\ no_longer K16 K32 /\ no_longer KW2 KW2 /\ ~ no_longer K16 K8.
Proof. cbn. tauto. Qed.
