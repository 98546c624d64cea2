(** Strings and memory: lemmas. *)
From Coq Require Import NArith List Bool Arith Lia.
From Coq Require Import ZifyBool ZifyNat ZifyN.
From Verif Require Import Base UnicodeSpec UnicodeModel UnicodeText UnicodeLemmas UnicodeLemmas2 UnicodeLemmas3 MemoryModel MemoryText.
Import ListNotations.
Open Scope N_scope.
Ltac Zify.zify_post_hook ::= idtac.

(** Units inserted one after the other. *)
Fixpoint insert_each (s : store) (m : memory) (i : nat) (us : list N) : store * memory * ending unit :=
  match us with
  | [] => (s, m, Done tt)
  | u :: us => step (store_insert s m i u) (fun s m _ => insert_each s m (i + 1) us)
  end.

Definition units_of (k : ukind) (cp : N) : list N :=
  match k with
  | KChar _ => [to_char8 cp]
  | K8 =>
    if fits_in_7_bits cp then [to_char8 cp]
    else if cp <=? 0x7FF then [to_char8 (N.lor (N.shiftr cp 6) 192); to_char8 (N.lor (N.land cp 63) 128)]
    else if cp <=? 0xFFFF then
      [to_char8 (N.lor (N.shiftr cp 12) 224); to_char8 (N.lor (N.land (N.shiftr cp 6) 63) 128); to_char8 (N.lor (N.land cp 63) 128)]
    else
      [to_char8 (N.lor (N.shiftr cp 18) 240); to_char8 (N.lor (N.land (N.shiftr cp 12) 63) 128);
       to_char8 (N.lor (N.land (N.shiftr cp 6) 63) 128); to_char8 (N.lor (N.land cp 63) 128)]
  | K16 | KW2 =>
    if negb (is_surrogate cp) && (cp <=? maximum_bmp_code_point) then [to_char16 cp]
    else
      let cp := to_char32 (cp + 0x100000000 - 0x10000) in
      [to_char16 (N.shiftr (N.land 0xFFC00 cp) 10 + leading_surrogate_minimum_value);
       to_char16 (N.land 0x3FF cp + trailing_surrogate_minimum_value)]
  | K32 | KW4 => [cp]
  end.

Lemma step_unit : forall x : store * memory * ending unit, (forall s m o, x = (s, m, Otherwise o) -> bind o (fun _ => Diverge) = o) ->
  step x (fun s m _ => (s, m, Done tt)) = x.
Proof. intros [[s m] [[]| |o]] H; cbn [step]; auto. rewrite (H s m o eq_refl). reflexivity. Qed.

Lemma insert_other : forall s m i u s' m' o, store_insert s m i u = (s', m', Otherwise o) -> o = Throw OutOfRange.
Proof.
  intros s m i u s' m' o. unfold store_insert. destruct (Nat.ltb _ _).
  - intro H. injection H as _ _ <-. reflexivity.
  - unfold make_room. destruct (Nat.leb _ _); cbn [step]; [discriminate|]. destruct m as [|[e|] m]; cbn [step]; discriminate.
Qed.

Lemma insert_last : forall s m i u, store_insert s m i u = step (store_insert s m i u) (fun s m _ => insert_each s m (i + 1) []).
Proof.
  intros s m i u. symmetry. apply step_unit. intros s' m' o H. apply insert_other in H. subst o. reflexivity.
Qed.

Lemma code_point_each : forall k s m c i, (k = K8 -> is_code_point_valid c = true) ->
  store_insert_code_point k s m c i = insert_each s m i (units_of k c).
Proof.
  assert (A : forall (x : store * memory * ending unit) (f g : store -> memory -> unit -> store * memory * ending unit), (forall s m, f s m tt = g s m tt) -> step x f = step x g).
  { intros [[s m] [[]| |o]] f g H; cbn [step]; auto. }
  assert (P2 : forall i, (i + 1 + 1 = i + 2)%nat) by (intro; lia).
  intros k s m c i V. destruct k; cbn [store_insert_code_point units_of insert_each]; try apply insert_last.
  - rewrite V by reflexivity. cbn [negb]. destruct (fits_in_7_bits c); [apply insert_last|].
    destruct (c <=? 0x7FF); cbn [insert_each].
    { apply A; intros. apply insert_last. }
    destruct (c <=? 0xFFFF); cbn [insert_each].
    { apply A; intros. apply A; intros. rewrite P2. apply insert_last. }
    apply A; intros. apply A; intros. rewrite P2. apply A; intros. replace (i + 2 + 1)%nat with (i + 3)%nat by lia. apply insert_last.
  - destruct (_ && _); cbn [insert_each]; [apply insert_last|]. apply A; intros. apply insert_last.
  - destruct (_ && _); cbn [insert_each]; [apply insert_last|]. apply A; intros. apply insert_last.
Qed.

(** Without limits. *)
Fixpoint plain_each (s : list N) (i : nat) (us : list N) : list N :=
  match us with
  | [] => s
  | u :: us => plain_each (firstn i s ++ u :: skipn i s) (i + 1) us
  end.

Lemma plain_each_app : forall us s i d, (i <= length s)%nat ->
  plain_each (firstn i s ++ d ++ skipn i s) (i + length d) us = firstn i s ++ (d ++ us) ++ skipn i s.
Proof.
  induction us as [|u us IH]; intros s i d H; cbn [plain_each]; [now rewrite app_nil_r|].
  pose proof (str_insert_next s i d u H) as E. rewrite str_insert_ok in E.
  2:{ rewrite !app_length, firstn_length, skipn_length. lia. }
  apply pair_equal_spec in E. destruct E as [E _]. rewrite E.
  replace (i + length d + 1)%nat with (i + length (d ++ [u]))%nat by (rewrite app_length; cbn [length]; lia).
  rewrite IH by assumption. rewrite <- !app_assoc. reflexivity.
Qed.

Lemma plain_whole : forall us s i, (i <= length s)%nat -> plain_each s i us = firstn i s ++ us ++ skipn i s.
Proof.
  intros us s i H. pose proof (plain_each_app us s i [] H) as E. cbn [length app] in E. rewrite Nat.add_0_r, firstn_skipn in E. exact E.
Qed.

(** With enough memory the string functions are those of UnicodeModel.v. *)
Lemma units_encode : forall k c, accepted k c -> units_of k c = encode1 (encoding_of k) c.
Proof.
  intros k c A. pose proof (insert_ok k [] c 0 A (le_n _)) as E. cbn [firstn skipn app] in E. rewrite app_nil_r in E.
  destruct A as [H H8].
  assert (V : k = K8 -> is_code_point_valid c = true).
  { intros ->. apply valid_iff. cbn [holds] in H. split; [destruct H; lia|auto]. }
  assert (G : insert_code_point k [] c 0 = (units_of k c, Ok tt)).
  { destruct k; cbn [insert_code_point units_of]; try reflexivity.
    - rewrite V by reflexivity. cbn [negb].
      repeat match goal with |- context [if ?b then _ else _] => destruct b end; reflexivity.
    - destruct (_ && _); reflexivity.
    - destruct (_ && _); reflexivity. }
  rewrite G in E. now apply pair_equal_spec in E.
Qed.

Lemma valid_accepted : forall k c, accepted k c -> k = K8 -> is_code_point_valid c = true.
Proof. intros k c [H H8] ->. apply valid_iff. cbn [holds] in H. split; [destruct H; lia|auto]. Qed.

Lemma insert_once : forall s m i u, (i <= length (kept s))%nat ->
  (exists m' r, store_insert s m i u = (Store (firstn i (kept s) ++ u :: skipn i (kept s)) r, m', Done tt)) \/
  (exists m', store_insert s m i u = (s, m', OutOfMemory)).
Proof.
  intros s m i u H. unfold store_insert. replace (Nat.ltb (length (kept s)) i) with false by (symmetry; apply Nat.ltb_ge; lia).
  unfold make_room. destruct (Nat.leb _ _); cbn [step kept room]; [left; eauto|].
  destruct m as [|[e|] m]; cbn [step kept room]; eauto.
Qed.

Lemma each_outcome : forall us s m i, (i <= length (kept s))%nat ->
  (exists m' r, insert_each s m i us = (Store (firstn i (kept s) ++ us ++ skipn i (kept s)) r, m', Done tt)) \/
  (exists p rest m' r, us = p ++ rest /\ rest <> [] /\
     insert_each s m i us = (Store (firstn i (kept s) ++ p ++ skipn i (kept s)) r, m', OutOfMemory)).
Proof.
  induction us as [|u us IH]; intros s m i H; cbn [insert_each].
  - left. exists m, (room s). cbn [app]. rewrite firstn_skipn. destruct s; reflexivity.
  - destruct (insert_once s m i u H) as [(m' & r & E)|(m' & E)]; rewrite E; cbn [step].
    + set (s1 := Store (firstn i (kept s) ++ u :: skipn i (kept s)) r).
      assert (L : length (firstn i (kept s)) = i) by (rewrite firstn_length; lia).
      assert (F1 : firstn (i + 1) (kept s1) = firstn i (kept s) ++ [u]).
      { cbn [s1 kept]. rewrite firstn_app, firstn_all2 by lia. rewrite L. replace (i + 1 - i)%nat with 1%nat by lia. reflexivity. }
      assert (F2 : skipn (i + 1) (kept s1) = skipn i (kept s)).
      { cbn [s1 kept]. rewrite skipn_app, skipn_all2 by lia. rewrite L. replace (i + 1 - i)%nat with 1%nat by lia. reflexivity. }
      destruct (IH s1 m' (i + 1)%nat) as [(m2 & r2 & E2)|(p & rest & m2 & r2 & Eu & Nr & E2)].
      * cbn [s1 kept]. rewrite app_length. cbn [length]. rewrite L, skipn_length. lia.
      * left. exists m2, r2. rewrite E2, F1, F2. rewrite <- !app_assoc. reflexivity.
      * right. exists (u :: p), rest, m2, r2. split; [cbn [app]; congruence|]. split; [exact Nr|].
        rewrite E2, F1, F2. rewrite <- !app_assoc. reflexivity.
    + right. exists [], (u :: us), m', (room s). split; [reflexivity|]. split; [discriminate|]. cbn [app]. rewrite firstn_skipn.
      destruct s; reflexivity.
Qed.

Lemma insert_roomy : forall s m i u, (i <= length (kept s))%nat -> (length (kept s) < room s)%nat ->
  store_insert s m i u = (Store (firstn i (kept s) ++ u :: skipn i (kept s)) (room s), m, Done tt).
Proof.
  intros s m i u H R. unfold store_insert. replace (Nat.ltb (length (kept s)) i) with false by (symmetry; apply Nat.ltb_ge; lia).
  unfold make_room. replace (Nat.leb (length (kept s) + 1) (room s)) with true by (symmetry; apply Nat.leb_le; lia). reflexivity.
Qed.

Lemma each_roomy : forall us s m i, (i <= length (kept s))%nat -> (length (kept s) + length us <= room s)%nat ->
  insert_each s m i us = (Store (firstn i (kept s) ++ us ++ skipn i (kept s)) (room s), m, Done tt).
Proof.
  induction us as [|u us IH]; intros s m i H R; cbn [insert_each].
  - cbn [app]. rewrite firstn_skipn. destruct s; reflexivity.
  - cbn [length] in R. rewrite insert_roomy by lia. cbn [step].
    assert (L : length (firstn i (kept s)) = i) by (rewrite firstn_length; lia).
    rewrite IH; cbn [kept room].
    + rewrite firstn_app, firstn_all2 by lia. rewrite L. replace (i + 1 - i)%nat with 1%nat by lia. cbn [firstn].
      rewrite skipn_app, skipn_all2 by lia. rewrite L. replace (i + 1 - i)%nat with 1%nat by lia. cbn [skipn app].
      rewrite <- !app_assoc. reflexivity.
    + rewrite app_length. cbn [length]. rewrite L, skipn_length. lia.
    + rewrite app_length. cbn [length]. rewrite L, skipn_length. lia.
Qed.

Lemma append_roomy : forall k s m c, accepted k c -> (length (kept s) + length (encode1 (encoding_of k) c) <= room s)%nat ->
  store_append_code_point k s m c = (Store (kept s ++ encode1 (encoding_of k) c) (room s), m, Done tt).
Proof.
  intros k s m c A R. unfold store_append_code_point. rewrite code_point_each by (now apply valid_accepted).
  rewrite units_encode by assumption. rewrite each_roomy by lia. rewrite firstn_all, skipn_all, app_nil_r. reflexivity.
Qed.

(** The loop of convert_string visits the code points of the text. *)
Lemma loop_visits : forall fuel ko ki s i l result m, visit_from fuel ki s i = (l, Ok tt) -> Forall (accepted ko) l ->
  (length (kept result) + length (units ko l) <= room result)%nat ->
  store_convert_from fuel ko ki s i result m = (Store (kept result ++ units ko l) (room result), m, Done tt).
Proof.
  induction fuel as [|fuel IH]; intros ko ki s i l result m V A R; cbn [visit_from store_convert_from] in *; [discriminate|].
  destruct (Nat.eqb i (length s)).
  - injection V as <-. cbn [units]. change (units ko []) with (@nil N). rewrite app_nil_r. destruct result; reflexivity.
  - destruct (deref ki s i) as [c| | | |]; try discriminate.
    destruct (advance ki s i) as [i' [[]| | | |]]; try discriminate.
    destruct (visit_from fuel ki s i') as [l' r'] eqn:V'. injection V as <- ->. inversion A as [|? ? Ac Al]; subst.
    assert (U : units ko (c :: l') = encode1 (encoding_of ko) c ++ units ko l') by reflexivity.
    rewrite U, app_length in R. rewrite append_roomy by (auto; lia). cbn [step].
    rewrite (IH ko ki s i' l' _ m V' Al); cbn [kept room].
    + rewrite U, app_assoc. reflexivity.
    + rewrite app_length. lia.
Qed.

(* --------------------------------------------------- UnicodeModel.v is the same *)

Definition same (x : store * memory * ending unit) (y : list N * outcome unit) : Prop :=
  match x with
  | (s, _, Done _) => y = (kept s, Ok tt)
  | (s, _, OutOfMemory) => True
  | (s, _, Otherwise o) => y = (kept s, o)
  end.

Lemma same_insert : forall s m i u, same (store_insert s m i u) (str_insert (kept s) i u).
Proof.
  intros s m i u. unfold store_insert, str_insert. destruct (Nat.ltb _ _); [reflexivity|].
  unfold make_room. destruct (Nat.leb _ _); cbn [step]; [reflexivity|]. destruct m as [|[e|] m]; cbn [step same]; auto.
Qed.

Lemma same_step : forall x y f g, same x y -> (forall s m o, x = (s, m, Otherwise o) -> o = Throw OutOfRange) ->
  (forall s m, same (f s m tt) (g (kept s) tt)) -> same (step x f) (then_ y g).
Proof.
  intros [[s m] [[]| |o]] y f g H O F; cbn [step same] in *; [| |].
  - subst y. cbn [then_]. apply F.
  - exact I.
  - specialize (O s m o eq_refl). subst y o. reflexivity.
Qed.

Lemma same_code_point : forall k s m c i, same (store_insert_code_point k s m c i) (insert_code_point k (kept s) c i).
Proof.
  assert (O : forall s m i u s' m' o, store_insert s m i u = (s', m', Otherwise o) -> o = Throw OutOfRange).
  { intros s m i u s' m' o. apply insert_other. }
  assert (O2 : forall s m i u i' u' s' m' o, step (store_insert s m i u) (fun s m _ => store_insert s m i' u') = (s', m', Otherwise o) -> o = Throw OutOfRange).
  { intros s m i u i' u' s' m' o. destruct (store_insert s m i u) as [[s1 m1] [[]| |o1]] eqn:E; cbn [step]; [apply O|discriminate|].
    apply O in E. subst o1. intro H. injection H as _ _ <-. reflexivity. }
  intros k s m c i. destruct k; cbn [store_insert_code_point insert_code_point]; try apply same_insert.
  - destruct (is_code_point_valid c); cbn [negb]; [|reflexivity]. destruct (fits_in_7_bits c); [apply same_insert|].
    destruct (c <=? 0x7FF).
    { apply same_step; [apply same_insert|intros ? ? ?; apply O|intros; apply same_insert]. }
    destruct (c <=? 0xFFFF).
    { apply same_step; [apply same_insert|intros ? ? ?; apply O|intros].
      apply same_step; [apply same_insert|intros ? ? ?; apply O|intros; apply same_insert]. }
    apply same_step; [apply same_insert|intros ? ? ?; apply O|intros].
    apply same_step; [apply same_insert|intros ? ? ?; apply O|intros].
    apply same_step; [apply same_insert|intros ? ? ?; apply O|intros; apply same_insert].
  - destruct (_ && _); [apply same_insert|]. apply same_step; [apply same_insert|intros ? ? ?; apply O|intros; apply same_insert].
  - destruct (_ && _); [apply same_insert|]. apply same_step; [apply same_insert|intros ? ? ?; apply O|intros; apply same_insert].
Qed.

(** Memory runs out only when a request is refused. *)
Lemma insert_used : forall s m i u, match store_insert s m i u with
  | (_, m', OutOfMemory) => In None m
  | (_, m', _) => incl m' m
  end.
Proof.
  intros s m i u. unfold store_insert. destruct (Nat.ltb _ _); [apply incl_refl|].
  unfold make_room. destruct (Nat.leb _ _); cbn [step]; [apply incl_refl|].
  destruct m as [|[e|] m]; cbn [step]; [apply incl_refl|apply incl_tl, incl_refl|now left].
Qed.

Lemma each_used : forall us s m i, match insert_each s m i us with (_, _, OutOfMemory) => In None m | _ => True end.
Proof.
  induction us as [|u us IH]; intros s m i; cbn [insert_each]; [exact I|].
  pose proof (insert_used s m i u) as H. destruct (store_insert s m i u) as [[s1 m1] [[]| |o]]; cbn [step]; auto.
  specialize (IH s1 m1 (i + 1)%nat). destruct (insert_each s1 m1 (i + 1) us) as [[s2 m2] [[]| |o]]; auto.
Qed.

Lemma memory_used : forall k s m c i, match store_insert_code_point k s m c i with (_, _, OutOfMemory) => In None m | _ => True end.
Proof.
  intros k s m c i. destruct (is_code_point_valid c) eqn:V.
  - rewrite code_point_each by auto. apply each_used.
  - destruct k; try (rewrite code_point_each by discriminate; apply each_used).
    cbn [store_insert_code_point]. rewrite V. exact I.
Qed.
