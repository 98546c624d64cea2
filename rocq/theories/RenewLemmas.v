From Coq Require Import NArith ZArith List Bool Lia.
From Coq Require Import ZifyBool ZifyNat ZifyN.
From Verif Require Import Base Integers ResourceSpec ResourceModel ResourceText FileSpec FileModel FileText.
From Verif Require Import ResourceLemmas ResourceLemmas2 FileLemmas FileLemmas2 FileLemmas3 FileLemmas4 CrashSpec CrashModel CrashLemmas CrashLemmas2
  FileProps CrashProps DiarySpec DiaryText DiaryLemmas RenewSpec RenewText.
Import ListNotations.
Open Scope Z_scope.

Lemma put_within : forall x y d, put (x ++ y) (len x) d = x ++ d ++ drop (len d) y.
Proof.
  intros x y [|b d]; [now cbn [put app]; rewrite drop_0|]. unfold put. set (e := b :: d). rewrite take_app_exact.
  assert (Z0 : zeros (len x - len (x ++ y)) = []).
  { rewrite len_app. pose proof (len_nonneg y). unfold zeros. replace (Z.to_nat (len x - (len x + len y))) with 0%nat by lia. reflexivity. }
  rewrite Z0. cbn [app]. rewrite drop_app_r by (pose proof (len_nonneg e); lia).
  replace (len x + len e - len x) with (len e) by lia. reflexivity.
Qed.

Lemma save_effect : forall cs x y, Forall logs cs ->
  fst (file_calls (Store (x ++ y) (len x)) cs) = Store (x ++ over y (written cs)) (len (x ++ written cs)).
Proof.
  induction cs as [|c cs IH]; intros x y H; [cbn; now rewrite app_nil_r|].
  inversion H as [|? ? Hc Hcs]; subst. cbn [file_calls].
  destruct c as [| d| | | |]; try contradiction; cbn [file_call at_ bytes].
  - rewrite put_within, <- len_app, app_assoc. specialize (IH (x ++ d) (drop (len d) y) Hcs).
    destruct (file_calls (Store ((x ++ d) ++ drop (len d) y) (len (x ++ d))) cs) as [s a].
    cbn [fst] in *. rewrite IH. change (written (Write d :: cs)) with (d ++ written cs). unfold over.
    rewrite drop_drop by apply len_nonneg. rewrite !len_app, <- !app_assoc, <- !Z.add_assoc. reflexivity.
  - specialize (IH x y Hcs). destruct (file_calls (Store (x ++ y) (len x)) cs) as [s a]. cbn [fst] in *. rewrite IH. reflexivity.
Qed.

Lemma save_bytes : forall cs l, Forall logs cs -> file_bytes l cs = over l (written cs).
Proof. intros cs l H. unfold file_bytes. pose proof (save_effect cs [] l H) as E. cbn [app] in E. change (len []) with 0 in E. now rewrite E. Qed.

Lemma begins_save : forall X cs l, begins X cs -> Forall logs cs ->
  file_bytes l X = over l (written X) /\ exists r, written cs = written X ++ r.
Proof. intros X cs l B H. destruct (begins_logs _ _ B H) as [I1 I2]. split; [now apply save_bytes|exact I2]. Qed.

Lemma saves_allowed : forall most cap cs x y p, Forall logs cs -> Forall (fun c => len (written [c]) <= most) cs ->
  len (x ++ written cs) < 2 ^ 63 -> p <> InReads -> all_file_allowed most cap (Store (x ++ y) (len x)) p cs.
Proof.
  intros most cap. induction cs as [|c cs IH]; intros x y p H M L P; [exact I|]. inversion H as [|? ? Hc Hcs]; subst.
  inversion M as [|? ? Mc Mcs]; subst. cbn [all_file_allowed]. destruct c as [|d| | | |]; try contradiction; cbn [file_allowed file_call fst bytes at_].
  - change (written (Write d :: cs)) with (d ++ written cs) in L. cbn [written flat_map] in Mc. rewrite app_nil_r in Mc.
    split; [split; [exact P|]; split; [exact Mc|]; rewrite !len_app in L; pose proof (len_nonneg (written cs)); lia|].
    rewrite put_within, <- len_app, app_assoc. apply IH; auto; [now rewrite <- app_assoc|].
    unfold next_stage. destruct (cap =? 0); discriminate.
  - split; [exact I|]. apply IH; auto. unfold next_stage. destruct (cap =? 0); [discriminate|]. destruct p; congruence.
Qed.

Lemma saves_permitted : forall m cs, mode_writes m = true -> Forall logs cs -> Forall (fun c => permits m c = true) cs.
Proof. intros m cs W H. pose proof (appends_permitted m cs W H) as P. now inversion P. Qed.

(** One run. *)
Lemma one_save : forall pl q cap d r d' l, saves_as pl q cap d r d' -> holds_log d q l -> Z.of_nat cap <= chunk_max pl ->
  Forall logs (does r) -> Forall (fun c => len (written [c]) <= chunk_max pl) (does r) -> len l < 2 ^ 63 -> len (written (does r)) < 2 ^ 63 ->
  exists part, survives (Z.of_nat cap) r part /\ holds_log d' q (over l part) /\ forall x, x <> q -> d' x = d x.
Proof.
  intros pl q cap d r d' l Lv Hl Hc Hg Hm Ll Hs.
  assert (Op : forall w, disk w = d -> disk w q = Some l \/ disk w q = None /\ Create = Create /\ l = []).
  { intros w <-. destruct Hl as [E|[E ->]]; [now left|right; auto]. }
  destruct Lv as [cs|w m cs cs1 c cs2 f f' f'' a b tries d' Ew B W E0 E1 E2 E3 K|w m cs f f' f'' a tries d' Ew B W E1 E2 E3 K|w m cs f f' f'' a Ew B W E1 E2 E3];
    unfold survives; cbn [does returned finished] in *.
  - exists []. split; [|split; [exact Hl|reflexivity]]. exists 0. pose proof (len_nonneg (written cs)). split; [lia|].
    split; [reflexivity|]. split; [discriminate|]. split; [intros [|? ?] ? X; discriminate|]. cbn. lia.
  - assert (A : all_file_allowed (chunk_max pl) (Z.of_nat cap) (Store l 0) Resting (cs1 ++ [c])).
    { apply allowed_begin with cs2. rewrite <- app_assoc. cbn [app]. rewrite <- E0. apply (saves_allowed _ _ cs [] l); auto. discriminate. }
    assert (P : Forall (fun c => permits m c = true) (cs1 ++ [c])).
    { pose proof (saves_permitted m cs W Hg) as P. rewrite E0 in P. change (c :: cs2) with ([c] ++ cs2) in P. rewrite app_assoc in P.
      now apply Forall_app in P. }
    destruct (C128_torn pl w q l m Create cap cs1 c (Op w Ew) Ll B Hc P A) as (g & g' & g'' & a' & tries' & F1 & F2 & F3 & F4).
    rewrite E1 in F1. injection F1 as <-. rewrite E2 in F2. injection F2 as <- _. rewrite E3 in F3. injection F3 as <- <- <-.
    destruct (F4 d' K) as (F5 & kept & lost & part & (M1 & M2 & M3) & Bg & F6). clear F4.
    assert (BX : begins (kept ++ part) cs).
    { rewrite E0, M1. change (c :: cs2) with ([c] ++ cs2). rewrite app_assoc, <- (app_assoc kept). apply begins_more. now apply begins_kept. }
    destruct (begins_save _ _ l BX Hg) as [G1 [rest G2]]. rewrite G1 in F6.
    exists (written (kept ++ part)). split; [|split; [left; exact F6|]; subst d; exact F5].
    destruct (prefix_take _ _ _ G2) as [T1 T2]. exists (len (written (kept ++ part))). split; [exact T2|]. split; [exact T1|].
    split; [discriminate|]. rewrite written_app, len_app. pose proof (len_nonneg (written part)). pose proof (len_nonneg (written kept)). split.
    + intros x y Hxy. destruct (flush_kept x y kept lost) as [b' ->]; [congruence|exact M2|].
      rewrite written_app, len_app. pose proof (len_nonneg (written (Flush :: b'))). lia.
    + rewrite M1, written_app, len_app. lia.
  - pose proof (saves_allowed (chunk_max pl) (Z.of_nat cap) cs [] l Resting Hg Hm Hs ltac:(discriminate)) as A. pose proof (saves_permitted m cs W Hg) as P.
    destruct (C128_closing pl w q l m Create cap cs (Op w Ew) Ll B Hc P A) as (g & g' & g'' & tries' & F1 & F2 & F3 & _ & F4).
    rewrite E1 in F1. injection F1 as <-. rewrite E2 in F2. injection F2 as <- _. rewrite E3 in F3. injection F3 as <- <-.
    destruct (F4 true d' K) as (F5 & _ & kept & lost & part & (M1 & M2 & M3) & Bg & F6). clear F4.
    assert (BX : begins (kept ++ part) cs) by (rewrite M1; now apply begins_kept).
    destruct (begins_save _ _ l BX Hg) as [G1 [rest G2]]. rewrite G1 in F6.
    exists (written (kept ++ part)). split; [|split; [left; exact F6|]; subst d; exact F5].
    destruct (prefix_take _ _ _ G2) as [T1 T2]. exists (len (written (kept ++ part))). split; [exact T2|]. split; [exact T1|].
    split; [discriminate|]. rewrite written_app, len_app. pose proof (len_nonneg (written part)). pose proof (len_nonneg (written kept)). split.
    + intros x y Hxy. destruct (flush_kept x y kept lost) as [b' ->]; [congruence|exact M2|].
      rewrite written_app, len_app. pose proof (len_nonneg (written (Flush :: b'))). lia.
    + rewrite M1, written_app, len_app. lia.
  - pose proof (saves_allowed (chunk_max pl) (Z.of_nat cap) cs [] l Resting Hg Hm Hs ltac:(discriminate)) as A. pose proof (saves_permitted m cs W Hg) as P.
    destruct (C64_as_bytes_partial pl w q l m Create cap cs (Op w Ew) Ll B Hc P A) as (g & g' & g'' & F1 & F2 & _ & _ & F3 & _ & F4 & F5).
    rewrite E1 in F1. injection F1 as <-. rewrite E2 in F2. injection F2 as <- _. rewrite E3 in F3. injection F3 as <-.
    fold (file_bytes l cs) in F4. rewrite (save_bytes cs l Hg) in F4.
    exists (written cs). split; [|split; [left; exact F4|]; subst d; exact F5].
    pose proof (len_nonneg (written cs)). exists (len (written cs)). split; [lia|]. split; [rewrite take_all by lia; reflexivity|].
    split; [reflexivity|]. split; [|lia]. intros x y ->. rewrite written_app, len_app. pose proof (len_nonneg (written (Flush :: y))). lia.
Qed.

Lemma len_over : forall old new, len (over old new) = Z.max (len old) (len new).
Proof.
  intros old new. unfold over. rewrite len_app. pose proof (len_nonneg new). pose proof (len_nonneg old).
  pose proof (take_drop (len new) old) as T. apply (f_equal len) in T. rewrite len_app, len_take in T by lia. lia.
Qed.
Lemma over_longer : forall old new, len old <= len new -> over old new = new.
Proof. intros old new H. unfold over. rewrite drop_all by exact H. apply app_nil_r. Qed.
Lemma survives_short : forall cap r part, survives cap r part -> len part <= len (written (does r)).
Proof. intros cap r part (k & K & -> & _). rewrite len_take by lia. lia. Qed.
Lemma len_all_over : forall news old n, len old <= n -> Forall (fun new => len new <= n) news -> len (all_over old news) <= n.
Proof.
  induction news as [|new news IH]; intros old n L F; [exact L|]. inversion F; subst. unfold all_over. cbn [fold_left].
  apply IH; [rewrite len_over; lia|assumption].
Qed.
