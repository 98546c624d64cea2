From Coq Require Import NArith ZArith List Bool Lia.
From Coq Require Import ZifyBool ZifyNat ZifyN.
From Verif Require Import Base Integers ResourceSpec ResourceModel ResourceText FileSpec FileModel FileText.
From Verif Require Import ResourceLemmas ResourceLemmas2 FileLemmas FileLemmas2 FileLemmas3 FileLemmas4 CrashSpec CrashModel CrashLemmas CrashLemmas2
  FileProps CrashProps DiarySpec DiaryText.
Import ListNotations.
Open Scope Z_scope.

Lemma put_at_end : forall l d, put l (len l) d = l ++ d.
Proof.
  intros l [|x d]; [cbn; now rewrite app_nil_r|]. unfold put. rewrite take_all by lia. rewrite Z.sub_diag. cbn [zeros Z.to_nat repeat app].
  unfold zeros. cbn [Z.to_nat repeat app]. f_equal. unfold drop. rewrite skipn_all2; [now rewrite app_nil_r|].
  unfold len. pose proof (len_nonneg (x :: d)). lia.
Qed.

Lemma log_effect : forall cs l, Forall logs cs ->
  fst (file_calls (Store l (len l)) cs) = Store (l ++ written cs) (len (l ++ written cs)).
Proof.
  induction cs as [|c cs IH]; intros l H; [cbn; now rewrite app_nil_r|]. inversion H as [|? ? Hc Hcs]; subst. cbn [file_calls].
  destruct c as [| d| | | |]; try contradiction; cbn [file_call at_ bytes].
  - rewrite put_at_end, <- len_app. specialize (IH (l ++ d) Hcs). destruct (file_calls (Store (l ++ d) (len (l ++ d))) cs) as [s a].
    cbn [fst] in *. rewrite IH. cbn [written flat_map]. fold (written cs). now rewrite <- app_assoc.
  - specialize (IH l Hcs). destruct (file_calls (Store l (len l)) cs) as [s a]. cbn [fst] in *. rewrite IH. reflexivity.
Qed.

Lemma appends_bytes : forall cs l, Forall logs cs -> file_bytes l (appends cs) = l ++ written cs.
Proof.
  intros cs l H. unfold file_bytes, appends. cbn [file_calls file_call bytes file_target]. rewrite Z.add_0_r.
  pose proof (log_effect cs l H) as E. destruct (file_calls (Store l (len l)) cs) as [s a]. cbn [fst] in *. now rewrite E.
Qed.

(** What begins such a history. *)
Lemma begins_logs : forall X cs, begins X cs -> Forall logs cs -> Forall logs X /\ exists r, written cs = written X ++ r.
Proof.
  intros X cs B. induction B as [cs|d e cs|c part cs B IH]; intro H.
  - split; [constructor|]. now exists (written cs).
  - split; [constructor; [exact I|constructor]|]. exists (e ++ written cs). cbn [written flat_map]. fold (written cs).
    now rewrite app_nil_r, <- app_assoc.
  - inversion H as [|? ? Hc Hcs]; subst. destruct (IH Hcs) as [I1 [r I2]]. split; [now constructor|]. exists r.
    unfold written. cbn [flat_map]. fold (written cs). fold (written part). rewrite I2. now rewrite app_assoc.
Qed.

Lemma begins_appends : forall X cs l, begins X (appends cs) -> Forall logs cs ->
  file_bytes l X = l ++ written X /\ exists r, written cs = written X ++ r.
Proof.
  intros X cs l B H. unfold appends in B. inversion B as [| |c part t Bp]; subst.
  - split; [unfold file_bytes; cbn; now rewrite app_nil_r|]. now exists (written cs).
  - destruct (begins_logs _ _ Bp H) as [I1 [r I2]]. split; [|now exists r]. apply (appends_bytes part l I1).
Qed.

Lemma begins_kept : forall a X b, begins X b -> begins (a ++ X) (a ++ b).
Proof. induction a as [|c a IH]; intros X b H; [exact H|]. cbn [app]. constructor. now apply IH. Qed.

(** A flush that returned is among the calls that are kept. *)
Lemma flush_kept : forall a b kept lost, a ++ Flush :: b = kept ++ lost -> Forall (fun c => ~ saves c) lost ->
  exists b', kept = a ++ Flush :: b'.
Proof.
  intros a b kept lost E F. apply app_eq_app in E as (x & [[E1 E2]|[E1 E2]]).
  - exfalso. subst lost. apply Forall_app in F as [_ F]. inversion F as [|? ? Fc _]. apply Fc. exact I.
  - destruct x as [|c x].
    + exfalso. cbn in E2. subst lost. inversion F as [|? ? Fc _]. apply Fc. exact I.
    + injection E2 as <- _. now exists x.
Qed.

(** The program is one the theorems on files allow. *)
Lemma logs_allowed : forall most cap cs l p, Forall logs cs -> Forall (fun c => len (written [c]) <= most) cs ->
  len (l ++ written cs) < 2 ^ 63 -> p <> InReads -> all_file_allowed most cap (Store l (len l)) p cs.
Proof.
  intros most cap. induction cs as [|c cs IH]; intros l p H M L P; [exact I|]. inversion H as [|? ? Hc Hcs]; subst.
  inversion M as [|? ? Mc Mcs]; subst. cbn [all_file_allowed]. destruct c as [|d| | | |]; try contradiction; cbn [file_allowed file_call fst bytes at_].
  - cbn [written flat_map] in Mc, L. fold (written cs) in L. rewrite app_nil_r in Mc.
    split; [split; [exact P|]; split; [exact Mc|]; rewrite !len_app in L; pose proof (len_nonneg (written cs)); lia|].
    rewrite put_at_end, <- len_app. apply IH; auto; [now rewrite <- app_assoc|].
    unfold next_stage. destruct (cap =? 0); discriminate.
  - split; [exact I|]. apply IH; auto. unfold next_stage. destruct (cap =? 0); [discriminate|]. destruct p; congruence.
Qed.

Lemma appends_allowed : forall most cap cs l, Forall logs cs -> Forall (fun c => len (written [c]) <= most) cs ->
  len (l ++ written cs) < 2 ^ 63 -> all_file_allowed most cap (Store l 0) Resting (appends cs).
Proof.
  intros most cap cs l H M L. unfold appends. cbn [all_file_allowed file_allowed file_call fst file_target bytes].
  rewrite Z.add_0_r. rewrite len_app in L. pose proof (len_nonneg l). pose proof (len_nonneg (written cs)).
  split; [split; [lia|discriminate]|]. apply logs_allowed; auto; [rewrite len_app; lia|]. unfold next_stage. destruct (cap =? 0); discriminate.
Qed.

Lemma allowed_begin : forall most cap a b s p, all_file_allowed most cap s p (a ++ b) -> all_file_allowed most cap s p a.
Proof.
  induction a as [|c a IH]; intros b s p H; [exact I|]. cbn [app all_file_allowed] in *. destruct H as [H1 H2]. split; [exact H1|].
  now apply IH with b.
Qed.

Lemma appends_permitted : forall m cs, mode_writes m = true -> Forall logs cs -> Forall (fun c => permits m c = true) (appends cs).
Proof.
  intros m cs W H. constructor; [reflexivity|]. induction H as [|c cs Hc H IH]; constructor; auto.
  destruct c; try contradiction; [|reflexivity]. destruct m; try discriminate; reflexivity.
Qed.

Lemma prefix_take : forall a b r, a = b ++ r -> b = take (len b) a /\ 0 <= len b <= len a.
Proof.
  intros a b r ->. split; [symmetry; apply take_app_exact|]. rewrite len_app. pose proof (len_nonneg b). pose proof (len_nonneg r). lia.
Qed.

(** One run. *)
Lemma one_run : forall pl q cap d r d' l, leaves pl q cap d r d' -> holds_log d q l -> Z.of_nat cap <= chunk_max pl ->
  Forall logs (does r) -> Forall (fun c => len (written [c]) <= chunk_max pl) (does r) -> len (l ++ written (does r)) < 2 ^ 63 ->
  exists part, survives (Z.of_nat cap) r part /\ holds_log d' q (l ++ part) /\ forall x, x <> q -> d' x = d x.
Proof.
  intros pl q cap d r d' l Lv Hl Hc Hg Hm Hs.
  assert (Ll : len l < 2 ^ 63) by (rewrite len_app in Hs; pose proof (len_nonneg (written (does r))); lia).
  assert (Op : forall w, disk w = d -> disk w q = Some l \/ disk w q = None /\ Create = Create /\ l = []).
  { intros w <-. destruct Hl as [E|[E ->]]; [now left|right; auto]. }
  destruct Lv as [cs|w m cs cs1 c cs2 f f' f'' a b tries d' Ew B W E0 E1 E2 E3 K|w m cs f f' f'' a tries d' Ew B W E1 E2 E3 K|w m cs f f' f'' a Ew B W E1 E2 E3];
    unfold survives; cbn [does returned finished] in *.
  - exists []. split; [|split; [now rewrite app_nil_r|reflexivity]]. exists 0. pose proof (len_nonneg (written cs)). split; [lia|].
    split; [reflexivity|]. split; [discriminate|]. split; [intros [|? ?] ? X; discriminate|]. cbn. lia.
  - assert (A : all_file_allowed (chunk_max pl) (Z.of_nat cap) (Store l 0) Resting (cs1 ++ [c])).
    { apply allowed_begin with cs2. rewrite <- app_assoc. cbn [app]. rewrite <- E0. now apply appends_allowed. }
    assert (P : Forall (fun c => permits m c = true) (cs1 ++ [c])).
    { pose proof (appends_permitted m cs W Hg) as P. rewrite E0 in P. change (c :: cs2) with ([c] ++ cs2) in P. rewrite app_assoc in P.
      now apply Forall_app in P. }
    destruct (C128_torn pl w q l m Create cap cs1 c (Op w Ew) Ll B Hc P A) as (g & g' & g'' & a' & tries' & F1 & F2 & F3 & F4).
    rewrite E1 in F1. injection F1 as <-. rewrite E2 in F2. injection F2 as <- _. rewrite E3 in F3. injection F3 as <- <- <-.
    destruct (F4 d' K) as (F5 & kept & lost & part & (M1 & M2 & M3) & Bg & F6). clear F4.
    assert (BX : begins (kept ++ part) (appends cs)).
    { rewrite E0, M1. change (c :: cs2) with ([c] ++ cs2). rewrite app_assoc, <- (app_assoc kept). apply begins_more. now apply begins_kept. }
    destruct (begins_appends _ _ l BX Hg) as [G1 [rest G2]]. rewrite G1 in F6.
    exists (written (kept ++ part)). split; [|split; [left; exact F6|]; subst d; exact F5].
    destruct (prefix_take _ _ _ G2) as [T1 T2]. exists (len (written (kept ++ part))). split; [exact T2|]. split; [exact T1|].
    split; [discriminate|]. rewrite written_app, len_app. pose proof (len_nonneg (written part)). pose proof (len_nonneg (written kept)). split.
    + intros x y Hxy. destruct cs1 as [|c0 cs1]; cbn [tl] in Hxy; [destruct x; discriminate|]. subst cs1.
      destruct (flush_kept (c0 :: x) y kept lost) as [b' ->]; [exact M1|exact M2|].
      rewrite written_app, len_app in *. unfold appends in E0. injection E0 as <- E0. cbn [written flat_map app] in *. fold (written x) in *.
      pose proof (len_nonneg (flat_map (fun c1 => match c1 with Write d0 => d0 | _ => [] end) b')). lia.
    + assert (T : len (written (tl cs1)) <= len (written cs1)).
      { destruct cs1 as [|c0 cs1]; [cbn; lia|]. change (c0 :: cs1) with ([c0] ++ cs1). rewrite written_app, len_app. cbn [tl app].
        pose proof (len_nonneg (written [c0])). lia. }
      rewrite M1, written_app, len_app in T. rewrite <- M1 in T. lia.
  - pose proof (appends_allowed (chunk_max pl) (Z.of_nat cap) cs l Hg Hm Hs) as A. pose proof (appends_permitted m cs W Hg) as P.
    destruct (C128_closing pl w q l m Create cap (appends cs) (Op w Ew) Ll B Hc P A) as (g & g' & g'' & tries' & F1 & F2 & F3 & _ & F4).
    rewrite E1 in F1. injection F1 as <-. rewrite E2 in F2. injection F2 as <- _. rewrite E3 in F3. injection F3 as <- <-.
    destruct (F4 true d' K) as (F5 & _ & kept & lost & part & (M1 & M2 & M3) & Bg & F6). clear F4.
    assert (BX : begins (kept ++ part) (appends cs)) by (rewrite M1; now apply begins_kept).
    destruct (begins_appends _ _ l BX Hg) as [G1 [rest G2]]. rewrite G1 in F6.
    exists (written (kept ++ part)). split; [|split; [left; exact F6|]; subst d; exact F5].
    destruct (prefix_take _ _ _ G2) as [T1 T2]. exists (len (written (kept ++ part))). split; [exact T2|]. split; [exact T1|].
    split; [discriminate|]. rewrite written_app, len_app. pose proof (len_nonneg (written part)). pose proof (len_nonneg (written kept)).
    assert (Ew' : written (appends cs) = written cs) by reflexivity. split.
    + intros x y Hxy. subst cs. destruct (flush_kept (SetPosition 0 End :: x) y kept lost) as [b' ->]; [exact M1|exact M2|].
      rewrite written_app, len_app. cbn [written flat_map app]. fold (written x).
      pose proof (len_nonneg (flat_map (fun c1 => match c1 with Write d0 => d0 | _ => [] end) b')). lia.
    + rewrite <- Ew', M1, written_app, len_app. lia.
  - pose proof (appends_allowed (chunk_max pl) (Z.of_nat cap) cs l Hg Hm Hs) as A. pose proof (appends_permitted m cs W Hg) as P.
    destruct (C64_as_bytes_partial pl w q l m Create cap (appends cs) (Op w Ew) Ll B Hc P A) as (g & g' & g'' & F1 & F2 & _ & _ & F3 & _ & F4 & F5).
    rewrite E1 in F1. injection F1 as <-. rewrite E2 in F2. injection F2 as <- _. rewrite E3 in F3. injection F3 as <-.
    fold (file_bytes l (appends cs)) in F4. rewrite (appends_bytes cs l Hg) in F4.
    exists (written cs). split; [|split; [left; exact F4|]; subst d; exact F5].
    pose proof (len_nonneg (written cs)). exists (len (written cs)). split; [lia|]. split; [rewrite take_all by lia; reflexivity|].
    split; [reflexivity|]. split; [|lia]. intros x y ->. rewrite written_app, len_app. pose proof (len_nonneg (written (Flush :: y))). lia.
Qed.
