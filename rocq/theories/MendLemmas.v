From Coq Require Import NArith ZArith List Bool Lia.
From Coq Require Import ZifyBool ZifyNat ZifyN.
From Verif Require Import Base Integers ResourceSpec ResourceModel ResourceText FileSpec FileModel FileText.
From Verif Require Import ResourceLemmas ResourceLemmas2 FileLemmas FileLemmas2 FileLemmas3 FileLemmas4 CrashSpec CrashModel CrashLemmas CrashLemmas2
  FileProps CrashProps DiarySpec DiaryText DiaryLemmas RenewSpec RenewLemmas MendSpec MendText.
Import ListNotations.
Open Scope Z_scope.

(** What the calls after the seeks do to a file of bytes l. *)
Definition mend_bytes (n : Z) (l part : list N) : list N := whole n l ++ over (drop (len l / n * n) l) part.

Lemma whole_bound : forall n l, 0 < n -> 0 <= len l / n * n <= len l /\ len l - len l / n * n < n.
Proof.
  intros n l H. pose proof (len_nonneg l). pose proof (Z.div_mod (len l) n ltac:(lia)). pose proof (Z.mod_pos_bound (len l) n H).
  assert (0 <= len l / n) by (apply Z.div_pos; lia). nia.
Qed.
Lemma len_whole : forall n l, 0 < n -> len (whole n l) = len l / n * n.
Proof. intros n l H. pose proof (whole_bound n l H). unfold whole. rewrite len_take by lia. lia. Qed.
Lemma whole_rest : forall n l, whole n l ++ drop (len l / n * n) l = l.
Proof. intros. apply take_drop. Qed.
Lemma len_rest : forall n l, 0 < n -> len (drop (len l / n * n) l) < n.
Proof.
  intros n l H. pose proof (f_equal len (whole_rest n l)) as E. rewrite len_app, len_whole in E by exact H. pose proof (whole_bound n l H). lia.
Qed.
Lemma whole_split : forall n a t, 0 < n -> len a mod n = 0 -> len t < n -> whole n (a ++ t) = a.
Proof.
  intros n a t H M T. unfold whole. pose proof (Z.div_mod (len a) n ltac:(lia)) as D. pose proof (len_nonneg t).
  assert (E : len (a ++ t) / n * n = len a).
  { rewrite len_app. rewrite D, M, Z.add_0_r. rewrite (Z.mul_comm n), Z.div_add_l by lia. rewrite (Z.div_small (len t)) by lia. lia. }
  rewrite E. apply take_app_exact.
Qed.
Lemma mend_split : forall n l part, 0 < n -> exists tail, mend_bytes n l part = whole n l ++ whole n part ++ tail /\ len tail < n.
Proof.
  intros n l part H. unfold mend_bytes. pose proof (len_rest n l H) as R. set (rest := drop (len l / n * n) l) in *.
  destruct (Z_lt_le_dec (len part) n) as [S|S].
  - exists (over rest part). assert (W : whole n part = []).
    { unfold whole. rewrite Z.div_small by (pose proof (len_nonneg part); lia). apply take_0. }
    rewrite W. split; [reflexivity|]. rewrite len_over. lia.
  - rewrite over_longer by lia. exists (drop (len part / n * n) part). split; [now rewrite whole_rest|now apply len_rest].
Qed.

Lemma mends_bytes : forall n cs l, 0 < n -> Forall logs cs -> file_bytes l (mends n (len l) cs) = mend_bytes n l (written cs).
Proof.
  intros n cs l H F. unfold file_bytes, mends. cbn [file_calls file_call bytes file_target].
  pose proof (save_effect cs (whole n l) (drop (len l / n * n) l) F) as E. rewrite whole_rest, len_whole in E by exact H.
  destruct (file_calls (Store l (len l / n * n)) cs) as [s a]. cbn [fst] in *. now rewrite E.
Qed.
Lemma mend_nothing : forall n l, mend_bytes n l [] = l.
Proof. intros n l. unfold mend_bytes, over. cbn [app]. change (len []) with 0. rewrite drop_0. apply whole_rest. Qed.
Lemma begins_mends : forall n X cs l, 0 < n -> begins X (mends n (len l) cs) -> Forall logs cs ->
  file_bytes l X = mend_bytes n l (written X) /\ exists r, written cs = written X ++ r.
Proof.
  intros n X cs l H B F. unfold mends in B. inversion B as [| |c part t Bp]; subst.
  - split; [rewrite mend_nothing; reflexivity|now exists (written cs)].
  - inversion Bp as [| |c part' t Bp']; subst.
    + split; [change (written [SetPosition 0 End]) with (@nil N); rewrite mend_nothing; reflexivity|now exists (written cs)].
    + destruct (begins_logs _ _ Bp' F) as [I1 [r I2]]. split; [|now exists r]. exact (mends_bytes n part' l H I1).
Qed.

Lemma mends_allowed : forall most cap n cs l, 0 < n -> Forall logs cs -> Forall (fun c => len (written [c]) <= most) cs ->
  len (l ++ written cs) < 2 ^ 63 -> all_file_allowed most cap (Store l 0) Resting (mends n (len l) cs).
Proof.
  intros most cap n cs l H F M L. unfold mends. cbn [all_file_allowed file_allowed file_call fst file_target bytes].
  rewrite len_app in L. pose proof (len_nonneg l). pose proof (len_nonneg (written cs)). pose proof (whole_bound n l H).
  split; [split; [lia|discriminate]|]. split; [split; [lia|discriminate]|].
  pose proof (saves_allowed most cap cs (whole n l) (drop (len l / n * n) l)
    (next_stage cap (next_stage cap Resting (SetPosition 0 End)) (SetPosition (len l / n * n) Begin)) F M) as A.
  rewrite whole_rest, len_app, len_whole in A by exact H. apply A; [lia|].
  unfold next_stage. destruct (cap =? 0); discriminate.
Qed.
Lemma mends_permitted : forall m n s cs, mode_writes m = true -> Forall logs cs -> Forall (fun c => permits m c = true) (mends n s cs).
Proof. intros m n s cs W F. constructor; [reflexivity|]. constructor; [reflexivity|]. now apply saves_permitted. Qed.

(** The program is told the size of the file. *)
Lemma told_size : forall pl w q l m cap f, disk w q = Some l \/ disk w q = None /\ Create = Create /\ l = [] -> len l < 2 ^ 63 ->
  obliging w -> Z.of_nat cap <= chunk_max pl -> new_file pl w q m Create cap = Ok f -> told pl f = Ok (len l).
Proof.
  intros pl w q l m cap f D L B C E.
  destruct (C64_as_bytes_partial pl w q l m Create cap [SetPosition 0 End] D L B C) as (g & g' & g'' & F1 & F2 & F3 & _).
  - repeat constructor.
  - cbn [all_file_allowed file_allowed file_target bytes]. pose proof (len_nonneg l). split; [split; [lia|discriminate]|exact I].
  - rewrite E in F1. injection F1 as <-. unfold told. rewrite F2. cbn [bind]. rewrite F3. cbn. f_equal. lia.
Qed.

(** One run. *)
Lemma one_mend : forall pl q n cap d r d' l, 0 < n -> mended pl q n cap d r d' -> holds_log d q l -> Z.of_nat cap <= chunk_max pl ->
  Forall logs (does r) -> Forall (fun c => len (written [c]) <= chunk_max pl) (does r) -> len (l ++ written (does r)) < 2 ^ 63 ->
  exists part, survives (Z.of_nat cap) r part /\ holds_log d' q (mend_bytes n l part) /\ forall x, x <> q -> d' x = d x.
Proof.
  intros pl q n cap d r d' l Hn Lv Hl Hc Hg Hm Hs.
  assert (Ll : len l < 2 ^ 63) by (rewrite len_app in Hs; pose proof (len_nonneg (written (does r))); lia).
  assert (Op : forall w, disk w = d -> disk w q = Some l \/ disk w q = None /\ Create = Create /\ l = []).
  { intros w <-. destruct Hl as [E|[E ->]]; [now left|right; auto]. }
  destruct Lv as [cs|w m s cs cs1 c cs2 f f' f'' a b tries d' Ew B W E0 E1 Et E2 E3 K|w m s cs f f' f'' a tries d' Ew B W E1 Et E2 E3 K|w m s cs f f' f'' a Ew B W E1 Et E2 E3];
    unfold survives; cbn [does returned finished] in *;
    try (rewrite (told_size pl w q l m cap f (Op w Ew) Ll B Hc E1) in Et; injection Et as <-).
  - exists []. split; [|split; [now rewrite mend_nothing|reflexivity]]. exists 0. pose proof (len_nonneg (written cs)). split; [lia|].
    split; [reflexivity|]. split; [discriminate|]. split; [intros [|? ?] ? X; discriminate|]. cbn. lia.
  - assert (A : all_file_allowed (chunk_max pl) (Z.of_nat cap) (Store l 0) Resting (cs1 ++ [c])).
    { apply allowed_begin with cs2. rewrite <- app_assoc. cbn [app]. rewrite <- E0. now apply mends_allowed. }
    assert (P : Forall (fun c => permits m c = true) (cs1 ++ [c])).
    { pose proof (mends_permitted m n (len l) cs W Hg) as P. rewrite E0 in P. change (c :: cs2) with ([c] ++ cs2) in P. rewrite app_assoc in P.
      now apply Forall_app in P. }
    destruct (C128_torn pl w q l m Create cap cs1 c (Op w Ew) Ll B Hc P A) as (g & g' & g'' & a' & tries' & F1 & F2 & F3 & F4).
    rewrite E1 in F1. injection F1 as <-. rewrite E2 in F2. injection F2 as <- _. rewrite E3 in F3. injection F3 as <- <- <-.
    destruct (F4 d' K) as (F5 & kept & lost & part & (M1 & M2 & M3) & Bg & F6). clear F4.
    assert (BX : begins (kept ++ part) (mends n (len l) cs)).
    { rewrite E0, M1. change (c :: cs2) with ([c] ++ cs2). rewrite app_assoc, <- (app_assoc kept). apply begins_more. now apply begins_kept. }
    destruct (begins_mends _ _ _ l Hn BX Hg) as [G1 [rest G2]]. rewrite G1 in F6.
    exists (written (kept ++ part)). split; [|split; [left; exact F6|]; subst d; exact F5].
    destruct (prefix_take _ _ _ G2) as [T1 T2]. exists (len (written (kept ++ part))). split; [exact T2|]. split; [exact T1|].
    split; [discriminate|]. rewrite written_app, len_app. pose proof (len_nonneg (written part)). pose proof (len_nonneg (written kept)).
    assert (T : written (tl (tl cs1)) = written cs1).
    { unfold mends in E0. destruct cs1 as [|c0 [|c1 cs1]]; [reflexivity|injection E0 as <- _; reflexivity|injection E0 as <- <- _; reflexivity]. }
    split.
    + intros x y Hxy. destruct cs1 as [|c0 [|c1 cs1]]; cbn [tl] in Hxy; [destruct x; discriminate|destruct x; discriminate|]. subst cs1.
      destruct (flush_kept (c0 :: c1 :: x) y kept lost) as [b' ->]; [exact M1|exact M2|].
      unfold mends in E0. injection E0 as <- <- _.
      change (SetPosition 0 End :: SetPosition (len l / n * n) Begin :: x) with ([SetPosition 0 End; SetPosition (len l / n * n) Begin] ++ x).
      rewrite <- app_assoc, !written_app, !len_app. change (len (written [SetPosition 0 End; SetPosition (len l / n * n) Begin])) with 0.
      pose proof (len_nonneg (written (Flush :: b'))). lia.
    + rewrite T, M1, written_app, len_app. lia.
  - pose proof (mends_allowed (chunk_max pl) (Z.of_nat cap) n cs l Hn Hg Hm Hs) as A. pose proof (mends_permitted m n (len l) cs W Hg) as P.
    destruct (C128_closing pl w q l m Create cap (mends n (len l) cs) (Op w Ew) Ll B Hc P A) as (g & g' & g'' & tries' & F1 & F2 & F3 & _ & F4).
    rewrite E1 in F1. injection F1 as <-. rewrite E2 in F2. injection F2 as <- _. rewrite E3 in F3. injection F3 as <- <-.
    destruct (F4 true d' K) as (F5 & _ & kept & lost & part & (M1 & M2 & M3) & Bg & F6). clear F4.
    assert (BX : begins (kept ++ part) (mends n (len l) cs)) by (rewrite M1; now apply begins_kept).
    destruct (begins_mends _ _ _ l Hn BX Hg) as [G1 [rest G2]]. rewrite G1 in F6.
    exists (written (kept ++ part)). split; [|split; [left; exact F6|]; subst d; exact F5].
    destruct (prefix_take _ _ _ G2) as [T1 T2]. exists (len (written (kept ++ part))). split; [exact T2|]. split; [exact T1|].
    split; [discriminate|]. rewrite written_app, len_app. pose proof (len_nonneg (written part)). pose proof (len_nonneg (written kept)).
    assert (Ew' : written (mends n (len l) cs) = written cs) by reflexivity. split.
    + intros x y Hxy. subst cs. destruct (flush_kept (SetPosition 0 End :: SetPosition (len l / n * n) Begin :: x) y kept lost) as [b' ->]; [exact M1|exact M2|].
      change (SetPosition 0 End :: SetPosition (len l / n * n) Begin :: x) with ([SetPosition 0 End; SetPosition (len l / n * n) Begin] ++ x).
      rewrite <- app_assoc, !written_app, !len_app. change (len (written [SetPosition 0 End; SetPosition (len l / n * n) Begin])) with 0.
      pose proof (len_nonneg (written (Flush :: b'))). lia.
    + rewrite <- Ew', M1, written_app, len_app. lia.
  - pose proof (mends_allowed (chunk_max pl) (Z.of_nat cap) n cs l Hn Hg Hm Hs) as A. pose proof (mends_permitted m n (len l) cs W Hg) as P.
    destruct (C64_as_bytes_partial pl w q l m Create cap (mends n (len l) cs) (Op w Ew) Ll B Hc P A) as (g & g' & g'' & F1 & F2 & _ & _ & F3 & _ & F4 & F5).
    rewrite E1 in F1. injection F1 as <-. rewrite E2 in F2. injection F2 as <- _. rewrite E3 in F3. injection F3 as <-.
    fold (file_bytes l (mends n (len l) cs)) in F4. rewrite (mends_bytes n cs l Hn Hg) in F4.
    exists (written cs). split; [|split; [left; exact F4|]; subst d; exact F5].
    pose proof (len_nonneg (written cs)). exists (len (written cs)). split; [lia|]. split; [rewrite take_all by lia; reflexivity|].
    split; [reflexivity|]. split; [|lia]. intros x y ->. rewrite written_app, len_app. pose proof (len_nonneg (written (Flush :: y))). lia.
Qed.
