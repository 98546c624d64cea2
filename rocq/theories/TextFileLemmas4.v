(** Copying a text from one file to another. *)
From Coq Require Import NArith ZArith List Bool Lia ZifyBool ZifyNat ZifyN.
From Verif Require Import Base Integers UnicodeSpec UnicodeModel UnicodeText UnicodeLemmas UnicodeLemmas2 UnicodeLemmas3
  NumeralSpec NumberModel NumberText NumberLemmas NumberProps
  ResourceSpec ResourceModel ResourceText ResourceLemmas StreamSpec StreamModel StreamText StreamLemmas StreamLemmas2 StreamLemmas3 StreamLemmas4
  FileSpec FileModel FileText FileLemmas FileLemmas2 FileLemmas3 FileLemmas4 FileLemmas6
  TextFileSpec TextFileModel TextFileText TextFileLemmas TextFileLemmas2 TextFileLemmas3.
Import ListNotations.
Open Scope Z_scope.

Lemma source_keeps : forall (R : Type) sure (ops : source R) biggest left (Inv : R -> Prop), text_source sure ops biggest left ->
  (forall r block n r' b k, source_read ops r block n = Ok (r', b, k) -> Inv r -> Inv r') ->
  text_source sure ops biggest (fun rest r => left rest r /\ Inv r).
Proof.
  intros R sure ops biggest left Inv G K. split.
  - intros rest r block n [L V] B M. destruct (ts_read _ _ _ _ G _ _ _ _ L B M) as (r' & d & E & P & L' & Sd).
    exists r', d. split; [exact E|]. split; [exact P|]. split; [|exact Sd]. split; [exact L'|]. exact (K _ _ _ _ _ _ E V).
  - intros rest r [L _]. exact (ts_at_end _ _ _ _ G _ _ L).
Qed.

Lemma sink_keeps : forall (R : Type) (ops : sink R) limit got (Inv : R -> Prop), good_sink ops limit got ->
  (forall r d r' k, sink_write ops r d = Ok (r', k) -> Inv r -> Inv r') ->
  (forall r r', sink_flush ops r = Ok r' -> Inv r -> Inv r') ->
  good_sink ops limit (fun b r => got b r /\ Inv r).
Proof.
  intros R ops limit got Inv G K Kf. split.
  - intros b r d [H V] L. destruct (gk_write _ _ _ G _ _ _ H L) as (r' & k & E & H').
    exists r', k. split; [exact E|]. split; [exact H'|]. exact (K _ _ _ _ E V).
  - intros b r [H V]. destruct (gk_flush _ _ _ G _ _ H) as (r' & E & H'). exists r'. split; [exact E|]. split; [exact H'|]. exact (Kf _ _ E V).
Qed.

Lemma source_read_tame : forall pl f block n f' b k, source_read (file_source pl) f block n = Ok (f', b, k) ->
  tame (inner (res f)) (inner (res f')).
Proof.
  intros pl f block n f' b k E. cbn [file_source source_read] in E.
  destruct (file_read pl f block n) as [[f1 r]| | | |] eqn:E1; cbn [returned bind] in E; try discriminate.
  destruct r as [[b1 k1]|x]; cbn [bind] in E; [|discriminate].
  assert (X : f1 = f') by congruence. subst f1.
  assert (C : call_file pl f (ResourceSpec.Read block n) = Ok (f', Returned (Got b1 k1))) by (cbn [call_file]; rewrite E1; reflexivity).
  exact (proj1 (call_file_tame _ _ _ _ _ C)).
Qed.

Lemma sink_write_tame : forall pl f d f' k, sink_write (file_sink pl) f d = Ok (f', k) -> tame (inner (res f)) (inner (res f')).
Proof.
  intros pl f d f' k E. cbn [file_sink sink_write] in E.
  destruct (file_write pl f d) as [[f1 r]| | | |] eqn:E1; cbn [returned bind] in E; try discriminate.
  destruct r as [k1|x]; [|discriminate]. assert (X : f1 = f') by congruence. subst f1.
  assert (C : call_file pl f (ResourceSpec.Write d) = Ok (f', Returned (Wrote k1))) by (cbn [call_file]; rewrite E1; reflexivity).
  exact (proj1 (call_file_tame _ _ _ _ _ C)).
Qed.

Lemma in_world_twice : forall w w' f, in_world w (in_world w' f) = in_world w f.
Proof. intros w w' [[[? ? ?] ?] ? ?]. reflexivity. Qed.

Lemma in_world_os : forall w f, os (inner (res (in_world w f))) = w.
Proof. reflexivity. Qed.

Lemma in_world_descriptor : forall w f, descriptor (inner (res (in_world w f))) = descriptor (inner (res f)).
Proof. reflexivity. Qed.

(** What one file does leaves the other as it is. *)
Lemma left_beside : forall Pr pl cap q m others c rest f w k, file_left Pr pl cap q m others c rest f ->
  descriptor (inner (res f)) = Some k -> table w k = table (os (inner (res f))) k -> disk w q = disk (os (inner (res f))) q ->
  Forall Pr (script w) -> file_left Pr pl cap q m (disk w) c rest (in_world w f).
Proof.
  intros Pr pl cap q m others c rest f w k (p & s & K & Pa & Pw & Bs & At & Dr & _) D T DK S.
  exists p, s. split; [exact (keeps_in_world _ _ _ _ _ _ _ _ _ _ K D T DK)|].
  split; [exact Pa|]. auto.
Qed.

Lemma got_beside : forall pl cap q m others l0 p0 b f w k, file_got pl cap q m others l0 p0 b f ->
  descriptor (inner (res f)) = Some k -> table w k = table (os (inner (res f))) k -> disk w q = disk (os (inner (res f))) q ->
  obliging w -> file_got pl cap q m (disk w) l0 p0 b (in_world w f).
Proof.
  intros pl cap q m others l0 p0 b f w k (p & K & Pa & Pr & _) D T DK S.
  exists p. split; [exact (keeps_in_world _ _ _ _ _ _ _ _ _ _ K D T DK)|]. auto.
Qed.

Lemma left_name : forall Pr pl cap q m others c rest f, file_left Pr pl cap q m others c rest f ->
  option_map (fun x => file_name (snd x)) (lookup (os (inner (res f))) (descriptor (inner (res f)))) = Some q.
Proof. intros Pr pl cap q m others c rest f (p & s & K & _). exact (keeps_name _ _ _ _ _ _ _ _ K). Qed.

Lemma got_name : forall pl cap q m others l0 p0 b f, file_got pl cap q m others l0 p0 b f ->
  option_map (fun x => file_name (snd x)) (lookup (os (inner (res f))) (descriptor (inner (res f)))) = Some q.
Proof. intros pl cap q m others l0 p0 b f (p & K & _). exact (keeps_name _ _ _ _ _ _ _ _ K). Qed.

Definition all_full (r : response) : Prop := r = InFull.

(** Both files, in state w of the operating system. *)
Definition both (pl : platform) (cap1 cap2 : Z) (q r : N) (c old b : list N) (rest : list N) (w0 w : world) (f g : file) : Prop :=
  (exists others, file_left all_full pl cap1 q ReadOnly others c rest (in_world w f)) /\
  (exists others, file_got pl cap2 r WriteOnly others old 0 b (in_world w g)) /\
  (exists k1 k2, descriptor (inner (res f)) = Some k1 /\ descriptor (inner (res g)) = Some k2 /\ k1 <> k2) /\
  obliging w /\ (forall x, x <> q -> x <> r -> disk w x = disk w0 x).

Lemma both_read : forall pl native cap1 cap2 q r c old b w0 w f g e o x l, q <> r -> Z.of_nat (unit_width e) <= file_biggest pl cap1 ->
  both pl cap1 cap2 q r c old b (text_bytes e o (x :: l)) w0 w f g -> Forall scalar (x :: l) ->
  exists i y l', read_filtered_code_point (order_of native) (file_source pl) (TextInput (in_world w f) (order_of o) (form_of e)) = Ok (i, y) /\
    filtered (x :: l) = y :: filtered l' /\ Forall scalar l' /\ (length l' <= length l)%nat /\
    in_order_ i = order_of o /\ in_form i = form_of e /\
    both pl cap1 cap2 q r c old b (text_bytes e o l') w0 (os (inner (res (in_res i)))) (in_res i) g.
Proof.
  intros pl native cap1 cap2 q r c old b w0 w f g e o x l Qr W ((ot1 & Lf) & (ot2 & Hg) & (k1 & k2 & D1 & D2 & Dk) & B & Ot) S.
  set (s0 := inner (res (in_world w f))).
  assert (G : text_source True (file_source pl) (file_biggest pl cap1)
    (fun rest f => file_left all_full pl cap1 q ReadOnly ot1 c rest f /\ tame s0 (inner (res f)))).
  { apply source_keeps; [apply file_text_source; [apply sound_full|reflexivity]|].
    intros f1 block n f2 b1 k E T. eapply tame_trans; [exact T|exact (source_read_tame _ _ _ _ _ _ _ E)]. }
  destruct (gives_true _ _ _ (filtered_gives True native _ _ _ G e o (length l) x l (TextInput (in_world w f) (order_of o) (form_of e))
    (conj (conj (conj Lf (tame_refl s0)) (conj eq_refl eq_refl)) (conj S (le_n _))) W))
    as ([i y] & E & l' & Ef & ((Lf' & T) & Oi & Fi) & S' & Ln).
  exists i, y, l'. split; [exact E|]. split; [exact Ef|]. split; [exact S'|]. split; [lia|]. split; [exact Oi|]. split; [exact Fi|].
  destruct T as [Td (_ & _ & T2 & T3 & _)]. unfold s0 in *. rewrite (left_name _ _ _ _ _ _ _ _ _ Lf) in T2.
  rewrite in_world_descriptor in Td, T3. rewrite in_world_os in T2, T3.
  assert (Bi : obliging (os (inner (res (in_res i))))) by (destruct Lf' as (? & ? & ? & ? & ? & ? & ? & ? & X); exact X).
  split; [exists ot1; rewrite in_world_id; exact Lf'|]. split; [|split; [|split; [exact Bi|]]].
  - exists (disk (os (inner (res (in_res i))))). rewrite <- (in_world_twice _ w). eapply got_beside; [exact Hg|exact D2| | |exact Bi];
      rewrite in_world_os; [apply T3; congruence|apply T2; congruence].
  - exists k1, k2. rewrite Td. auto.
  - intros y' H1 H2. rewrite T2 by congruence. now apply Ot.
Qed.

Lemma len_encode1 : forall e o y, len (unit_bytes e o (encode1 e y)) <= 4.
Proof.
  intros e o y. rewrite len_unit_bytes. destruct e; cbn [encode1 unit_width]; unfold utf8_of, utf16_of, utf32_of;
    repeat match goal with |- context [if ?b then _ else _] => destruct b end; vm_compute; discriminate.
Qed.

Lemma both_write : forall pl native cap1 cap2 q r c old b w0 w f g e o y rest, q <> r -> StreamText.writable e y ->
  len b + 4 < 2 ^ 63 ->
  both pl cap1 cap2 q r c old b rest w0 w f g ->
  exists out, write_code_point (order_of native) (file_sink pl) (TextOutput (in_world w g) (order_of o) (form_of e)) y = Ok out /\
    out_order out = order_of o /\ out_form out = form_of e /\
    both pl cap1 cap2 q r c old (b ++ text_bytes e o [y]) rest w0 (os (inner (res (out_res out)))) f (out_res out).
Proof.
  intros pl native cap1 cap2 q r c old b w0 w f g e o y rest Qr Wr L ((ot1 & Lf) & (ot2 & Hg) & (k1 & k2 & D1 & D2 & Dk) & B & Ot).
  set (s0 := inner (res (in_world w g))). pose proof (len_nonneg b).
  pose proof (file_rebase _ _ _ _ _ _ _ _ _ Hg) as Hg0.
  assert (G : good_sink (file_sink pl) (most pl (0 + len b))
    (fun b' f => file_got pl cap2 r WriteOnly ot2 (put old 0 b) (0 + len b) b' f /\ tame s0 (inner (res f)))).
  { apply sink_keeps; [apply file_good_sink; [reflexivity|lia]| |].
    - intros f1 d f2 k E T. eapply tame_trans; [exact T|exact (sink_write_tame _ _ _ _ _ E)].
    - intros f1 f2 E T. eapply tame_trans; [exact T|exact (proj1 (file_flush_tame _ _ _ E))]. }
  pose proof (len_encode1 e o y) as Ly.
  destruct (write_code_point_ok native (file_sink pl) _ _ G e o [] y (TextOutput (in_world w g) (order_of o) (form_of e)) Wr)
    as (out & E & (Hg' & T) & Oo & Fo).
  { split; [exact (conj Hg0 (tame_refl s0))|split; reflexivity]. }
  { cbn [app]. unfold most. assert (4 <= chunk_max pl) by (destruct pl; vm_compute; discriminate). lia. }
  exists out. split; [exact E|]. split; [exact Oo|]. split; [exact Fo|]. cbn [app] in Hg'.
  destruct T as [Td (_ & _ & T2 & T3 & _)]. unfold s0 in *. rewrite (got_name _ _ _ _ _ _ _ _ _ Hg) in T2.
  rewrite in_world_descriptor in Td, T3. rewrite in_world_os in T2, T3.
  assert (Bo : obliging (os (inner (res (out_res out))))) by (destruct Hg' as (? & ? & ? & ? & X); exact X).
  split; [|split; [|split; [|split; [exact Bo|]]]].
  - exists (disk (os (inner (res (out_res out))))). rewrite <- (in_world_twice _ w). eapply left_beside; [exact Lf|exact D1| | |exact Bo];
      rewrite in_world_os; [apply T3; congruence|apply T2; congruence].
  - exists ot2. rewrite in_world_id. destruct Hg' as (p & K & R). exists p. rewrite put_app in K by lia.
    assert (One : text_bytes e o [y] = unit_bytes e o (encode1 e y)).
    { rewrite text_bytes_cons. change (text_bytes e o []) with (@nil N). apply app_nil_r. }
    rewrite One, len_app, Z.add_assoc. auto.
  - exists k1, k2. rewrite Td. auto.
  - intros y' H1 H2. rewrite T2 by congruence. now apply Ot.
Qed.

Lemma copy_characters_ok : forall pl native cap1 cap2 q r c old e1 o1 e2 o2 w0, q <> r ->
  Z.of_nat (unit_width e1) <= file_biggest pl cap1 ->
  forall n l b fuel w f g, (length l <= n)%nat -> (n < fuel)%nat -> Forall scalar l -> Forall (StreamText.writable e2) (filtered l) ->
  both pl cap1 cap2 q r c old b (text_bytes e1 o1 l) w0 w f g -> len (b ++ text_bytes e2 o2 (filtered l)) + 4 < 2 ^ 63 ->
  exists w' i out, copy_characters pl (order_of native) fuel w (TextInput f (order_of o1) (form_of e1)) (TextOutput g (order_of o2) (form_of e2))
      = Ok (w', i, out) /\
    both pl cap1 cap2 q r c old (b ++ text_bytes e2 o2 (filtered l)) [] w0 w' (in_res i) (out_res out).
Proof.
  intros pl native cap1 cap2 q r c old e1 o1 e2 o2 w0 Qr W. induction n as [|n IH]; intros l b fuel w f g Ln Lf S Wr H L;
    (destruct fuel as [|fuel]; [lia|]); cbn [copy_characters in_res in_order_ in_form];
    pose proof H as ((ot1 & Hl) & _);
    pose proof (ts_at_end _ _ _ _ (file_text_source _ True pl cap1 q ReadOnly ot1 c (sound_full pl True) eq_refl) _ _ Hl) as At;
    unfold text_at_end; cbn [in_res]; rewrite At; cbn [bind]; (destruct l as [|x l]; [|rewrite text_bytes_ne]).
  1, 3: change (text_bytes e2 o2 (filtered [])) with (@nil N); rewrite app_nil_r;
    change (len (text_bytes e1 o1 []) =? 0) with true; cbn iota; eexists w, _, _; (split; [reflexivity|]); cbn [in_res out_res];
    (destruct H as ((ot1' & H1) & H2); split; [exists ot1'; rewrite in_world_twice; exact H1|exact H2]).
  1: cbn in Ln; lia.
  cbn [length] in Ln.
  destruct (both_read pl native cap1 cap2 q r c old b w0 w f g e1 o1 x l Qr W H S) as (i & y & l' & E & Ef & S' & Ln' & Oi & Fi & H').
  rewrite E. cbn [bind]. rewrite Ef in *. inversion Wr as [|? ? Wy Wr']; subst.
  change (y :: filtered l') with ([y] ++ filtered l') in L |- *. rewrite text_bytes_app, app_assoc in L |- *.
  unfold with_res. cbn [out_res out_order out_form].
  assert (Lb : len b + 4 < 2 ^ 63).
  { rewrite !len_app in L. pose proof (len_nonneg (text_bytes e2 o2 [y])). pose proof (len_nonneg (text_bytes e2 o2 (filtered l'))). lia. }
  destruct (both_write pl native cap1 cap2 q r c old b w0 _ _ g e2 o2 y _ Qr Wy Lb H') as (out & E2 & Oo & Fo & H2).
  rewrite E2. cbn [bind].
  replace i with (TextInput (in_res i) (order_of o1) (form_of e1)) by (destruct i; cbn in *; congruence).
  replace out with (TextOutput (out_res out) (order_of o2) (form_of e2)) by (destruct out; cbn in *; congruence).
  exact (IH l' _ fuel _ _ _ ltac:(lia) ltac:(lia) S' Wr' H2 L).
Qed.

Lemma close_table : forall pl f f' k k2, file_close pl f = Ok f' -> descriptor (inner (res f)) = Some k -> k2 <> k ->
  table (os (inner (res f'))) k2 = table (os (inner (res f))) k2.
Proof.
  intros pl f f' k k2 E D K. unfold file_close in E. destruct (file_flush pl f) as [f3| | | |] eqn:FF; cbn [bind noexcept] in E; try discriminate.
  destruct (file_flush_tame _ _ _ FF) as ([T1 (_ & _ & _ & T2 & _)] & _). injection E as <-.
  cbn [with_sys res inner os]. rewrite T1, D. cbn [sys_close set_handle table]. rewrite set_other by congruence. apply T2. congruence.
Qed.

Lemma copy_text_file_ok : forall pl native w q r how cap1 cap2 e1 o1 e2 o2 l old fuel, q <> r ->
  disk w q = Some (text_bytes e1 o1 l) -> len (text_bytes e1 o1 l) < 2 ^ 63 -> will_open w r how old -> len old < 2 ^ 63 -> obliging w ->
  Z.of_nat cap1 <= chunk_max pl -> Z.of_nat cap2 <= chunk_max pl -> wide_enough cap1 e1 ->
  Forall scalar l -> Forall (StreamText.writable e2) (filtered l) -> (length l < fuel)%nat ->
  len (text_bytes e2 o2 (filtered l)) + 4 < 2 ^ 63 ->
  exists w', copy_text_file pl w q r how cap1 cap2 (order_of native) e1 o1 e2 o2 fuel = Ok w' /\
    disk w' r = Some (put old 0 (text_bytes e2 o2 (filtered l))) /\ (forall x, x <> r -> disk w' x = disk w x).
Proof.
  intros pl native w q r how cap1 cap2 e1 o1 e2 o2 l old fuel Qr D L Wo Lo B C1 C2 W S Wr F L2. unfold copy_text_file.
  destruct (opened_left all_full pl w q cap1 ReadOnly (text_bytes e1 o1 l) D L (obliging_now w B) B C1) as (f & E1 & Lf).
  rewrite E1. cbn [bind].
  destruct (new_file_frame _ _ _ _ _ _ _ E1) as [F1 F2]. pose proof Lf as (px & sx & K1 & _ & _ & _ & _ & _ & B1).
  destruct (descriptor (inner (res f))) as [k1|] eqn:DF; [|pose proof (keeps_open _ _ _ _ _ _ _ _ K1) as X; unfold is_open in X; rewrite DF in X; discriminate].
  destruct F2 as (F2 & F3 & _ & _ & F4 & _).
  destruct (new_file_opens pl (os (inner (res f))) r old WriteOnly how cap2) as (g & E2 & Pg & B2 & K2); try assumption.
  { rewrite F1 by congruence. exact Wo. }
  rewrite E2. cbn [bind].
  destruct (new_file_frame _ _ _ _ _ _ _ E2) as [G1 G2].
  destruct (descriptor (inner (res g))) as [k2|] eqn:DG; [|pose proof (keeps_open _ _ _ _ _ _ _ _ K2) as X; unfold is_open in X; rewrite DG in X; discriminate].
  destruct G2 as (G2 & _ & _ & G3 & _ & _). assert (KK : k1 <> k2) by lia.
  assert (H : both pl (Z.of_nat cap1) (Z.of_nat cap2) q r (text_bytes e1 o1 l) old [] (text_bytes e1 o1 l) w (os (inner (res g))) f g).
  { split; [|split; [|split; [|split; [exact B2|]]]].
    - eexists. eapply left_beside; [exact Lf|exact DF|now apply G3|now apply G1|exact B2].
    - exists (disk (os (inner (res f)))). rewrite in_world_id. exists Resting. rewrite put_nil. split; [exact K2|]. split; [exact Pg|]. split; [discriminate|exact B2].
    - exists k1, k2. auto.
    - intros x X1 X2. rewrite G1, F1 by assumption. reflexivity. }
  destruct (copy_characters_ok pl native _ _ q r _ old e1 o1 e2 o2 w Qr (file_biggest_wide pl cap1 e1 W C1) (length l) l [] fuel _ f g
    (le_n _) F S Wr H L2) as (w' & i & out & E & (ot1 & Lf') & (ot2 & Hg) & (j1 & j2 & D1 & D2 & Dj) & Bw & Ot).
  rewrite E. cbn [bind app] in *. unfold text_flush, with_res. cbn [out_res].
  destruct (gk_flush _ _ _ (file_good_sink pl (Z.of_nat cap2) r WriteOnly ot2 old 0 eq_refl (Z.le_refl 0)) _ _ Hg) as (g2 & Eg & Hg2).
  rewrite Eg. cbn [bind noexcept out_res].
  destruct Hg2 as (pp & Kg & Pa2 & Pr2 & Bg).
  destruct (close_file pl (Z.of_nat cap2) r WriteOnly ot2 pp _ g2 Kg Bg (fun _ => eq_refl)) as (g3 & E3 & _ & D3 & O3 & _ & B3 & _).
  unfold destroy at 1. rewrite E3. cbn [bind].
  destruct (file_flush_tame _ _ _ Eg) as ([T1 (_ & _ & T2 & T3 & _)] & _).
  rewrite in_world_descriptor in T1, T3. rewrite in_world_os in T3.
  assert (Og : forall x, x <> r -> disk (os (inner (res g3))) x = disk w' x).
  { intros x X. change (disk_of g3 x = disk w' x). rewrite O3 by assumption.
    destruct Hg as (? & [[_ _ _ _ _ Ox _] _] & _). symmetry. now apply Ox. }
  assert (Lf3 : file_left all_full pl (Z.of_nat cap1) q ReadOnly (disk (os (inner (res g3)))) (text_bytes e1 o1 l) [] (in_world (os (inner (res g3))) (in_res i))).
  { rewrite <- (in_world_twice _ w'). eapply left_beside; [exact Lf'|exact D1| | |exact B3]; rewrite in_world_os.
    - rewrite (close_table _ _ _ j2 j1 E3); [apply T3; congruence|congruence|exact Dj].
    - now apply Og. }
  destruct Lf3 as (p & s & K' & _ & Pw & Bs & _).
  destruct (close_reader pl _ q ReadOnly _ p s _ K' Pw) as (f' & E' & D' & O' & _).
  unfold destroy. rewrite E'. cbn [bind]. eexists. split; [reflexivity|]. unfold disk_of in *. split.
  - rewrite O' by congruence. exact D3.
  - intros x X. destruct (N.eq_dec x q) as [->|Xq]; [rewrite D', Bs; symmetry; exact D|].
    rewrite O', Og by assumption. now apply Ot.
Qed.
