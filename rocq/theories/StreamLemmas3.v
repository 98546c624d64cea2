(** Lines and words of a text, byte order marks, and writing text. *)
From Coq Require Import NArith ZArith List Bool Lia ZifyBool ZifyNat ZifyN.
From Verif Require Import Base Integers UnicodeSpec UnicodeModel UnicodeText UnicodeLemmas UnicodeLemmas2 UnicodeLemmas3
  ResourceSpec ResourceModel ResourceLemmas StreamSpec StreamModel StreamText StreamLemmas StreamLemmas2.
Import ListNotations.
Open Scope Z_scope.

(* ------------------------------------------------------- carriage returns *)

Lemma filtered_cr : forall d l, filtered (13%N :: d :: l) = d :: filtered l.
Proof. reflexivity. Qed.
Lemma filtered_other : forall c l, c <> 13%N -> filtered (c :: l) = c :: filtered l.
Proof. intros c l H. cbn [filtered]. now rewrite (proj2 (N.eqb_neq c 13) H). Qed.

Lemma filtered_none : forall l, ~ In 13%N l -> filtered l = l.
Proof.
  induction l as [|c l IH]; intro H; [reflexivity|].
  rewrite filtered_other by (intros ->; apply H; now left). rewrite IH; [reflexivity|].
  intro X. apply H. now right.
Qed.

Lemma filtered_in : forall n l, (length l <= n)%nat -> forall x, In x (filtered l) -> In x l.
Proof.
  induction n as [|n IH]; intros l Hn x H; (destruct l as [|c l]; [assumption|cbn [length] in Hn]); [lia|].
  destruct (N.eq_dec c 13) as [->|N].
  - destruct l as [|d l]; [assumption|]. rewrite filtered_cr in H. cbn [length] in Hn. destruct H as [<-|H].
    + right. now left.
    + right. right. apply (IH l); [lia|assumption].
  - rewrite filtered_other in H by assumption. destruct H as [<-|H]; [now left|]. right. apply (IH l); [lia|assumption].
Qed.

Lemma filtered_forall : forall (P : N -> Prop) l, Forall P l -> Forall P (filtered l).
Proof.
  intros P l H. apply Forall_forall. intros x I. rewrite Forall_forall in H. apply H.
  now apply (filtered_in (length l) l).
Qed.

Lemma filtered_nil : forall l, filtered l = [] -> l = [].
Proof.
  intros [|c l] H; [reflexivity|]. exfalso. destruct (N.eq_dec c 13) as [->|N].
  - destruct l; discriminate.
  - rewrite filtered_other in H by assumption. discriminate.
Qed.

Lemma paired_tail : forall c l, carriage_returns_paired (c :: l) -> carriage_returns_paired l.
Proof. intros c l H. exact (proj2 H). Qed.

Lemma first_line_filtered : forall n l, (length l <= n)%nat -> carriage_returns_paired l -> forall a b,
  first_line l = (a, b) -> upto_lf (filtered l) = (a, filtered b) /\ carriage_returns_paired b.
Proof.
  induction n as [|n IH]; intros l Hn P a b E; (destruct l as [|c l]; [cbn in E; injection E as <- <-; split; reflexivity|cbn [length] in Hn]); [lia|].
  destruct (N.eq_dec c 13) as [->|N13].
  - destruct l as [|d l].
    + cbn in E. injection E as <- <-. cbn. auto.
    + destruct P as [P1 P2]. specialize (P1 eq_refl). cbn in P1. subst d.
      cbn in E. injection E as <- <-. rewrite filtered_cr. cbn [upto_lf N.eqb Pos.eqb]. split; [reflexivity|].
      exact (paired_tail _ _ P2).
  - rewrite filtered_other by assumption. cbn [upto_lf].
    cbn [first_line] in E. destruct (N.eqb_spec c 10) as [->|N10].
    + injection E as <- <-. split; [reflexivity|]. exact (paired_tail _ _ P).
    + rewrite (proj2 (N.eqb_neq c 13) N13) in E. cbn [andb] in E.
      assert (E' : exists a', a = c :: a' /\ first_line l = (a', b)).
      { destruct l as [|d l]; [injection E as <- <-; now exists []|].
        destruct (first_line (d :: l)) as [a' b'] eqn:F. injection E as <- <-. now exists a'. }
      destruct E' as (a' & -> & E').
      destruct (IH l ltac:(lia) (paired_tail _ _ P) a' b E') as [U P']. rewrite U. auto.
Qed.

Lemma lines_filtered : forall l ls, lines_of l ls -> carriage_returns_paired l -> lf_lines (filtered l) ls.
Proof.
  intros l ls H. induction H as [|l a b ls Ne E H IH]; intro P; [constructor|].
  destruct (first_line_filtered (length l) l (le_n _) P a b E) as [U P'].
  econstructor; [intro X; apply Ne; now apply filtered_nil|exact U|now apply IH].
Qed.

Lemma lf_lines_exist : forall n l, (length l <= n)%nat -> exists ls, lf_lines l ls.
Proof.
  induction n as [|n IH]; intros l Hn; (destruct l as [|c l]; [exists []; constructor|cbn [length] in Hn]); [lia|].
  destruct (upto_lf (c :: l)) as [a b] eqn:U.
  assert (L : (length b <= length l)%nat).
  { assert (X : forall l a b, upto_lf l = (a, b) -> (length b <= length l)%nat).
    { clear. induction l as [|c l IH]; intros a b E; cbn [upto_lf] in E.
      - injection E as <- <-. cbn. lia.
      - destruct (c =? 10)%N; [injection E as <- <-; cbn; lia|].
        destruct (upto_lf l) as [x y]. injection E as <- <-. specialize (IH x y eq_refl). cbn. lia. }
    cbn [upto_lf] in U. destruct (c =? 10)%N; [injection U as <- <-; lia|].
    destruct (upto_lf l) as [x y] eqn:V. injection U as <- <-. now apply (X l x y). }
  destruct (IH b ltac:(lia)) as [ls H]. exists (a :: ls). econstructor; [discriminate|exact U|exact H].
Qed.

Lemma lines_exist : forall n l, (length l <= n)%nat -> exists ls, lines_of l ls.
Proof.
  induction n as [|n IH]; intros l Hn; (destruct l as [|c l]; [exists []; constructor|]); [cbn in Hn; lia|].
  destruct (first_line (c :: l)) as [a b] eqn:U.
  assert (L : (length b <= length l)%nat).
  { assert (X : forall n l a b, (length l <= n)%nat -> first_line l = (a, b) -> (length b <= length l - 1)%nat).
    { clear. induction n as [|n IH]; intros l a b Hn E; (destruct l as [|c l]; [cbn in E; injection E as <- <-; cbn; lia|]); [cbn in Hn; lia|].
      cbn [first_line] in E. cbn [length] in *. destruct (c =? 10)%N; [injection E as <- <-; lia|].
      destruct l as [|d l]; [injection E as <- <-; cbn; lia|]. cbn [length] in *.
      destruct ((c =? 13)%N && (d =? 10)%N); [injection E as <- <-; lia|].
      destruct (first_line (d :: l)) as [x y] eqn:V. injection E as <- <-.
      specialize (IH (d :: l) x y ltac:(cbn [length]; lia) V). cbn [length] in IH. lia. }
    pose proof (X _ _ _ _ (le_n _) U) as Y. cbn [length] in Y. lia. }
  cbn [length] in Hn. destruct (IH b ltac:(lia)) as [ls H]. exists (a :: ls). econstructor; [discriminate|exact U|exact H].
Qed.

(* ------------------------------------------------------------------ words *)

Lemma white_true : forall c, white_space c -> is_whitespace c = true.
Proof. intros. now apply whitespace_iff. Qed.
Lemma white_false : forall c, ~ white_space c -> is_whitespace c = false.
Proof. intros c H. destruct (is_whitespace c) eqn:E; [|reflexivity]. elim H. now apply whitespace_iff. Qed.

Lemma filtered_app : forall n s, (length s <= n)%nat -> forall c t, c <> 10%N -> carriage_returns_paired (s ++ c :: t) ->
  filtered (s ++ c :: t) = filtered s ++ filtered (c :: t).
Proof.
  induction n as [|n IH]; intros s Hn c t Hc P; (destruct s as [|d s]; [reflexivity|cbn [length] in Hn]); [lia|].
  cbn [app] in *. destruct (N.eq_dec d 13) as [->|N].
  - destruct s as [|x s].
    + destruct P as [P _]. specialize (P eq_refl). cbn in P. contradiction.
    + cbn [app length] in *. destruct P as [P1 P2]. rewrite !filtered_cr. cbn [app]. f_equal.
      apply (IH s); [lia|assumption|exact (paired_tail _ _ P2)].
  - rewrite !filtered_other by assumption. cbn [app]. f_equal.
    apply (IH s); [lia|assumption|exact (paired_tail _ _ P)].
Qed.

Lemma paired_suffix : forall a b, carriage_returns_paired (a ++ b) -> carriage_returns_paired b.
Proof. induction a as [|c a IH]; intros b H; [assumption|]. apply IH. exact (paired_tail _ _ H). Qed.

Lemma filtered_word : forall w r, Forall (fun c => ~ white_space c) w -> filtered (w ++ r) = w ++ filtered r.
Proof.
  induction w as [|c w IH]; intros r H; [reflexivity|]. inversion H as [|? ? Hc Hw]; subst. cbn [app].
  rewrite filtered_other; [now rewrite IH by assumption|]. intros ->. apply Hc. unfold white_space. lia.
Qed.

Lemma words_filtered : forall l ws, words_of l ws -> carriage_returns_paired l -> words_of (filtered l) ws.
Proof.
  intros l ws H. induction H as [l W|s w r ws Ws Ne Ww Wr H IH]; intro P.
  - constructor. now apply filtered_forall.
  - destruct w as [|c w]; [congruence|]. inversion Ww as [|? ? Hc Hw]; subst.
    assert (C10 : c <> 10%N) by (intros ->; apply Hc; unfold white_space; lia).
    change (s ++ (c :: w) ++ r) with (s ++ c :: (w ++ r)) in *.
    rewrite (filtered_app (length s) s (le_n _) c (w ++ r) C10 P).
    change (c :: w ++ r) with ((c :: w) ++ r). rewrite filtered_word by assumption.
    constructor; try assumption.
    + now apply filtered_forall.
    + intros d t E. destruct r as [|x r]; [discriminate|]. pose proof (Wr x r eq_refl) as Wx.
      destruct (N.eq_dec x 13) as [->|Nx].
      * destruct r as [|y r]; [injection E as <- <-; assumption|]. rewrite filtered_cr in E. injection E as <- <-.
        change (s ++ c :: (w ++ 13%N :: y :: r)) with (s ++ (c :: w) ++ 13%N :: y :: r) in P.
        apply paired_suffix, paired_suffix in P. destruct P as [P _]. specialize (P eq_refl). cbn in P. subst.
        unfold white_space. lia.
      * rewrite filtered_other in E by assumption. injection E as <- <-. assumption.
    + apply IH. apply paired_suffix in P. change (c :: w ++ r) with ((c :: w) ++ r) in P. now apply paired_suffix in P.
Qed.

Lemma skip_white_all : forall l, Forall white_space l -> skip_white l = [].
Proof. induction 1 as [|c l H Hl IH]; [reflexivity|]. cbn [skip_white]. now rewrite white_true. Qed.
Lemma skip_white_app : forall s c l, Forall white_space s -> ~ white_space c -> skip_white (s ++ c :: l) = c :: l.
Proof.
  intros s c l H N. induction H as [|d s Hd Hs IH]; cbn [app skip_white].
  - now rewrite white_false.
  - now rewrite white_true.
Qed.
Lemma upto_white_app : forall w l, Forall (fun c => is_whitespace c = false) w ->
  upto_white (w ++ l) = (w ++ fst (upto_white l), snd (upto_white l)).
Proof.
  intros w l H. induction H as [|c w Hc Hw IH]; cbn [app upto_white]; [now destruct (upto_white l)|].
  rewrite Hc, IH. reflexivity.
Qed.

Lemma words_drop : forall c l ws, white_space c -> words_of (c :: l) ws -> words_of l ws.
Proof.
  intros c l ws Hc H. inversion H as [? W|s w r ws' Ws Ne Ww Wr H' E]; subst.
  - constructor. now inversion W.
  - destruct s as [|d s].
    + destruct w as [|d w]; [congruence|]. cbn [app] in E. injection E as -> <-. inversion Ww; contradiction.
    + cbn [app] in E. injection E as -> <-. constructor; try assumption. now inversion Ws.
Qed.

Lemma words_first : forall m ws, words_of m ws ->
  match ws with
  | [] => skip_white m = []
  | w :: ws => exists rest, upto_white (skip_white m) = (w, rest) /\ words_of rest ws
  end.
Proof.
  intros m ws H. inversion H as [? W|s w r ws' Ws Ne Ww Wr H']; subst; [now apply skip_white_all|].
  assert (Wf : Forall (fun c => is_whitespace c = false) w).
  { eapply Forall_impl; [|exact Ww]. intros; now apply white_false. }
  destruct w as [|c w]; [congruence|]. inversion Ww; subst.
  cbn [app]. rewrite skip_white_app by assumption. change (c :: w ++ r) with ((c :: w) ++ r).
  rewrite upto_white_app by assumption. destruct r as [|d r].
  - cbn. rewrite app_nil_r. eauto.
  - cbn [upto_white]. rewrite white_true by (now apply (Wr d r)). cbn [fst snd]. rewrite app_nil_r.
    exists r. split; [reflexivity|]. apply (words_drop d); [now apply (Wr d r)|assumption].
Qed.

Lemma upto_white_in : forall l x, In x (snd (upto_white l)) -> In x l.
Proof.
  induction l as [|c l IH]; intros x H; [assumption|]. cbn [upto_white] in H. destruct (is_whitespace c); [now right|].
  destruct (upto_white l) as [a b]. right. now apply IH.
Qed.
Lemma skip_white_in : forall l x, In x (skip_white l) -> In x l.
Proof.
  induction l as [|c l IH]; intros x H; [assumption|]. cbn [skip_white] in H. destruct (is_whitespace c); [right; now apply IH|assumption].
Qed.
Lemma upto_lf_in : forall l x, In x (snd (upto_lf l)) -> In x l.
Proof.
  induction l as [|c l IH]; intros x H; [assumption|]. cbn [upto_lf] in H. destruct (c =? 10)%N; [now right|].
  destruct (upto_lf l) as [a b]. right. now apply IH.
Qed.
Lemma forall_sub : forall (P : N -> Prop) a b, (forall x, In x b -> In x a) -> Forall P a -> Forall P b.
Proof. intros P a b H F. apply Forall_forall. intros x I. rewrite Forall_forall in F. auto. Qed.

Fixpoint split_words (l : list N) : list N * list (list N) :=
  match l with
  | [] => ([], [])
  | c :: r =>
      let '(w, ws) := split_words r in
      if is_whitespace c then ([], match w with [] => ws | _ => w :: ws end) else (c :: w, ws)
  end.
Lemma split_words_ok : forall l,
  let '(w, ws) := split_words l in
  Forall (fun c => ~ white_space c) w /\
  exists r, l = w ++ r /\ (forall c t, r = c :: t -> white_space c) /\ words_of r ws.
Proof.
  induction l as [|c l IH]; cbn [split_words].
  - split; [constructor|]. exists []. split; [reflexivity|]. split; [discriminate|]. constructor. constructor.
  - destruct (split_words l) as [w ws]. destruct IH as (W & r & E & Hr & H).
    destruct (is_whitespace c) eqn:Wc.
    + split; [constructor|]. exists (c :: l). split; [reflexivity|]. apply whitespace_iff in Wc.
      split; [intros x t X; injection X as <- <-; assumption|]. subst l. destruct w as [|d w].
      * cbn [app] in *. inversion H as [? Wl|s w r' ws' Ws Ne Ww Wr H' E]; subst.
        -- constructor. now constructor.
        -- change (c :: s ++ w ++ r') with ((c :: s) ++ w ++ r'). constructor; auto.
      * change (c :: (d :: w) ++ r) with ([c] ++ (d :: w) ++ r). constructor; auto. discriminate.
    + split. { constructor; [|assumption]. intro X. apply whitespace_iff in X. congruence. }
      exists r. subst l. auto.
Qed.
Lemma words_exist : forall l, exists ws, words_of l ws.
Proof.
  intro l. pose proof (split_words_ok l) as H. destruct (split_words l) as [w ws]. destruct H as (W & r & -> & Hr & H).
  destruct w as [|c w]; [exists ws; exact H|]. exists ((c :: w) :: ws).
  change ((c :: w) ++ r) with ([] ++ (c :: w) ++ r). constructor; auto. discriminate.
Qed.

(* ---------------------------------------------------- reading, continued *)

Section Reading.
Context {R : Type} (native : byte_order) (ops : source R) (biggest : Z) (left : list N -> R -> Prop).
Context (G : good_source ops biggest left).
Let before := @before R left.

Lemma read_word_ok : forall e o k l fuel st, Forall scalar l -> Forall (insertable k) (filtered l) ->
  before e o (text_bytes e o l) st -> Z.of_nat (unit_width e) <= biggest -> (length l < fuel)%nat ->
  exists st' l', read_word (order_of native) ops fuel k st
      = Ok (st', units k (fst (upto_white (skip_white (filtered l))))) /\
    before e o (text_bytes e o l') st' /\ filtered l' = snd (upto_white (skip_white (filtered l))) /\
    Forall scalar l' /\ (length l' <= length l)%nat.
Proof.
  intros e o k l fuel st S I H B F. unfold read_word.
  destruct (skip_ok native ops biggest left G e o k (length l) l (le_n _) fuel st S I H B F)
    as (st1 & w & l1 & E1 & H1 & Q & N & W & S1 & L1). rewrite E1. cbn [bind].
  assert (I1 : Forall (insertable k) (filtered l1)).
  { apply (forall_sub _ (filtered l)); [|assumption]. intros x X. apply skip_white_in. rewrite Q. apply in_or_app. now right. }
  destruct (take_word_ok native ops biggest left G e o k (length l1) l1 (le_n _) fuel (units k w) st1 S1 I1 H1 B ltac:(lia))
    as (st2 & l2 & E2 & H2 & Q2 & S2 & L2). rewrite E2. exists st2, l2.
  rewrite Q, upto_white_app by assumption. cbn [fst snd]. rewrite units_app.
  split; [reflexivity|]. split; [exact H2|]. repeat split; auto. lia.
Qed.

Lemma byte_ok : forall e o u rest st, before e o (u :: rest) st -> 1 <= biggest ->
  exists st', read_byte (order_of native) ops st = Ok (st', u) /\ before e o rest st'.
Proof.
  intros e o u rest st H B. unfold read_byte.
  destruct (text_read_ok native ops biggest left G e o [u] rest st H) as (st' & E & H'); [cbn; lia|cbn; lia|].
  cbn [length] in E. rewrite E. cbn [bind]. exists st'. split; [|exact H'].
  unfold len. cbn [length]. change (Z.of_nat 1 <? 1) with false. cbn iota. destruct (endian_eqb _ _); reflexivity.
Qed.

Lemma set_before : forall e o rest st o', before e o rest st -> before e o' rest (set_endianness st (order_of o')).
Proof. intros e o rest st o' (L & _ & F). split; [exact L|]. split; [reflexivity|exact F]. Qed.

(** A stream whose resource starts with a byte order mark. *)
Lemma read_utf16_bytes : forall o' a b rest st, before UTF16 o' (a :: b :: rest) st -> 1 <= biggest ->
  exists st', before UTF16 o' rest st' /\ read_utf16_bom (order_of native) ops st =
    if ((a =? 0xFE) && (b =? 0xFF))%N then Ok (set_endianness st' Big, byte_order_mark)
    else if ((a =? 0xFF) && (b =? 0xFE))%N then Ok (set_endianness st' Little, byte_order_mark)
    else
      bind (initialize_utf16_sequence
              (match o' with BigEndian => N.lor (byte_shl a 8) b | LittleEndian => N.lor (byte_shl b 8) a end))
           (fun '(n, v) => finish_utf16_sequence (order_of native) ops n v st').
Proof.
  intros o' a b rest st H B. unfold read_utf16_bom.
  destruct (byte_ok _ _ _ _ _ H B) as (st1 & E1 & H1). rewrite E1. cbn [bind].
  destruct (byte_ok _ _ _ _ _ H1 B) as (st2 & E2 & H2). rewrite E2. cbn [bind].
  exists st2. split; [exact H2|]. destruct H2 as (_ & O & _). rewrite O. destruct o'; reflexivity.
Qed.

Lemma read_utf32_bytes : forall o' a b c d rest st, before UTF32 o' (a :: b :: c :: d :: rest) st -> 1 <= biggest ->
  exists st', before UTF32 o' rest st' /\ read_utf32_bom (order_of native) ops st =
    if ((a =? 0) && (b =? 0) && (c =? 0xFE) && (d =? 0xFF))%N then Ok (set_endianness st' Big, byte_order_mark)
    else if ((a =? 0xFF) && (b =? 0xFE) && (c =? 0) && (d =? 0))%N then Ok (set_endianness st' Little, byte_order_mark)
    else Ok (st',
      match o' with
      | BigEndian => N.lor (N.lor (N.lor (byte_shl a 24) (byte_shl b 16)) (byte_shl c 8)) d
      | LittleEndian => N.lor (N.lor (N.lor (byte_shl d 24) (byte_shl c 16)) (byte_shl b 8)) a
      end).
Proof.
  intros o' a b c d rest st H B. unfold read_utf32_bom.
  destruct (byte_ok _ _ _ _ _ H B) as (st1 & E1 & H1). rewrite E1. cbn [bind].
  destruct (byte_ok _ _ _ _ _ H1 B) as (st2 & E2 & H2). rewrite E2. cbn [bind].
  destruct (byte_ok _ _ _ _ _ H2 B) as (st3 & E3 & H3). rewrite E3. cbn [bind].
  destruct (byte_ok _ _ _ _ _ H3 B) as (st4 & E4 & H4). rewrite E4. cbn [bind].
  exists st4. split; [exact H4|]. destruct H4 as (_ & O & _). rewrite O. destruct o'; reflexivity.
Qed.

Lemma read_bom_marked : forall e o o' l st, before e o' (text_bytes e o (byte_order_mark :: l)) st ->
  Z.of_nat (unit_width e) <= biggest ->
  exists st', read_bom (order_of native) ops st = Ok (st', byte_order_mark) /\
    before e (match e with UTF8 => o' | _ => o end) (text_bytes e o l) st'.
Proof.
  intros e o o' l st H B. assert (B1 : 1 <= biggest) by (destruct e; cbn in B; lia).
  pose proof H as (_ & _ & F). unfold read_bom. rewrite F.
  rewrite text_bytes_cons in H. destruct e; cbn [form_of].
  - destruct (read_code_point_ok native ops biggest left G UTF8 o' (encode1 UTF8 byte_order_mark) byte_order_mark
      (text_bytes UTF8 o l) st) as (st' & E & H').
    + apply scalar_sequence. unfold scalar, byte_order_mark. lia.
    + destruct o, o'; exact H.
    + exact B.
    + exists st'. split; [exact E|exact H'].
  - destruct o.
    + change (unit_bytes UTF16 LittleEndian (encode1 UTF16 byte_order_mark)) with [0xFF; 0xFE]%N in H. cbn [app] in H.
      destruct (read_utf16_bytes _ _ _ _ _ H B1) as (st' & H' & E). rewrite E. cbn [N.eqb Pos.eqb andb].
      eexists. split; [reflexivity|]. exact (set_before _ _ _ _ LittleEndian H').
    + change (unit_bytes UTF16 BigEndian (encode1 UTF16 byte_order_mark)) with [0xFE; 0xFF]%N in H. cbn [app] in H.
      destruct (read_utf16_bytes _ _ _ _ _ H B1) as (st' & H' & E). rewrite E. cbn [N.eqb Pos.eqb andb].
      eexists. split; [reflexivity|]. exact (set_before _ _ _ _ BigEndian H').
  - destruct o.
    + change (unit_bytes UTF32 LittleEndian (encode1 UTF32 byte_order_mark)) with [0xFF; 0xFE; 0; 0]%N in H. cbn [app] in H.
      destruct (read_utf32_bytes _ _ _ _ _ _ _ H B1) as (st' & H' & E). rewrite E. cbn [N.eqb Pos.eqb andb].
      eexists. split; [reflexivity|]. exact (set_before _ _ _ _ LittleEndian H').
    + change (unit_bytes UTF32 BigEndian (encode1 UTF32 byte_order_mark)) with [0; 0; 0xFE; 0xFF]%N in H. cbn [app] in H.
      destruct (read_utf32_bytes _ _ _ _ _ _ _ H B1) as (st' & H' & E). rewrite E. cbn [N.eqb Pos.eqb andb].
      eexists. split; [reflexivity|]. exact (set_before _ _ _ _ BigEndian H').
Qed.

Lemma byte_shl_high : forall b n, (8 <= n)%N -> byte_shl b n = 0%N.
Proof.
  intros b n H. unfold byte_shl. rewrite N.shiftl_mul_pow2. replace n with (8 + (n - 8))%N by lia.
  rewrite N.pow_add_r. change (2 ^ 8)%N with 256%N.
  replace (b * (256 * 2 ^ (n - 8)))%N with ((b * 2 ^ (n - 8)) * 256)%N by lia. apply N.mod_mul. lia.
Qed.

(** Without a mark: the low byte of the first code unit is returned. *)
Lemma read_bom_unmarked : forall e o u rest st, e <> UTF8 ->
  before e o (in_order o (unit_width e) u ++ rest) st -> Z.of_nat (unit_width e) <= biggest ->
  (u < 256 ^ N.of_nat (unit_width e))%N -> u <> byte_order_mark ->
  u <> (match e with UTF32 => 0xFFFE0000 | _ => 0xFFFE end)%N ->
  exists st', read_bom (order_of native) ops st = Ok (st', (u mod 256)%N) /\ before e o rest st'.
Proof.
  intros e o u rest st E8 H B U N1 N2. assert (B1 : 1 <= biggest) by (destruct e; cbn in B; lia).
  pose proof H as (_ & _ & F). unfold read_bom. rewrite F. destruct e; [congruence| |]; cbn [form_of unit_width] in *.
  - assert (I : forall x, (x < 256)%N -> initialize_utf16_sequence x = Ok (1%nat, x)).
    { intros x Hx. apply init16_other; lia. }
    assert (T : forall A B C D (st' : text_input R) (X : bool), (A = true -> False) -> (B = true -> False) -> (C < 256)%N ->
      D = C -> (if A then Ok (set_endianness st' Big, byte_order_mark)
       else if B then Ok (set_endianness st' Little, byte_order_mark)
       else bind (initialize_utf16_sequence D) (fun '(n, v) => finish_utf16_sequence (order_of native) ops n v st'))
       = Ok (st', C)).
    { intros A B' C D st' _ HA HB HC ->. destruct A; [tauto|]. destruct B'; [tauto|]. rewrite I by assumption. reflexivity. }
    assert (M : (u mod 256 < 256)%N) by (apply N.mod_lt; lia).
    assert (M2 : (u / 256 mod 256 = u / 256)%N) by (apply N.mod_small; apply N.div_lt_upper_bound; cbn in U; lia).
    pose proof (N.div_mod u 256 ltac:(lia)) as DM. unfold byte_order_mark in N1.
    destruct o; cbn [in_order little rev app] in H; rewrite M2 in H;
      destruct (read_utf16_bytes _ _ _ _ _ H B1) as (st' & H' & E); rewrite E; exists st'; (split; [|exact H']);
      apply T; try exact true; try assumption; try (rewrite byte_shl_high by lia; reflexivity); lia.
  - assert (T : forall A B C D (st' : text_input R), (A = true -> False) -> (B = true -> False) ->
      D = C -> (if A then Ok (set_endianness st' Big, byte_order_mark)
       else if B then Ok (set_endianness st' Little, byte_order_mark)
       else Ok (st', D)) = Ok (st', C)).
    { intros A B' C D st' HA HB ->. destruct A; [tauto|]. destruct B'; [tauto|]. reflexivity. }
    pose proof (N.div_mod u 256 ltac:(lia)) as D1. pose proof (N.div_mod (u / 256) 256 ltac:(lia)) as D2.
    pose proof (N.div_mod (u / 256 / 256) 256 ltac:(lia)) as D3.
    assert (D4 : (u / 256 / 256 / 256 mod 256 = u / 256 / 256 / 256)%N).
    { apply N.mod_small. rewrite !N.div_div by lia. apply N.div_lt_upper_bound; cbn in *; lia. }
    unfold byte_order_mark in N1.
    destruct o; cbn [in_order little rev app] in H; rewrite D4 in H;
      destruct (read_utf32_bytes _ _ _ _ _ _ _ H B1) as (st' & H' & E); rewrite E; exists st'; (split; [|exact H']);
      (apply T; [| |rewrite !byte_shl_high by lia; reflexivity]);
      rewrite !andb_true_iff, !N.eqb_eq; lia.
Qed.

End Reading.

(* ---------------------------------------------------------------- writing *)

Lemma encode1_range : forall e c u, scalar c -> In u (encode1 e c) -> (u < 256 ^ N.of_nat (unit_width e))%N.
Proof.
  intros e c u S I. destruct e; cbn [unit_width].
  - assert (H : Forall (unit_range K8) (encode1 UTF8 c)) by (apply (holds_range K8 c); exact S).
    rewrite Forall_forall in H. exact (H u I).
  - assert (H : Forall (unit_range K16) (encode1 UTF16 c)) by (apply (holds_range K16 c); exact S).
    rewrite Forall_forall in H. exact (H u I).
  - assert (H : Forall (unit_range K32) (encode1 UTF32 c)) by (apply (holds_range K32 c); exact S).
    rewrite Forall_forall in H. exact (H u I).
Qed.

Section Writing.
Context {R : Type} (native : byte_order) (ops : sink R) (limit : Z) (got : list N -> R -> Prop).
Context (G : good_sink ops limit got).

(** The stream has written the bytes b. *)
Definition wrote (e : encoding) (o : byte_order) (b : list N) (st : text_output R) : Prop :=
  got b (out_res st) /\ out_order st = order_of o /\ out_form st = form_of e.

Lemma text_write_ok : forall e o b d st, wrote e o b st -> len (b ++ d) <= limit ->
  exists st', text_write ops st d = Ok st' /\ wrote e o (b ++ d) st'.
Proof.
  intros e o b d st (H & O & F) L. unfold text_write, stream_write.
  destruct (gk_write _ _ _ G _ _ _ H L) as (r' & k & E & H'). rewrite E. cbn [bind].
  eexists. split; [reflexivity|]. split; [exact H'|]. split; [exact O|exact F].
Qed.

Lemma text_reverse_ok : forall e o b d st, d <> [] -> wrote e o b st -> len (b ++ d) <= limit ->
  exists st', text_reverse_write ops st d = Ok st' /\ wrote e o (b ++ rev d) st'.
Proof.
  intros e o b d st N H L. unfold text_reverse_write, reverse_write. change size_of with len.
  rewrite invert_whole by assumption. cbn [bind].
  apply (text_write_ok e o b (rev d) st H). rewrite len_app in *. unfold len in *. rewrite rev_length. exact L.
Qed.

Lemma units_memory_ok : forall e us, units_memory (order_of native) (unit_width e) us = unit_bytes e native us.
Proof.
  intros e us. unfold units_memory, unit_bytes. induction us as [|u us IH]; [reflexivity|].
  cbn [flat_map]. now rewrite IH, to_memory_in_order.
Qed.

Lemma unit_bytes_8 : forall o us, Forall (fun u => (u < 256)%N) us -> unit_bytes UTF8 o us = us.
Proof.
  intros o us H. unfold unit_bytes. cbn [unit_width]. induction H as [|u us Hu H IH]; [reflexivity|].
  cbn [flat_map]. rewrite IH, in_order_1 by assumption. reflexivity.
Qed.

Lemma other_order : forall o, endian_eqb (order_of o) (order_of native) = false -> o = opposite native.
Proof. intros o E. destruct o, native; cbn in E; try discriminate; reflexivity. Qed.
Lemma same_order : forall o, endian_eqb (order_of o) (order_of native) = true -> o = native.
Proof. intros o E. destruct o, native; cbn in E; try discriminate; reflexivity. Qed.

(** One unit written in reverse. *)
Lemma reverse_unit : forall e o b w u st, (0 < w)%nat -> endian_eqb (order_of o) (order_of native) = false ->
  wrote e o b st -> len (b ++ in_order o w u) <= limit ->
  exists st', text_reverse_write ops st (to_memory (order_of native) w u) = Ok st' /\ wrote e o (b ++ in_order o w u) st'.
Proof.
  intros e o b w u st W E H L. rewrite to_memory_in_order.
  apply other_order in E. subst o.
  destruct (text_reverse_ok e (opposite native) b (in_order native w u) st) as (st' & X & Y).
  - intro Z. apply (f_equal (@length N)) in Z. rewrite in_order_length in Z. cbn in Z. lia.
  - exact H.
  - rewrite len_app, len_in_order in *. exact L.
  - exists st'. split; [exact X|]. rewrite in_order_opposite in Y. exact Y.
Qed.

Lemma write_code_point_ok : forall e o b c st, writable e c -> wrote e o b st ->
  len (b ++ unit_bytes e o (encode1 e c)) <= limit ->
  exists st', write_code_point (order_of native) ops st c = Ok st' /\ wrote e o (b ++ unit_bytes e o (encode1 e c)) st'.
Proof.
  intros e o b c st [S W8] H L. pose proof H as (_ & O & F). unfold write_code_point. rewrite F. destruct e; cbn [form_of].
  - unfold write_code_point_in_utf8. rewrite append_to_ok by (split; [exact S|intros _; now apply W8]).
    cbn [bind app]. rewrite units_one. cbn [encoding_of].
    assert (U8 : unit_bytes UTF8 o (encode1 UTF8 c) = encode1 UTF8 c)
      by (apply unit_bytes_8, Forall_forall; intros u; apply (encode1_range UTF8 c u S)).
    rewrite U8 in *.
    exact (text_write_ok UTF8 o b _ st H L).
  - unfold write_code_point_in_utf16. rewrite append_to_ok by (split; [exact S|discriminate]).
    cbn [bind app]. rewrite units_one. cbn [encoding_of]. rewrite O.
    destruct (endian_eqb _ _) eqn:E.
    + apply same_order in E. subst o. rewrite (units_memory_ok UTF16). exact (text_write_ok UTF16 native b _ st H L).
    + unfold unit_bytes in *. cbn [encode1 unit_width] in *. unfold utf16_of in *.
      destruct (c <? 0x10000)%N eqn:C; cbn [flat_map] in L |- *; rewrite ?app_nil_r in *.
      * cbn [length Nat.ltb Nat.leb nth]. destruct (reverse_unit UTF16 o b 2 c st ltac:(lia) E H L) as (st1 & X & Y).
        rewrite X. cbn [bind]. eauto.
      * cbn [length Nat.ltb Nat.leb nth]. set (u := (0xD800 + _)%N) in *. set (v := (0xDC00 + _)%N) in *.
        destruct (reverse_unit UTF16 o b 2 u st ltac:(lia) E H) as (st1 & X & Y).
        { rewrite app_assoc, len_app in L. pose proof (len_nonneg (in_order o 2 v)). lia. }
        rewrite X. cbn [bind]. rewrite app_assoc in L.
        destruct (reverse_unit UTF16 o _ 2 v st1 ltac:(lia) E Y L) as (st2 & X2 & Y2). rewrite X2.
        exists st2. split; [reflexivity|]. rewrite app_assoc. exact Y2.
  - unfold write_code_point_in_utf32, unit_bytes in *. cbn [encode1 utf32_of unit_width flat_map] in *. rewrite app_nil_r in *.
    rewrite O. destruct (endian_eqb _ _) eqn:E.
    + apply same_order in E. subst o. rewrite to_memory_in_order. exact (text_write_ok UTF32 native b _ st H L).
    + exact (reverse_unit UTF32 o b 4 c st ltac:(lia) E H L).
Qed.

Lemma write_each_ok : forall e o l b st, Forall (writable e) l -> wrote e o b st ->
  len (b ++ text_bytes e o l) <= limit ->
  exists st', write_each (write_code_point (order_of native) ops) st l = Ok st' /\ wrote e o (b ++ text_bytes e o l) st'.
Proof.
  intros e o. induction l as [|c l IH]; intros b st W H L; cbn [write_each].
  - exists st. split; [reflexivity|]. cbn. rewrite app_nil_r. exact H.
  - inversion W; subst. rewrite text_bytes_cons, app_assoc in *.
    destruct (write_code_point_ok e o b c st) as (st1 & E & H1); try assumption.
    { rewrite len_app in L. pose proof (len_nonneg (text_bytes e o l)). lia. }
    rewrite E. cbn [bind]. now apply IH.
Qed.

(** Strings. *)
Lemma write_in_own : forall e o c b st, wrote e o b st ->
  (match e with
   | UTF8 => write_code_point_in_utf8 ops
   | UTF16 => write_code_point_in_utf16 (order_of native) ops
   | UTF32 => write_code_point_in_utf32 (order_of native) ops end) st c = write_code_point (order_of native) ops st c.
Proof. intros e o c b st (_ & _ & F). unfold write_code_point. rewrite F. destruct e; reflexivity. Qed.

Lemma write_each_own : forall e o l b st, Forall (writable e) l -> wrote e o b st ->
  len (b ++ text_bytes e o l) <= limit ->
  exists st', write_each (match e with
   | UTF8 => write_code_point_in_utf8 ops
   | UTF16 => write_code_point_in_utf16 (order_of native) ops
   | UTF32 => write_code_point_in_utf32 (order_of native) ops end) st l = Ok st' /\ wrote e o (b ++ text_bytes e o l) st'.
Proof.
  intros e o. induction l as [|c l IH]; intros b st W H L; cbn [write_each].
  - exists st. split; [reflexivity|]. cbn. rewrite app_nil_r. exact H.
  - inversion W; subst. rewrite text_bytes_cons, app_assoc in *.
    destruct (write_code_point_ok e o b c st) as (st1 & E & H1); try assumption.
    { rewrite len_app in L. pose proof (len_nonneg (text_bytes e o l)). lia. }
    rewrite (write_in_own e o c b st H), E. cbn [bind]. now apply IH.
Qed.

Lemma by_code_point_ok : forall e o k l b st, Forall (writable e) l -> Forall (holds k) l -> Forall (single_unit k) l ->
  wrote e o b st -> len (b ++ text_bytes e o l) <= limit ->
  exists st', write_by_code_point (match e with
   | UTF8 => write_code_point_in_utf8 ops
   | UTF16 => write_code_point_in_utf16 (order_of native) ops
   | UTF32 => write_code_point_in_utf32 (order_of native) ops end) k st (units k l) = Ok st' /\
   wrote e o (b ++ text_bytes e o l) st'.
Proof.
  intros e o k l b st W Hk Sk H L. unfold write_by_code_point. rewrite visit_ok by assumption.
  destruct (write_each_own e o l b st W H L) as (st' & E & H'). rewrite E. cbn [bind]. eauto.
Qed.

Lemma ascii_writable : forall e c, (c < 128)%N -> writable e c.
Proof. intros e c H. split; [unfold scalar; lia|]. intros _. rewrite N.mod_small by lia. lia. Qed.

Lemma ascii_bytes : forall o l, Forall (fun c => (c < 128)%N) l -> text_bytes UTF8 o l = l.
Proof.
  intros o l H. induction H as [|c l Hc H IH]; [reflexivity|]. rewrite text_bytes_cons, IH.
  unfold unit_bytes. cbn [encode1]. unfold utf8_of. rewrite (proj2 (N.ltb_lt c 128) Hc). cbn [flat_map unit_width].
  rewrite app_nil_r, in_order_1 by lia. reflexivity.
Qed.

Lemma write_string_ok : forall e o k l b st, Forall (printable native e o k) l -> wrote e o b st ->
  len (b ++ text_bytes e o l) <= limit ->
  exists st', write_string (order_of native) ops k st (units k l) = Ok st' /\ wrote e o (b ++ text_bytes e o l) st'.
Proof.
  intros e o k l b st P H L. pose proof H as (_ & O & F). unfold write_string. rewrite F, O.
  destruct k as [cs| | | | |].
  - (* char *)
    assert (P' : Forall (fun c => (c < 128)%N) l) by exact P.
    assert (U : units (KChar cs) l = l).
    { clear. induction l as [|c l IH]; [reflexivity|]. change (c :: units (KChar cs) l = c :: l). now rewrite IH. }
    assert (M : map (widen (KChar cs)) l = l).
    { clear - P'. induction P' as [|c l Hc P' IH]; [reflexivity|]. cbn [map]. rewrite IH. f_equal.
      apply holds_widen. destruct cs; cbn; lia. }
    rewrite U, M. assert (W : Forall (writable e) l) by (eapply Forall_impl; [|exact P']; intros; now apply ascii_writable).
    destruct e; cbn [form_of].
    + rewrite (ascii_bytes o l P') in *. exact (text_write_ok UTF8 o b l st H L).
    + exact (write_each_own UTF16 o l b st W H L).
    + exact (write_each_own UTF32 o l b st W H L).
  - assert (S : Forall scalar l) by (eapply Forall_impl; [|exact P]; intros c X; exact (proj1 X)).
    destruct e; cbn [form_of].
    + replace (units K8 l) with (text_bytes UTF8 o l); [exact (text_write_ok UTF8 o b _ st H L)|].
      unfold text_bytes, units. cbn [encoding_of]. apply unit_bytes_8.
      exact (units_range K8 l S).
    + apply (by_code_point_ok UTF16 o K8 l b st); try assumption;
        (eapply Forall_impl; [|exact P]); intros c [_ X]; now apply X.
    + apply (by_code_point_ok UTF32 o K8 l b st); try assumption;
        (eapply Forall_impl; [|exact P]); intros c [_ X]; now apply X.
  - assert (S : Forall scalar l) by (eapply Forall_impl; [|exact P]; intros c X; exact (proj1 X)).
    destruct e; cbn [form_of].
    + apply (by_code_point_ok UTF8 o K16 l b st); try assumption;
        (eapply Forall_impl; [|exact P]); intros c [_ X]; now apply X.
    + destruct (endian_eqb _ _) eqn:E.
      * apply same_order in E. subst o. rewrite (units_memory_ok UTF16). exact (text_write_ok UTF16 native b _ st H L).
      * apply (by_code_point_ok UTF16 o K16 l b st); try assumption;
        (eapply Forall_impl; [|exact P]); intros c [_ X]; now apply X.
    + apply (by_code_point_ok UTF32 o K16 l b st); try assumption;
        (eapply Forall_impl; [|exact P]); intros c [_ X]; now apply X.
  - assert (S : Forall scalar l) by (eapply Forall_impl; [|exact P]; intros c X; exact (proj1 X)).
    destruct e; cbn [form_of].
    + apply (by_code_point_ok UTF8 o K32 l b st); try assumption;
        (eapply Forall_impl; [|exact P]); intros c [_ X]; now apply X.
    + apply (by_code_point_ok UTF16 o K32 l b st); try assumption;
        (eapply Forall_impl; [|exact P]); intros c [_ X]; now apply X.
    + destruct (endian_eqb _ _) eqn:E.
      * apply same_order in E. subst o. rewrite (units_memory_ok UTF32). exact (text_write_ok UTF32 native b _ st H L).
      * apply (by_code_point_ok UTF32 o K32 l b st); try assumption;
        (eapply Forall_impl; [|exact P]); intros c [_ X]; now apply X.
  - assert (S : Forall scalar l) by (eapply Forall_impl; [|exact P]; intros c X; exact (proj1 X)).
    destruct e; cbn [form_of].
    + apply (by_code_point_ok UTF8 o KW2 l b st); try assumption;
        (eapply Forall_impl; [|exact P]); intros c [_ X]; now apply X.
    + destruct (endian_eqb _ _) eqn:E.
      * apply same_order in E. subst o. rewrite (units_memory_ok UTF16). exact (text_write_ok UTF16 native b _ st H L).
      * apply (by_code_point_ok UTF16 o KW2 l b st); try assumption;
        (eapply Forall_impl; [|exact P]); intros c [_ X]; now apply X.
    + apply (by_code_point_ok UTF32 o KW2 l b st); try assumption;
        (eapply Forall_impl; [|exact P]); intros c [_ X]; now apply X.
  - assert (S : Forall scalar l) by (eapply Forall_impl; [|exact P]; intros c X; exact (proj1 X)).
    destruct e; cbn [form_of].
    + apply (by_code_point_ok UTF8 o KW4 l b st); try assumption;
        (eapply Forall_impl; [|exact P]); intros c [_ X]; now apply X.
    + apply (by_code_point_ok UTF16 o KW4 l b st); try assumption;
        (eapply Forall_impl; [|exact P]); intros c [_ X]; now apply X.
    + destruct (endian_eqb _ _) eqn:E.
      * apply same_order in E. subst o. rewrite (units_memory_ok UTF32). exact (text_write_ok UTF32 native b _ st H L).
      * apply (by_code_point_ok UTF32 o KW4 l b st); try assumption;
        (eapply Forall_impl; [|exact P]); intros c [_ X]; now apply X.
Qed.

End Writing.
