(** Proofs about text streams whose resource never says that it is at its end. *)
From Coq Require Import NArith ZArith List Bool Lia ZifyBool ZifyNat ZifyN.
From Verif Require Import Base Integers UnicodeSpec UnicodeModel UnicodeText UnicodeLemmas UnicodeLemmas2 UnicodeLemmas3 ResourceSpec ResourceModel
  ResourceLemmas StreamSpec StreamModel StreamText StreamLemmas StreamLemmas2 StreamLemmas3 StdioSpec.
Import ListNotations.
Open Scope Z_scope.

Definition never_ends {R : Type} (ops : source R) : source R := Source R (source_read ops) (fun _ => Ok false).

Section Never.
Context {R : Type} (native : byte_order) (ops : source R) (biggest : Z) (left : list N -> R -> Prop).
Context (Gr : good_reader ops biggest left) (G : good_source ops biggest left).
Notation never := (never_ends ops).
Notation ord := (order_of native).
Notation before := (before left).

Context (e : encoding) (o : byte_order) (B : Z.of_nat (unit_width e) <= biggest).

Lemma never_one : forall c l st, scalar c -> before e o (text_bytes e o (c :: l)) st ->
  exists st', read_code_point ord never st = Ok (st', c) /\ before e o (text_bytes e o l) st'.
Proof. intros c l st S H. exact (read_one native ops biggest left Gr e o c l st S H B). Qed.

Lemma never_plain : forall c l st, scalar c -> c <> 13%N -> before e o (text_bytes e o (c :: l)) st ->
  exists st', read_filtered_code_point ord never st = Ok (st', c) /\ before e o (text_bytes e o l) st'.
Proof.
  intros c l st S N H. unfold read_filtered_code_point. destruct (never_one c l st S H) as (st' & E & H').
  rewrite E. cbn [bind]. replace (c =? 13)%N with false by lia. eauto.
Qed.

Lemma never_cr : forall d l st, scalar d -> before e o (text_bytes e o (13%N :: d :: l)) st ->
  exists st', read_filtered_code_point ord never st = Ok (st', d) /\ before e o (text_bytes e o l) st'.
Proof.
  intros d l st S H. unfold read_filtered_code_point.
  assert (S13 : scalar 13) by (unfold scalar; lia).
  destruct (never_one _ _ st S13 H) as (st1 & E1 & H1). rewrite E1. cbn [bind N.eqb Pos.eqb text_at_end never_ends source_at_end negb].
  exact (never_one d l st1 S H1).
Qed.

(** Nothing is left. *)
Lemma never_unit_end : forall w st, before e o [] st -> (0 < w)%nat -> Z.of_nat w <= biggest ->
  exists st', read_code_unit ord never w st = Ok (st', None).
Proof.
  intros w st (L & O & F) W Bw. unfold read_code_unit, text_read, stream_read. cbn [never_ends source_read].
  assert (Lw : len (repeat 0%N w) = Z.of_nat w) by (unfold len; now rewrite repeat_length).
  destruct (gs_read _ _ _ G [] (in_res st) (repeat 0%N w) (Z.of_nat w) L ltac:(lia) Bw) as (r' & E & L').
  rewrite E. cbn [bind]. assert (T : take (Z.of_nat w) (@nil BinNums.N) = []) by (unfold take; now rewrite firstn_nil).
  rewrite T. change (len (@nil BinNums.N)) with 0. rewrite drop_0. cbn [app].
  destruct (negb (endian_eqb (in_order_ st) ord)).
  - assert (V : invert_endianness (repeat 0%N w) (Z.of_nat w) = Ok (rev (repeat 0%N w))).
    { rewrite <- Lw. apply invert_whole. destruct w; [lia|discriminate]. }
    rewrite V. cbn [bind].
    replace (0 <? Z.of_nat w) with true by lia. eauto.
  - cbn [bind]. replace (0 <? Z.of_nat w) with true by lia. eauto.
Qed.

Lemma never_end : forall st, before e o [] st -> read_code_point ord never st = Throw ReadPastEnd.
Proof.
  intros st H. pose proof H as (_ & _ & F). unfold read_code_point. rewrite F.
  destruct e eqn:Ee; cbn [form_of unit_width] in *.
  - destruct (never_unit_end 1 st) as [st' E]; try rewrite Ee; try assumption; try lia.
    unfold read_utf8_code_point. rewrite E. reflexivity.
  - destruct (never_unit_end 2 st) as [st' E]; try rewrite Ee; try assumption; try lia.
    unfold read_utf16_code_point. rewrite E. reflexivity.
  - destruct (never_unit_end 4 st) as [st' E]; try rewrite Ee; try assumption; try lia.
    unfold read_utf32_code_point. rewrite E. reflexivity.
Qed.

Lemma never_filtered_end : forall st, before e o [] st -> read_filtered_code_point ord never st = Throw ReadPastEnd.
Proof. intros st H. unfold read_filtered_code_point. now rewrite never_end. Qed.

Lemma never_cr_end : forall st, before e o (text_bytes e o [13%N]) st ->
  read_filtered_code_point ord never st = Throw ReadPastEnd.
Proof.
  intros st H. unfold read_filtered_code_point. assert (S13 : scalar 13) by (unfold scalar; lia).
  destruct (never_one _ _ st S13 H) as (st1 & E1 & H1). rewrite E1. cbn [bind N.eqb Pos.eqb text_at_end never_ends source_at_end negb].
  now apply never_end.
Qed.

(** One code point, or the end. *)
Lemma never_next : forall l st, Forall scalar l -> before e o (text_bytes e o l) st ->
  (read_filtered_code_point ord never st = Throw ReadPastEnd /\ (l = [] \/ l = [13%N])) \/
  (exists st' c l', read_filtered_code_point ord never st = Ok (st', c) /\ before e o (text_bytes e o l') st' /\
    filtered l = c :: filtered l' /\ Forall scalar (c :: l') /\ (length l' < length l)%nat /\ exists p, l = p ++ l').
Proof.
  intros [|c l] st S H; [left; split; [now apply never_filtered_end|auto]|].
  inversion S as [|? ? Sc Sl]; subst. destruct (N.eq_dec c 13) as [->|N].
  - destruct l as [|d l]; [left; split; [now apply never_cr_end|auto]|]. inversion Sl; subst. right.
    destruct (never_cr d l st) as (st' & E & H'); try assumption. exists st', d, l.
    split; [exact E|]. split; [exact H'|]. split; [reflexivity|]. split; [assumption|]. split; [cbn; lia|now exists [13%N; d]].
  - right. destruct (never_plain c l st) as (st' & E & H'); try assumption. exists st', c, l.
    split; [exact E|]. split; [exact H'|]. split; [cbn; now replace (c =? 13)%N with false by lia|].
    split; [assumption|]. split; [cbn; lia|now exists [c]].
Qed.

(* ------------------------------------------------------------------- lines *)

Lemma never_line : forall k a fuel t r le st, Forall scalar (a ++ le ++ r) -> Forall (insertable k) a ->
  ~ In 10%N a -> ~ In 13%N a -> line_end le -> before e o (text_bytes e o (a ++ le ++ r)) st -> (length a < fuel)%nat ->
  exists st', append_line ord never fuel k t st = Ok (st', t ++ units k a) /\ before e o (text_bytes e o r) st'.
Proof.
  intros k. induction a as [|c a IH]; intros fuel t r le st S I N10 N13 L H F; destruct fuel as [|fuel]; try (cbn in F; lia);
    cbn [append_line text_at_end never_ends source_at_end bind].
  - cbn [app] in *. rewrite app_nil_r. destruct L as [->| ->]; cbn [app] in *.
    + destruct (never_plain 10 r st) as (st' & E & H'); [now inversion S|lia|exact H|]. rewrite E. cbn. eauto.
    + destruct (never_cr 10 r st) as (st' & E & H'); [now inversion S as [|? ? ? S']; inversion S'|exact H|]. rewrite E. cbn. eauto.
  - cbn [app] in *. inversion S; subst. inversion I; subst.
    destruct (never_plain c (a ++ le ++ r) st) as (st' & E & H'); [assumption|intros ->; apply N13; now left|assumption|].
    rewrite E. cbn [bind]. replace (c =? 10)%N with false by (symmetry; apply N.eqb_neq; intros ->; apply N10; now left).
    rewrite append_to_ok by assumption. cbn [bind].
    destruct (IH fuel (t ++ units k [c]) r le st') as (st2 & E2 & G2); try assumption.
    + intro X. apply N10. now right.
    + intro X. apply N13. now right.
    + cbn in F. lia.
    + rewrite E2. exists st2. split; [|exact G2]. rewrite <- app_assoc, <- units_app. reflexivity.
Qed.

(** A line that never ends. *)
Lemma never_line_end : forall k n l, (length l <= n)%nat -> forall fuel t st, Forall scalar l -> Forall (insertable k) (filtered l) ->
  ~ In 10%N l -> before e o (text_bytes e o l) st -> (length l < fuel)%nat ->
  append_line ord never fuel k t st = Throw ReadPastEnd.
Proof.
  intros k. induction n as [|n IH]; intros l Hn fuel t st S I N10 H F; destruct fuel as [|fuel]; try lia;
    cbn [append_line text_at_end never_ends source_at_end bind];
    (destruct (never_next l st S H) as [[E _]|(st' & c & l' & E & H' & Ef & S' & Ll & p & El)];
     [rewrite E; reflexivity|]); [lia|].
  rewrite E. cbn [bind]. assert (c <> 10%N).
  { intros ->. apply N10. apply (filtered_in (length l) l (le_n _)). rewrite Ef. now left. }
  replace (c =? 10)%N with false by lia. rewrite Ef in I. inversion I; subst. rewrite append_to_ok by assumption. cbn [bind].
  inversion S'; subst. apply IH with (l := l'); auto; try lia. intro X. apply N10. apply in_or_app. now right.
Qed.

(* ------------------------------------------------------------------- words *)

Lemma never_skip : forall k n s, (length s <= n)%nat -> forall fuel c r st, Forall scalar (s ++ c :: r) -> insertable k c ->
  Forall white_space s -> ~ white_space c -> before e o (text_bytes e o (s ++ c :: r)) st -> (length s < fuel)%nat ->
  exists st', skip_whitespace ord never fuel k st = Ok (st', units k [c]) /\ before e o (text_bytes e o r) st'.
Proof.
  intros k. induction n as [|n IH]; intros s Hn fuel c r st S I W N H F; destruct fuel as [|fuel]; try lia;
    cbn [skip_whitespace text_at_end never_ends source_at_end bind].
  all: assert (C13 : c <> 13%N) by (intros ->; apply N; unfold white_space; lia).
  - destruct s; [|cbn in Hn; lia]. cbn [app] in *. inversion S; subst.
    destruct (never_plain c r st) as (st' & E & H'); try assumption. rewrite E. cbn [bind].
    rewrite (white_false c N). cbn [negb]. rewrite append_to_ok by assumption. cbn [bind app]. eauto.
  - destruct s as [|x s].
    { cbn [app] in *. inversion S; subst. destruct (never_plain c r st) as (st' & E & H'); try assumption. rewrite E. cbn [bind].
      rewrite (white_false c N). cbn [negb]. rewrite append_to_ok by assumption. cbn [bind app]. eauto. }
    cbn [app length] in *. inversion S as [|? ? Sx S1]; subst. inversion W as [|? ? Wx W1]; subst.
    destruct (N.eq_dec x 13) as [->|Nx].
    + destruct s as [|y s].
      * cbn [app] in *. inversion S1; subst. destruct (never_cr c r st) as (st' & E & H'); try assumption. rewrite E. cbn [bind].
        rewrite (white_false c N). cbn [negb]. rewrite append_to_ok by assumption. cbn [bind app]. eauto.
      * cbn [app length] in *. inversion S1 as [|? ? Sy S2]; subst. inversion W1 as [|? ? Wy W2]; subst.
        destruct (never_cr y (s ++ c :: r) st) as (st' & E & H'); try assumption. rewrite E. cbn [bind].
        rewrite (white_true y Wy). cbn [negb]. apply IH with (s := s); auto; lia.
    + destruct (never_plain x (s ++ c :: r) st) as (st' & E & H'); try assumption. rewrite E. cbn [bind].
      rewrite (white_true x Wx). cbn [negb]. apply IH with (s := s); auto; lia.
Qed.

Lemma never_take : forall k w fuel t le r st, Forall scalar (w ++ le ++ r) -> Forall (insertable k) w ->
  Forall (fun c => ~ white_space c) w -> (line_end le \/ exists c, le = [c] /\ white_space c /\ c <> 13%N) ->
  before e o (text_bytes e o (w ++ le ++ r)) st -> (length w < fuel)%nat ->
  exists st', take_word ord never fuel k t st = Ok (st', t ++ units k w) /\ before e o (text_bytes e o r) st'.
Proof.
  intros k. induction w as [|c w IH]; intros fuel t le r st S I W L H F; destruct fuel as [|fuel]; try (cbn in F; lia);
    cbn [take_word text_at_end never_ends source_at_end bind].
  - cbn [app] in *. rewrite app_nil_r. destruct L as [[->| ->]|(c & -> & Wc & Nc)]; cbn [app] in *.
    + destruct (never_plain 10 r st) as (st' & E & H'); [now inversion S|lia|exact H|]. rewrite E. cbn. eauto.
    + destruct (never_cr 10 r st) as (st' & E & H'); [now inversion S as [|? ? ? S']; inversion S'|exact H|]. rewrite E. cbn. eauto.
    + destruct (never_plain c r st) as (st' & E & H'); [now inversion S|assumption|exact H|]. rewrite E. cbn [bind].
      rewrite (white_true c Wc). eauto.
  - cbn [app] in *. inversion S; subst. inversion I; subst. inversion W as [|? ? Wc W']; subst.
    destruct (never_plain c (w ++ le ++ r) st) as (st' & E & H'); [assumption|intros ->; apply Wc; unfold white_space; lia|assumption|].
    rewrite E. cbn [bind]. rewrite (white_false c Wc). rewrite append_to_ok by assumption. cbn [bind].
    destruct (IH fuel (t ++ units k [c]) le r st') as (st2 & E2 & G2); try assumption; [cbn in F; lia|].
    rewrite E2. exists st2. split; [|exact G2]. rewrite <- app_assoc, <- units_app. reflexivity.
Qed.

Lemma never_word : forall k s w fuel le r st, Forall scalar (s ++ w ++ le ++ r) -> Forall (insertable k) w ->
  Forall white_space s -> w <> [] -> Forall (fun c => ~ white_space c) w ->
  (line_end le \/ exists c, le = [c] /\ white_space c /\ c <> 13%N) ->
  before e o (text_bytes e o (s ++ w ++ le ++ r)) st -> (length (s ++ w) <= fuel)%nat -> (0 < fuel)%nat ->
  exists st', read_word ord never fuel k st = Ok (st', units k w) /\ before e o (text_bytes e o r) st'.
Proof.
  intros k s [|c w] fuel le r st S I Ws Nw Ww L H F F0; [congruence|]. unfold read_word.
  rewrite app_length in F. cbn [length] in F.
  inversion I; subst. inversion Ww; subst. cbn [app] in *.
  destruct (never_skip k (length s) s (le_n _) fuel c (w ++ le ++ r) st) as (st1 & E1 & H1); try assumption; [lia|].
  rewrite E1. cbn [bind].
  destruct (never_take k w fuel (units k [c]) le r st1) as (st2 & E2 & G2); try assumption.
  - apply Forall_app in S. destruct S as [_ S]. now inversion S.
  - lia.
  - rewrite E2. exists st2. split; [|exact G2]. now rewrite <- units_app.
Qed.

(** Words that never begin or end. *)
Lemma never_skip_end : forall k n l, (length l <= n)%nat -> forall fuel st, Forall scalar l -> Forall white_space l ->
  before e o (text_bytes e o l) st -> (length l < fuel)%nat -> skip_whitespace ord never fuel k st = Throw ReadPastEnd.
Proof.
  intros k. induction n as [|n IH]; intros l Hn fuel st S W H F; destruct fuel as [|fuel]; try lia;
    cbn [skip_whitespace text_at_end never_ends source_at_end bind];
    (destruct (never_next l st S H) as [[E _]|(st' & c & l' & E & H' & Ef & S' & Ll & p & El)];
     [rewrite E; reflexivity|]); [lia|].
  rewrite E. cbn [bind]. rewrite Forall_forall in W. rewrite (white_true c).
  - cbn [negb]. inversion S'; subst. apply IH with (l := l'); auto; try lia. apply Forall_forall. intros x X. apply W.
    apply in_or_app. now right.
  - apply W. apply (filtered_in (length l) l (le_n _)). rewrite Ef. now left.
Qed.

Lemma never_take_end : forall k w fuel t st, Forall scalar w -> Forall (insertable k) w ->
  Forall (fun c => ~ white_space c) w -> before e o (text_bytes e o w) st -> (length w < fuel)%nat ->
  take_word ord never fuel k t st = Throw ReadPastEnd.
Proof.
  intros k. induction w as [|c w IH]; intros fuel t st S I W H F; destruct fuel as [|fuel]; try (cbn in F; lia);
    cbn [take_word text_at_end never_ends source_at_end bind].
  - now rewrite (never_filtered_end st H).
  - inversion S; subst. inversion I; subst. inversion W as [|? ? Wc W']; subst.
    destruct (never_plain c w st) as (st' & E & H'); [assumption|intros ->; apply Wc; unfold white_space; lia|assumption|].
    rewrite E. cbn [bind]. rewrite (white_false c Wc). rewrite append_to_ok by assumption. cbn [bind].
    apply IH; try assumption. cbn in F. lia.
Qed.

Lemma never_word_end : forall k s w fuel st, Forall scalar (s ++ w) -> Forall (insertable k) w -> Forall white_space s ->
  Forall (fun c => ~ white_space c) w -> before e o (text_bytes e o (s ++ w)) st -> (length (s ++ w) < fuel)%nat ->
  read_word ord never fuel k st = Throw ReadPastEnd.
Proof.
  intros k s [|c w] fuel st S I Ws Ww H F; unfold read_word.
  - rewrite app_nil_r in *. now rewrite (never_skip_end k (length s) s (le_n _) fuel st S Ws H F).
  - inversion I; subst. inversion Ww; subst. rewrite app_length in F. cbn [length] in F.
    destruct (never_skip k (length s) s (le_n _) fuel c w st) as (st1 & E1 & H1); try assumption; [lia|].
    rewrite E1. cbn [bind]. apply never_take_end with (w := w); try assumption; [|lia].
    apply Forall_app in S. destruct S as [_ S]. now inversion S.
Qed.

(* ---------------------------------------------------------------- all of it *)

Lemma never_all : forall k n l, (length l <= n)%nat -> forall fuel t st, Forall scalar l -> Forall (insertable k) (filtered l) ->
  before e o (text_bytes e o l) st -> (length l < fuel)%nat ->
  StreamModel.append_all ord never fuel k t st = Throw ReadPastEnd.
Proof.
  intros k. induction n as [|n IH]; intros l Hn fuel t st S I H F; destruct fuel as [|fuel]; try lia;
    cbn [StreamModel.append_all text_at_end never_ends source_at_end bind];
    (destruct (never_next l st S H) as [[E _]|(st' & c & l' & E & H' & Ef & S' & Ll & p & El)];
     [rewrite E; reflexivity|]); [lia|].
  rewrite E. cbn [bind]. rewrite Ef in I. inversion I; subst. rewrite append_to_ok by assumption. cbn [bind].
  inversion S'; subst. apply IH with (l := l'); auto; lia.
Qed.

End Never.
