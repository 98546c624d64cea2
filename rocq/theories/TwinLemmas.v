(** Proofs about one program on two machines. *)
From Coq Require Import NArith ZArith List Bool Lia ZifyBool ZifyNat ZifyN.
From Verif Require Import Base Integers UnicodeSpec UnicodeModel UnicodeText UnicodeLemmas UnicodeLemmas2 UnicodeLemmas3
  ResourceSpec ResourceModel ResourceLemmas StreamSpec StreamModel StreamText StreamLemmas StreamLemmas2 StreamLemmas3
  StdioSpec StdioModel StdioText StdioLemmas StdioLemmas2 StdioLemmas3 StdioLemmas4 TalkText TwinSpec TwinText.
Import ListNotations.
Open Scope Z_scope.

(* -------------------------------------------------------------- the text *)

(** The code points a program gets one by one. *)
Fixpoint keys (l : list N) : list N :=
  match l with
  | [] => []
  | c :: r => if (c =? 13)%N then match r with [] => [] | d :: r' => d :: keys r' end else c :: keys r
  end.

Lemma keys_plain : forall c r, c <> 13%N -> keys (c :: r) = c :: keys r.
Proof. intros c r N. cbn [keys]. now replace (c =? 13)%N with false by lia. Qed.
Lemma keys_cr : forall d r, keys (13%N :: d :: r) = d :: keys r.
Proof. reflexivity. Qed.

Lemma keys_keyed : forall s l, ~ In 13%N l -> keys (keyed s l) = l.
Proof.
  intros s l N. assert (B : keys l = l).
  { induction l as [|c l IH]; [reflexivity|]. rewrite keys_plain by (intros ->; apply N; now left).
    f_equal. apply IH. intro X. apply N. now right. }
  destruct s; [exact B|]. clear B. induction l as [|c l IH]; [reflexivity|]. cbn [keyed flat_map].
  assert (Nl : ~ In 13%N l) by (intro X; apply N; now right). specialize (IH Nl). cbn [keyed] in IH.
  destruct (N.eqb_spec c 10) as [->|N10]; cbn [app].
  - rewrite keys_cr. now rewrite IH.
  - rewrite keys_plain by (intros ->; apply N; now left). now rewrite IH.
Qed.

Lemma keyed_scalar : forall s l, Forall scalar l -> Forall scalar (keyed s l).
Proof.
  intros [|] l H; [exact H|]. induction H as [|c l Hc H IH]; [constructor|]. cbn [keyed flat_map].
  destruct (c =? 10)%N; cbn [app]; [|constructor; assumption].
  constructor; [unfold scalar; lia|]. constructor; [unfold scalar; lia|exact IH].
Qed.

Lemma keyed_length : forall s l, (length (keyed s l) <= 2 * length l)%nat.
Proof.
  intros [|] l; [cbn; lia|]. induction l as [|c l IH]; [cbn; lia|]. cbn [keyed flat_map] in *.
  destruct (c =? 10)%N; rewrite app_length; cbn [length] in *; lia.
Qed.

(* ---------------------------------------------------------------- visits *)

Lemma inc_grows : forall s i j, ptr_inc s i = (j, Ok tt) -> (i < j <= length s)%nat.
Proof. intros s i j. unfold ptr_inc. destruct (Nat.ltb_spec i (length s)); intro E; inversion E; lia. Qed.

Lemma wide_grows : forall k s i j, (forall b, k <> KChar b) -> k <> K8 -> advance k s i = (j, Ok tt) -> (i < j <= length s)%nat.
Proof.
  intros k s i j N1 N2. unfold advance. destruct k; cbn [class_of]; try (now destruct (N1 is_signed)); try congruence; try apply inc_grows.
  all: unfold advance16; destruct (nth_error s i) as [u|]; [|discriminate];
    destruct (initialize_utf16_sequence u) as [[n v]| | | |]; try discriminate; unfold adv_finish16;
    (destruct (Nat.eqb n 2); [|apply inc_grows]); (destruct (Nat.eqb i (length s)); [discriminate|]);
    (destruct (nth_error s (i + 1)); [|discriminate]); (destruct (negb _); [discriminate|apply inc_grows]).
Qed.

Lemma init16_stops : forall u, initialize_utf16_sequence u <> Diverge.
Proof. intro u. unfold initialize_utf16_sequence. destruct (is_leading_surrogate u), (is_trailing_surrogate u); discriminate. Qed.

Lemma wide_deref_stops : forall k s i, k <> K8 -> deref k s i <> Diverge.
Proof.
  intros k s i N. unfold deref. destruct (Nat.eqb i (length s)); [discriminate|].
  destruct k; cbn [class_of]; try congruence; try (destruct (nth_error s i); discriminate).
  all: unfold ref_decode16; destruct (nth_error s i) as [u|]; [|discriminate]; pose proof (init16_stops u) as I;
    destruct (initialize_utf16_sequence u) as [[n v]| | | |]; cbn [bind]; try discriminate; try congruence; unfold ref_finish16;
    repeat match goal with |- (if ?b then _ else _) <> _ => destruct b | |- match ?o with Some _ => _ | None => _ end <> _ => destruct o end;
    discriminate.
Qed.

Lemma wide_advance_stops : forall k s i, k <> K8 -> snd (advance k s i) <> Diverge.
Proof.
  assert (P : forall s i, snd (ptr_inc s i) <> Diverge) by (intros s i; unfold ptr_inc; destruct (Nat.ltb _ _); discriminate).
  intros k s i N. unfold advance. destruct k; cbn [class_of]; try congruence; try apply P.
  all: unfold advance16; destruct (nth_error s i) as [u|]; [|discriminate]; pose proof (init16_stops u) as I;
    destruct (initialize_utf16_sequence u) as [[n v]| | | |]; cbn [snd]; try discriminate; try congruence; unfold adv_finish16;
    (destruct (Nat.eqb n 2); [|apply P]); (destruct (Nat.eqb i (length s)); [discriminate|]);
    (destruct (nth_error s (i + 1)); [|discriminate]); (destruct (negb _); [discriminate|apply P]).
Qed.

Lemma wide_visit_stops : forall k s, (forall b, k <> KChar b) -> k <> K8 -> forall fuel i, (i <= length s)%nat ->
  (length s - i < fuel)%nat -> snd (visit_from fuel k s i) <> Diverge.
Proof.
  intros k s N1 N2. induction fuel as [|fuel IH]; intros i Hi F; [lia|]. cbn [visit_from].
  destruct (Nat.eqb_spec i (length s)); [discriminate|].
  pose proof (wide_deref_stops k s i N2) as D. destruct (deref k s i) as [c| | | |]; try discriminate; try congruence.
  pose proof (wide_advance_stops k s i N2) as A. pose proof (wide_grows k s i) as W.
  destruct (advance k s i) as [j [[]| | | |]]; cbn [snd] in *; try discriminate; try congruence.
  specialize (W j N1 N2 eq_refl). pose proof (IH j ltac:(lia) ltac:(lia)) as X.
  destruct (visit_from fuel k s j) as [l r]. exact X.
Qed.

(* ----------------------------------------------------------------- saying *)

(** The bytes written for some code points, and how that ends. *)
Fixpoint each_bytes (l : list N) : list N * outcome unit :=
  match l with
  | [] => ([], Ok tt)
  | c :: l =>
    if is_code_point_valid c then let '(d, r) := each_bytes l in (utf8_of c ++ d, r)
    else ([], Throw InvalidCodePoint)
  end.

Definition said_bytes (k : ukind) (s : list N) : list N * outcome unit :=
  match k with
  | KChar _ | K8 => (s, Ok tt)
  | _ => let '(l, r) := visit k s in let '(d, r') := each_bytes l in (d, bind r' (fun _ => r))
  end.

Lemma said_stops : forall k s, snd (said_bytes k s) <> Diverge.
Proof.
  assert (E : forall l, snd (each_bytes l) = Ok tt \/ snd (each_bytes l) = Throw InvalidCodePoint).
  { induction l as [|c l IH]; [now left|]. cbn [each_bytes]. destruct (is_code_point_valid c); [|now right].
    destruct (each_bytes l). exact IH. }
  intros k s. unfold said_bytes.
  assert (W : (forall b, k <> KChar b) -> k <> K8 ->
    snd (let '(l, r) := visit k s in let '(d, r') := each_bytes l in (d, bind r' (fun _ => r))) <> Diverge).
  { intros N1 N2. pose proof (wide_visit_stops k s N1 N2 (Datatypes.S (length s)) 0 ltac:(lia) ltac:(lia)) as V. fold (visit k s) in V.
    destruct (visit k s) as [l r]. specialize (E l). destruct (each_bytes l) as [d r']. cbn [snd] in *.
    destruct E as [->| ->]; cbn [bind]; [exact V|discriminate]. }
  destruct k; try discriminate; apply W; discriminate.
Qed.

Lemma append8 : forall c, append_to K8 [] c = if is_code_point_valid c then Ok (utf8_of c) else Throw InvalidCodePoint.
Proof.
  intro c. unfold append_to, append_code_point. destruct (is_code_point_valid c) eqn:V.
  - cbn [length]. rewrite insert8_valid by (try assumption; cbn; lia). cbn [bind firstn skipn app]. now rewrite app_nil_r.
  - rewrite insert8_invalid by assumption. reflexivity.
Qed.

Lemma utf8_short : forall pl c, short pl (len (utf8_of c)).
Proof.
  intros pl c _. unfold utf8_of.
  repeat match goal with |- context [if ?b then _ else _] => destruct b end; unfold len; cbn; lia.
Qed.

(** The outcome of an operation on the streams: like r, with the state of the outputs being good. *)
Definition ends {A : Type} (r : outcome A) (x : outcome stdio) (P : stdio -> Prop) : Prop :=
  match r with
  | Ok _ => exists s, x = Ok s /\ P s
  | Throw e => x = Throw e
  | UB u => x = UB u
  | Terminate => x = Terminate
  | Diverge => x = Diverge
  end.

Lemma after_nil : forall sent ch ch', after sent ch [] ch' = sent ch'.
Proof. intros. unfold after. destruct (same_channel ch' ch); [apply app_nil_r|reflexivity]. Qed.
Lemma after_more : forall sent ch a b ch', after sent ch (a ++ b) ch' = after (after sent ch a) ch b ch'.
Proof. intros. unfold after. destruct (same_channel ch' ch); [apply app_assoc|reflexivity]. Qed.

Section Say.
Context (pl : platform) (cs : caps) (o : endian) (ch : channel) (rest : list N) (C : caps_fit pl cs).

Lemma put_text : forall sent (st : text_output stdio) d, good pl cs sent rest (out_res st) -> short pl (len d) ->
  exists st', text_write (out_sink pl ch) st d = Ok st' /\ good pl cs (after sent ch d) rest (out_res st').
Proof.
  intros sent st d G Sd. destruct (put_ok pl cs sent rest (out_res st) ch d G C Sd) as (s' & w & E & G' & _).
  unfold text_write, stream_write. cbn [out_sink sink_write]. rewrite E. cbn [bind]. eexists. split; [reflexivity|exact G'].
Qed.

Lemma each_said : forall l sent (st : text_output stdio), good pl cs sent rest (out_res st) ->
  ends (snd (each_bytes l)) (bind (write_each (write_code_point_in_utf8 (out_sink pl ch)) st l) (fun st => Ok (out_res st)))
    (good pl cs (after sent ch (fst (each_bytes l))) rest).
Proof.
  induction l as [|c l IH]; intros sent st G; cbn [each_bytes write_each].
  - cbn [ends snd fst bind]. exists (out_res st). split; [reflexivity|]. eapply good_ext; [exact G|]. apply after_nil.
  - unfold write_code_point_in_utf8 at 1. rewrite append8. destruct (is_code_point_valid c); cbn [bind]; [|reflexivity].
    destruct (put_text sent st (utf8_of c) G (utf8_short pl c)) as (st' & E & G'). rewrite E. cbn [bind].
    specialize (IH _ st' G'). destruct (each_bytes l) as [d r]. cbn [fst snd] in *. destruct r; cbn [ends] in *; auto.
    destruct IH as (s & Es & Gs). exists s. split; [exact Es|]. eapply good_ext; [exact Gs|]. apply after_more.
Qed.

Lemma say_said : forall k x sent s, good pl cs sent rest s -> short pl (len (units k x)) ->
  ends (snd (said_bytes k (units k x))) (say pl o ch k x s) (good pl cs (after sent ch (fst (said_bytes k (units k x)))) rest).
Proof.
  intros k x sent s G Su. unfold say, write_string. cbn [uout_or_uerr out_form].
  assert (G0 : good pl cs sent rest (out_res (uout_or_uerr o s))) by exact G.
  assert (W : ends (snd (let '(l, r) := visit k (units k x) in let '(d, r') := each_bytes l in (d, bind r' (fun _ => r))))
    (bind (write_by_code_point (write_code_point_in_utf8 (out_sink pl ch)) k (uout_or_uerr o s) (units k x)) (fun st => Ok (out_res st)))
    (good pl cs (after sent ch (fst (let '(l, r) := visit k (units k x) in let '(d, r') := each_bytes l in (d, bind r' (fun _ => r))))) rest)).
  { unfold write_by_code_point. destruct (visit k (units k x)) as [l r].
    pose proof (each_said l sent (uout_or_uerr o s) G0) as E. destruct (each_bytes l) as [d r']. cbn [fst snd] in *.
    destruct r' as [[]| | | |]; cbn [ends bind] in *;
      try (destruct (write_each _ _ l); cbn [bind] in *; congruence).
    destruct E as (s' & E & G'). destruct (write_each _ _ l) as [st'| | | |]; cbn [bind] in *; try discriminate.
    injection E as <-. destruct r as [[]| | | |]; cbn [bind ends]; try reflexivity. eauto. }
  assert (D : ends (Ok tt) (bind (text_write (out_sink pl ch) (uout_or_uerr o s) (units k x)) (fun st => Ok (out_res st)))
    (good pl cs (after sent ch (units k x)) rest)).
  { destruct (put_text sent _ _ G0 Su) as (st' & E & G'). rewrite E. cbn [bind ends]. eauto. }
  unfold said_bytes. destruct k; first [exact D|exact W].
Qed.

End Say.

(* ----------------------------------------------------------------- asking *)

Section Ask.
Context (pl1 pl2 : platform) (cs1 cs2 : caps) (n1 n2 : byte_order) (sent : channel -> list N).
Context (C1 : caps_fit pl1 cs1) (C2 : caps_fit pl2 cs2) (R1 : room pl1 cs1) (R2 : room pl2 cs2).
Notation e1 := (console_encoding pl1).
Notation e2 := (console_encoding pl2).

(** Both programs get the same code points from now on, fewer than m. *)
Definition alike (m : nat) (s1 s2 : stdio) : Prop :=
  exists l1 l2, good pl1 cs1 sent (text_bytes e1 n1 l1) s1 /\ good pl2 cs2 sent (text_bytes e2 n2 l2) s2 /\
    keys l1 = keys l2 /\ Forall scalar l1 /\ Forall scalar l2 /\ (length l1 < m)%nat /\ (length l2 < m)%nat.

Definition fresh_in (o : endian) (e : encoding) (st : text_input stdio) : Prop := in_order_ st = o /\ in_form st = form_of e.
Definition rel (m : nat) (st1 st2 : text_input stdio) : Prop :=
  alike m (in_res st1) (in_res st2) /\ fresh_in (order_of n1) e1 st1 /\ fresh_in (order_of n2) e2 st2.

Definition sim {S T A : Type} (P : S -> T -> A -> Prop) (x : outcome (S * A)) (y : outcome (T * A)) : Prop :=
  match x, y with
  | Ok (s, a), Ok (t, b) => a = b /\ P s t a
  | Throw p, Throw q => p = q
  | UB p, UB q => p = q
  | Terminate, Terminate => True
  | _, _ => False
  end.

Lemma sim_bind : forall {S T S' T' A B : Type} (P : S -> T -> A -> Prop) (Q : S' -> T' -> B -> Prop) x y
    (f : S * A -> outcome (S' * B)) (g : T * A -> outcome (T' * B)),
  sim P x y -> (forall s t a, P s t a -> sim Q (f (s, a)) (g (t, a))) -> sim Q (bind x f) (bind y g).
Proof.
  intros S T S' T' A B P Q x y f g H K. destruct x as [[s a]| | | |], y as [[t b]| | | |]; cbn [sim bind] in *; try contradiction; try exact H.
  destruct H as [-> H]. now apply K.
Qed.

Lemma sim_pure : forall {S T A B : Type} (Q : S -> T -> B -> Prop) (x : outcome A) (f : A -> outcome (S * B)) (g : A -> outcome (T * B)),
  x <> Diverge -> (forall a, x = Ok a -> sim Q (f a) (g a)) -> sim Q (bind x f) (bind x g).
Proof. intros S T A B Q x f g N H. destruct x; cbn [bind sim]; auto. Qed.

Lemma sim_more : forall {S T A : Type} (P Q : S -> T -> A -> Prop) x y, sim P x y -> (forall s t a, P s t a -> Q s t a) -> sim Q x y.
Proof.
  intros S T A P Q x y H K. destruct x as [[s a]| | | |], y as [[t b]| | | |]; cbn [sim] in *; try assumption.
  destruct H as [E H]. auto.
Qed.

Lemma alike_more : forall m m' s1 s2, (m <= m')%nat -> alike m s1 s2 -> alike m' s1 s2.
Proof. intros m m' s1 s2 L (l1 & l2 & G1 & G2 & K & S1 & S2 & L1 & L2). exists l1, l2. repeat (split; [assumption|]). lia. Qed.
Lemma rel_more : forall m m' s1 s2, (m <= m')%nat -> rel m s1 s2 -> rel m' s1 s2.
Proof. intros m m' s1 s2 L (A & F). split; [eapply alike_more; eauto|exact F]. Qed.
(** One side: the next code point. *)
Lemma side_next : forall pl cs n, caps_fit pl cs -> room pl cs -> forall l st, Forall scalar l ->
  good pl cs sent (text_bytes (console_encoding pl) n l) (in_res st) -> fresh_in (order_of n) (console_encoding pl) st ->
  (read_filtered_code_point (order_of n) (uin_source pl) st = Throw ReadPastEnd /\ keys l = []) \/
  (exists st' c l', read_filtered_code_point (order_of n) (uin_source pl) st = Ok (st', c) /\
    good pl cs sent (text_bytes (console_encoding pl) n l') (in_res st') /\ fresh_in (order_of n) (console_encoding pl) st' /\
    keys l = c :: keys l' /\ Forall scalar l' /\ (length l' < length l)%nat).
Proof.
  intros pl cs n C Rm l st Sc G [O F].
  pose proof (uin_to_the_end pl cs sent C Rm) as Gs. pose proof (source_reader _ _ _ _ Gs) as Gr.
  assert (B : Z.of_nat (unit_width (console_encoding pl)) <= unit_of pl) by (rewrite unit_width_of; lia).
  assert (H : before (good pl cs sent) (console_encoding pl) n (text_bytes (console_encoding pl) n l) st) by (split; [exact G|split; assumption]).
  change (uin_source pl) with (never_ends (Source stdio (uin_read pl) (fun s => Ok (len (at_hand (uin_buffer s)) + len (typed (arrivals (os s))) =? 0)))).
  destruct l as [|c l]; [left; split; [|reflexivity]; eapply never_filtered_end; eassumption|].
  inversion Sc as [|? ? Sc0 Sl]; subst. destruct (N.eq_dec c 13) as [->|N].
  - destruct l as [|d l]; [left; split; [|reflexivity]; eapply never_cr_end; eassumption|]. inversion Sl; subst. right.
    destruct (never_cr n _ _ _ Gr _ n B d l st) as (st' & E & (G' & O' & F')); [assumption|exact H|].
    exists st', d, l. split; [exact E|]. split; [exact G'|]. split; [split; assumption|]. split; [reflexivity|]. split; [assumption|cbn; lia].
  - right. destruct (never_plain n _ _ _ Gr _ n B c l st) as (st' & E & (G' & O' & F')); [assumption|exact N|exact H|].
    exists st', c, l. split; [exact E|]. split; [exact G'|]. split; [split; assumption|].
    split; [now apply keys_plain|]. split; [assumption|cbn; lia].
Qed.

Lemma next_sim : forall m st1 st2, rel (Datatypes.S m) st1 st2 ->
  sim (fun s1 s2 _ => rel m s1 s2) (read_filtered_code_point (order_of n1) (uin_source pl1) st1) (read_filtered_code_point (order_of n2) (uin_source pl2) st2).
Proof.
  intros m st1 st2 ((l1 & l2 & G1 & G2 & K & S1 & S2 & L1 & L2) & F1 & F2).
  destruct (side_next pl1 cs1 n1 C1 R1 l1 st1 S1 G1 F1) as [[E1 K1]|(st1' & c1 & l1' & E1 & G1' & F1' & K1 & S1' & L1')];
  destruct (side_next pl2 cs2 n2 C2 R2 l2 st2 S2 G2 F2) as [[E2 K2]|(st2' & c2 & l2' & E2 & G2' & F2' & K2 & S2' & L2')];
    rewrite E1, E2; cbn [sim]; try congruence.
  rewrite K1, K2 in K. injection K as -> K. split; [reflexivity|]. split; [|auto].
  exists l1', l2'. repeat (split; [assumption|]). lia.
Qed.

Lemma rel_some : forall m st1 st2, rel m st1 st2 -> (0 < m)%nat.
Proof. intros m st1 st2 ((l1 & l2 & _ & _ & _ & _ & _ & L & _) & _). lia. Qed.

Lemma insert_stops : forall s i u, snd (str_insert s i u) <> Diverge.
Proof. intros s i u. unfold str_insert. destruct (Nat.ltb (length s) i); discriminate. Qed.

Lemma then_stops : forall {S A B : Type} (x : S * outcome A) (f : S -> A -> S * outcome B),
  snd x <> Diverge -> (forall s a, snd (f s a) <> Diverge) -> snd (then_ x f) <> Diverge.
Proof. intros S A B [s r] f H K. destruct r; cbn [then_ snd] in *; try discriminate; auto. Qed.

Lemma append_stops : forall k t c, append_to k t c <> Diverge.
Proof.
  intros k t c. unfold append_to, append_code_point.
  assert (I : snd (insert_code_point k t c (length t)) <> Diverge).
  { destruct k; cbn [insert_code_point]; try apply insert_stops.
    all: repeat match goal with |- snd (if ?b then _ else _) <> _ => destruct b end; try discriminate; try apply insert_stops.
    all: repeat (apply then_stops; [apply insert_stops|intros]); apply insert_stops. }
  destruct (insert_code_point k t c (length t)) as [t' r]. cbn [snd] in I. destruct r; cbn [bind]; try discriminate. congruence.
Qed.

Lemma insert_grows : forall n s i u, (length s <= n)%nat -> (length (fst (str_insert s i u)) <= n + 1)%nat.
Proof.
  intros n s i u H. unfold str_insert. destruct (Nat.ltb (length s) i); cbn [fst]; [lia|].
  rewrite app_length. cbn [length]. pose proof (firstn_skipn i s) as X. apply (f_equal (@length N)) in X.
  rewrite app_length in X. lia.
Qed.

Lemma then_grows : forall {A B : Type} n m (x : list N * outcome A) (f : list N -> A -> list N * outcome B),
  (length (fst x) <= n)%nat -> (n <= m)%nat -> (forall s a, (length s <= n)%nat -> length (fst (f s a)) <= m)%nat -> (length (fst (then_ x f)) <= m)%nat.
Proof. intros A B n m [s r] f H L K. destruct r; cbn [then_ fst] in *; try lia. now apply K. Qed.

Lemma append_grows : forall k t c t', append_to k t c = Ok t' -> (length t' <= length t + 4)%nat.
Proof.
  intros k t c t'. unfold append_to, append_code_point.
  assert (I : (length (fst (insert_code_point k t c (length t))) <= length t + 4)%nat).
  { assert (X : forall i u, (length (fst (str_insert t i u)) <= length t + 1)%nat) by (intros; now apply insert_grows).
    assert (Y : forall n s i u, (length s <= length t + n)%nat -> (length (fst (str_insert s i u)) <= length t + (n + 1))%nat).
    { intros n s i u H. pose proof (insert_grows _ s i u H). lia. }
    assert (Z1 : forall i u, (length (fst (str_insert t i u)) <= length t + 4)%nat) by (intros i u; specialize (X i u); lia).
    destruct k; cbn [insert_code_point]; try apply Z1.
    all: repeat match goal with |- (length (fst (if ?b then _ else _)) <= _)%nat => destruct b end; try apply Z1; try (cbn [fst]; lia).
    all: apply (then_grows (length t + 1)); [apply X|lia|intros s1 _ H1].
    all: try (pose proof (Y 1%nat s1) as Y1; etransitivity; [apply Y1; exact H1|lia]).
    all: apply (then_grows (length t + 2)); [apply (Y 1%nat); exact H1|lia|intros s2 _ H2].
    all: try (pose proof (Y 2%nat s2) as Y2; etransitivity; [apply Y2; exact H2|lia]).
    all: apply (then_grows (length t + 3)); [apply (Y 2%nat); exact H2|lia|intros s3 _ H3].
    all: apply (Y 3%nat); exact H3. }
  destruct (insert_code_point k t c (length t)) as [t1 r]. cbn [fst] in I. destruct r; cbn [bind]; intro E; inversion E; subst; assumption.
Qed.

Lemma line_sim : forall k fuel m t st1 st2, rel m st1 st2 -> (m <= fuel)%nat ->
  sim (fun s1 s2 a => rel m s1 s2 /\ (length a <= length t + 4 * Nat.pred m)%nat)
    (append_line (order_of n1) (uin_source pl1) fuel k t st1) (append_line (order_of n2) (uin_source pl2) fuel k t st2).
Proof.
  intros k. induction fuel as [|fuel IH]; intros m t st1 st2 H F; pose proof (rel_some _ _ _ H); [lia|].
  destruct m as [|m]; [lia|]. cbn [append_line text_at_end uin_source source_at_end bind].
  eapply sim_bind; [exact (next_sim m _ _ H)|]. cbn beta. intros s1 s2 c H'. destruct (c =? 10)%N.
  - cbn [sim]. split; [reflexivity|]. split; [|lia]. eapply rel_more; [|exact H']. lia.
  - apply sim_pure; [apply append_stops|]. intros a Ea. apply append_grows in Ea.
    eapply sim_more; [apply (IH m a s1 s2 H'); lia|]. cbn beta. intros u1 u2 b [X L]. pose proof (rel_some _ _ _ H').
    split; [eapply rel_more; [|exact X]; lia|cbn [Nat.pred]; lia].
Qed.

Lemma skip_sim : forall k fuel m st1 st2, rel (Datatypes.S m) st1 st2 -> (m < fuel)%nat ->
  sim (fun s1 s2 a => rel m s1 s2 /\ (length a <= 4)%nat)
    (skip_whitespace (order_of n1) (uin_source pl1) fuel k st1) (skip_whitespace (order_of n2) (uin_source pl2) fuel k st2).
Proof.
  intros k. induction fuel as [|fuel IH]; intros m st1 st2 H F; [lia|]. cbn [skip_whitespace text_at_end uin_source source_at_end bind].
  eapply sim_bind; [exact (next_sim m _ _ H)|]. cbn beta. intros s1 s2 c H'. destruct (negb (is_whitespace c)).
  - apply sim_pure; [apply append_stops|]. intros a Ea. apply append_grows in Ea. cbn [sim length] in *. split; [reflexivity|]. split; [exact H'|lia].
  - pose proof (rel_some _ _ _ H'). destruct m as [|m]; [lia|]. eapply sim_more; [apply (IH m s1 s2 H'); lia|]. cbn beta.
    intros u1 u2 b [X L]. split; [eapply rel_more; [|exact X]; lia|exact L].
Qed.

Lemma take_sim : forall k fuel m t st1 st2, rel m st1 st2 -> (m <= fuel)%nat ->
  sim (fun s1 s2 a => rel m s1 s2 /\ (length a <= length t + 4 * Nat.pred m)%nat)
    (take_word (order_of n1) (uin_source pl1) fuel k t st1) (take_word (order_of n2) (uin_source pl2) fuel k t st2).
Proof.
  intros k. induction fuel as [|fuel IH]; intros m t st1 st2 H F; pose proof (rel_some _ _ _ H); [lia|].
  destruct m as [|m]; [lia|]. cbn [take_word text_at_end uin_source source_at_end bind].
  eapply sim_bind; [exact (next_sim m _ _ H)|]. cbn beta. intros s1 s2 c H'. destruct (is_whitespace c).
  - cbn [sim]. split; [reflexivity|]. split; [|lia]. eapply rel_more; [|exact H']. lia.
  - apply sim_pure; [apply append_stops|]. intros a Ea. apply append_grows in Ea.
    eapply sim_more; [apply (IH m a s1 s2 H'); lia|]. cbn beta. intros u1 u2 b [X L]. pose proof (rel_some _ _ _ H').
    split; [eapply rel_more; [|exact X]; lia|cbn [Nat.pred]; lia].
Qed.

Lemma ask_sim : forall fuel m q k s1 s2, alike m s1 s2 -> (m <= fuel)%nat ->
  sim (fun s1 s2 a => alike m s1 s2 /\ (length a <= 4 * Nat.pred m)%nat)
    (ask pl1 (order_of n1) fuel q k s1) (ask pl2 (order_of n2) fuel q k s2).
Proof.
  intros fuel m q k s1 s2 A F. unfold ask.
  assert (H : rel m (uin pl1 (order_of n1) s1) (uin pl2 (order_of n2) s2)).
  { split; [exact A|]. split; [destruct pl1|destruct pl2]; split; reflexivity. }
  pose proof (rel_some _ _ _ H). destruct m as [|m]; [lia|].
  apply (sim_bind (fun s1 s2 a => rel (Datatypes.S m) s1 s2 /\ (length a <= 4 * Nat.pred (Datatypes.S m))%nat));
    [|intros st1 st2 a ((X & _) & L); cbn [sim]; auto].
  destruct q.
  - eapply sim_bind; [exact (next_sim m _ _ H)|]. cbn beta. intros st1 st2 c X. cbn [sim]. split; [reflexivity|].
    pose proof (rel_some _ _ _ X). split; [|cbn [length Nat.pred]; lia]. eapply rel_more; [|exact X]. lia.
  - unfold read_line. exact (line_sim k fuel _ [] _ _ H F).
  - unfold read_word. eapply sim_bind; [apply (skip_sim k fuel m); [exact H|lia]|]. cbn beta. intros st1 st2 t [X Lt].
    pose proof (rel_some _ _ _ X). eapply sim_more; [apply (take_sim k fuel m t _ _ X); lia|]. cbn beta. intros u1 u2 b [Y L].
    split; [eapply rel_more; [|exact Y]; lia|cbn [Nat.pred]; lia].
Qed.

End Ask.

(* ------------------------------------------------------------- a program *)

Lemma run_sim : forall pl1 pl2 cs1 cs2 n1 n2, caps_fit pl1 cs1 -> caps_fit pl2 cs2 -> room pl1 cs1 -> room pl2 cs2 ->
  forall fuel m, (m <= fuel)%nat -> forall p, modest (4 * Nat.pred m) p ->
  forall sent s1 s2, alike pl1 pl2 cs1 cs2 n1 n2 sent m s1 s2 ->
  sim (fun s1 s2 _ => exists sent, alike pl1 pl2 cs1 cs2 n1 n2 sent m s1 s2)
    (bind (run_program pl1 (order_of n1) fuel s1 p) (fun s => Ok (s, tt))) (bind (run_program pl2 (order_of n2) fuel s2 p) (fun s => Ok (s, tt))).
Proof.
  intros pl1 pl2 cs1 cs2 n1 n2 C1 C2 R1 R2 fuel m F.
  induction p as [|ch k x p IH|ch p IH|q k p IH]; intros M sent s1 s2 A; cbn [run_program modest] in *.
  - cbn [bind sim]. split; [reflexivity|]. now exists sent.
  - destruct M as [Lx M]. destruct A as (l1 & l2 & G1 & G2 & K).
    assert (Sx : forall pl, short pl (len (units k x))) by (intros pl _; exact Lx).
    pose proof (say_said pl1 cs1 (order_of n1) ch _ C1 k x sent s1 G1 (Sx pl1)) as E1.
    pose proof (say_said pl2 cs2 (order_of n2) ch _ C2 k x sent s2 G2 (Sx pl2)) as E2.
    pose proof (said_stops k (units k x)) as D. destruct (said_bytes k (units k x)) as [d r]. cbn [fst snd] in *.
    destruct r; cbn [ends] in *; try congruence; try (rewrite E1, E2; cbn [bind sim]; reflexivity); try (rewrite E1, E2; exact Logic.I).
    destruct E1 as (t1 & E1 & H1). destruct E2 as (t2 & E2 & H2). rewrite E1, E2. cbn [bind].
    apply (IH M (after sent ch d)). exists l1, l2. auto.
  - destruct A as (l1 & l2 & G1 & G2 & K).
    destruct (finish_ok pl1 cs1 sent _ s1 ch G1 C1) as (t1 & w1 & E1 & H1 & _).
    destruct (finish_ok pl2 cs2 sent _ s2 ch G2 C2) as (t2 & w2 & E2 & H2 & _). rewrite E1, E2. cbn [bind].
    apply (IH M sent). exists l1, l2. auto.
  - pose proof (ask_sim pl1 pl2 cs1 cs2 n1 n2 sent C1 C2 R1 R2 fuel m q k s1 s2 A F) as E.
    destruct (ask pl1 (order_of n1) fuel q k s1) as [[t1 a]| | | |], (ask pl2 (order_of n2) fuel q k s2) as [[t2 b]| | | |];
      cbn [sim bind] in *; try contradiction; try exact E.
    destruct E as [<- [E L]]. apply (IH a (M a L) sent). exact E.
Qed.
