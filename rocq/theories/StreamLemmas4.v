(** The drivers of StreamText on container resources. *)
From Coq Require Import NArith ZArith List Bool Lia ZifyBool ZifyNat ZifyN.
From Verif Require Import Base Integers UnicodeSpec UnicodeModel UnicodeText UnicodeLemmas UnicodeLemmas2 UnicodeLemmas3
  NumeralSpec NumberModel NumberText NumberLemmas NumberLemmas2 NumberProps
  ResourceSpec ResourceModel ResourceLemmas StreamSpec StreamModel StreamText StreamLemmas StreamLemmas2 StreamLemmas3.
Import ListNotations.
Open Scope Z_scope.

(* ------------------------------------------------------------ data streams *)

Lemma values_bytes_cons : forall o w v vs, values_bytes o ((w, v) :: vs) = in_order o w v ++ values_bytes o vs.
Proof. reflexivity. Qed.

Lemma write_values_ok : forall native o cap vs b r, container_got cap b r -> Forall (fun x => (0 < fst x)%nat) vs ->
  len (b ++ values_bytes o vs) <= 2 ^ 62 - 1 ->
  exists r', write_values (order_of native) (order_of o) r vs = Ok r' /\ content (inner r') = b ++ values_bytes o vs.
Proof.
  intros native o cap. induction vs as [|[w v] vs IH]; intros b r H W L; cbn [write_values].
  - destruct (container_got_flushed _ _ _ H) as (r' & E & C & _). exists r'. split; [exact E|].
    cbn. now rewrite app_nil_r.
  - inversion W as [|? ? Hw Hvs]; subst. cbn [fst] in Hw. rewrite values_bytes_cons, app_assoc in *.
    destruct (data_write_ok native o container_sink _ _ b r w v (container_good_sink cap) H Hw) as (r1 & E1 & H1).
    { rewrite len_app in L. pose proof (len_nonneg (values_bytes o vs)). lia. }
    rewrite E1. cbn [bind]. now apply IH.
Qed.

Lemma read_values_ok : forall native o cap vs rest r, container_left cap (values_bytes o vs ++ rest) r ->
  Forall (fun x => (0 < fst x)%nat /\ Z.of_nat (fst x) <= biggest_read cap) vs ->
  exists r', read_values (order_of native) (order_of o) r (map fst vs)
    = Ok (r', map (fun x => from_memory (order_of native) (in_order o (fst x) (snd x))) vs) /\ container_left cap rest r'.
Proof.
  intros native o cap. induction vs as [|[w v] vs IH]; intros rest r H W; cbn [read_values map fst snd].
  - exists r. split; [reflexivity|exact H].
  - inversion W as [|? ? [Hw Hb] Hvs]; subst. cbn [fst] in *. rewrite values_bytes_cons, <- app_assoc in H.
    destruct (data_read_ok native o container_source _ _ _ _ r w (container_good_source cap) H (in_order_length _ _ _) Hw Hb)
      as (r1 & E1 & H1). rewrite E1. cbn [bind].
    destruct (IH rest r1 H1 Hvs) as (r2 & E2 & H2). rewrite E2. cbn [bind]. eauto.
Qed.

(** Reading more than is left. *)
Lemma data_read_short : forall native o cap rest r w, container_left cap rest r -> len rest < Z.of_nat w ->
  Z.of_nat w <= biggest_read cap ->
  data_read (order_of native) container_source (order_of o) r w = Throw ReadPastEnd.
Proof.
  intros native o cap rest r w H L B. unfold data_read, stream_read.
  assert (Lw : len (repeat 0%N w) = Z.of_nat w) by (unfold len; now rewrite repeat_length).
  pose proof (len_nonneg rest) as P.
  destruct (gs_read _ _ _ (container_good_source cap) _ _ (repeat 0%N w) (Z.of_nat w) H) as (r' & E & _);
    [lia|exact B|]. rewrite E. cbn [bind]. rewrite take_all in * by lia.
  set (m := rest ++ drop (len rest) (repeat 0%N w)).
  assert (M : len m = Z.of_nat w). { unfold m. rewrite len_app, len_drop by lia. lia. }
  destruct (endian_eqb _ _); cbn [negb bind].
  - replace (len rest <? Z.of_nat w) with true by lia. reflexivity.
  - rewrite <- M, invert_whole. 2: { intro X. rewrite X in M. cbn in M. lia. }
    cbn [bind]. rewrite M. replace (len rest <? Z.of_nat w) with true by lia. reflexivity.
Qed.

Lemma reversed_value : forall o w v, exists v', fits (w, v') /\ in_order o w v' = in_order (opposite o) w v.
Proof.
  assert (L : forall d, Forall (fun b => (b < 256)%N) d -> exists v, (v < 256 ^ N.of_nat (length d))%N /\ little (length d) v = d).
  { induction d as [|b d IH]; intro H; [exists 0%N; cbn; split; [lia|reflexivity]|].
    inversion H; subst. destruct IH as (v & B & E); [assumption|]. exists (b + 256 * v)%N.
    cbn [length little]. split.
    - rewrite Nat2N.inj_succ, N.pow_succ_r'. lia.
    - rewrite N.mul_comm, N.mod_add, N.mod_small by lia. rewrite N.div_add, N.div_small by lia. cbn. now rewrite E. }
  assert (B : forall w v, Forall (fun b => (b < 256)%N) (little w v)).
  { induction w as [|w IH]; intro v; constructor; [apply N.mod_lt; lia|apply IH]. }
  assert (Ll : forall w v, length (little w v) = w) by (induction w as [|w IH]; intro v; [reflexivity|cbn; now rewrite IH]).
  intros o w v. destruct (L (rev (little w v))) as (v' & F & E); [apply Forall_rev, B|].
  rewrite rev_length, Ll in *. exists v'. split; [exact F|]. destruct o; cbn [in_order opposite]; rewrite E; [reflexivity|].
  apply rev_involutive.
Qed.

Lemma biggest_roomy : forall cap n, roomy cap n -> Z.of_nat n <= 2 ^ 62 -> Z.of_nat n <= biggest_read (Z.of_nat cap).
Proof. intros cap n [-> | H] B; unfold biggest_read; [exact B|]. destruct (Z.eqb_spec (Z.of_nat cap) 0); lia. Qed.

Lemma unit_roomy : forall cap e, roomy cap (unit_width e) -> Z.of_nat (unit_width e) <= biggest_read (Z.of_nat cap).
Proof. intros cap e H. apply biggest_roomy; [exact H|]. destruct e; cbn; lia. Qed.

(* ------------------------------------------------------------ text streams *)

Notation got cap := (container_got (Z.of_nat cap)).
Notation left cap := (container_left (Z.of_nat cap)).

Lemma open_output_ok : forall cap e o, wrote (got cap) e o [] (open_output cap e o).
Proof. intros. split; [apply container_got_new|]. split; reflexivity. Qed.

Lemma open_input_ok : forall bytes cap e o, len bytes < 2 ^ 62 -> before (left cap) e o bytes (open_input bytes cap e o).
Proof. intros. split; [apply container_left_new; lia|]. split; reflexivity. Qed.

Lemma finished_ok : forall cap e o b st, wrote (got cap) e o b st -> finished (Ok st) = Ok b.
Proof.
  intros cap e o b st (H & _ & _). unfold finished, text_flush. cbn [bind].
  destruct (container_got_flushed _ _ _ H) as (r' & E & C & _). rewrite E. cbn [bind with_res out_res]. now rewrite C.
Qed.

Lemma write_text_ok : forall native e o cap l, Forall (writable e) l -> len (text_bytes e o l) < 2 ^ 62 ->
  finished (write_each (write_code_point (order_of native) container_sink) (open_output cap e o) l)
  = Ok (text_bytes e o l).
Proof.
  intros native e o cap l W L.
  destruct (write_each_ok native container_sink _ _ (container_good_sink _) e o l [] (open_output cap e o) W
    (open_output_ok cap e o) ltac:(cbn [app]; lia)) as (st' & E & H). rewrite E. exact (finished_ok _ _ _ _ _ H).
Qed.

Lemma write_string_text : forall native e o cap k l, Forall (printable native e o k) l -> len (text_bytes e o l) < 2 ^ 62 ->
  finished (write_string (order_of native) container_sink k (open_output cap e o) (units k l)) = Ok (text_bytes e o l).
Proof.
  intros native e o cap k l W L.
  destruct (write_string_ok native container_sink _ _ (container_good_sink _) e o k l [] (open_output cap e o) W
    (open_output_ok cap e o) ltac:(cbn [app]; lia)) as (st' & E & H). rewrite E. exact (finished_ok _ _ _ _ _ H).
Qed.

Lemma at_end_true : forall cap e o st, before (left cap) e o [] st -> text_at_end container_source st = Ok true.
Proof.
  intros cap e o st H. rewrite (at_end_before container_source _ _ (container_good_source _) _ _ _ _ H). reflexivity.
Qed.

(** Reading from a position where text l is to come. *)
Lemma read_code_points_ok : forall native e o cap n l st, (length l <= n)%nat -> Forall scalar l ->
  before (left cap) e o (text_bytes e o l) st -> roomy cap (unit_width e) ->
  exists st', read_code_points (order_of native) (length (filtered l)) st = Ok (st', filtered l) /\
    before (left cap) e o [] st'.
Proof.
  intros native e o cap. induction n as [|n IH]; intros l st Hn S H R.
  - destruct l; [|cbn in Hn; lia]. exists st. split; [reflexivity|exact H].
  - destruct l as [|c l]; [exists st; split; [reflexivity|exact H]|].
    destruct (filtered_one native container_source _ _ (container_good_source _) e o c l st S H (unit_roomy _ _ R))
      as (st1 & d & l1 & E & H1 & Ef & S1 & L1 & _).
    rewrite Ef. cbn [length read_code_points] in *. rewrite E. cbn [bind]. inversion S1; subst.
    destruct (IH l1 st1 ltac:(lia) ltac:(assumption) H1 R) as (st2 & E2 & H2). rewrite E2. cbn [bind]. eauto.
Qed.

Lemma read_all_ok : forall native e o cap k l fuel st, Forall scalar l -> Forall (storable k) l ->
  before (left cap) e o (text_bytes e o l) st -> roomy cap (unit_width e) -> (length l < fuel)%nat ->
  exists st', read_all (order_of native) container_source fuel k st = Ok (st', units k (filtered l)) /\
    before (left cap) e o [] st'.
Proof.
  intros native e o cap k l fuel st S I H R F. unfold read_all.
  apply (append_all_text native container_source _ _ (container_good_source _) e o k (length l) l (le_n _) fuel [] st S);
    try assumption; [|exact (unit_roomy _ _ R)]. now apply filtered_forall.
Qed.

Lemma read_lines_ok : forall native e o cap k m ls, lf_lines m ls -> forall l fuel st, m = filtered l -> Forall scalar l ->
  Forall (insertable k) m -> before (left cap) e o (text_bytes e o l) st -> roomy cap (unit_width e) -> (length l < fuel)%nat ->
  read_lines (order_of native) fuel k st = Ok (map (units k) ls).
Proof.
  intros native e o cap k m ls H. induction H as [|m a b ls Ne U H IH]; intros l fuel st E S I Hb R F.
  - symmetry in E. apply filtered_nil in E. subst l. destruct fuel; [lia|]. cbn [read_lines].
    change (text_bytes e o []) with (@nil N) in Hb. rewrite (at_end_true _ _ _ _ Hb). reflexivity.
  - subst m. destruct fuel as [|fuel]; [lia|]. cbn [read_lines].
    destruct l as [|c l]; [elim Ne; reflexivity|].
    rewrite (at_end_before container_source _ _ (container_good_source _) _ _ _ _ Hb), text_bytes_ne. cbn [bind].
    destruct (append_line_ok native container_source _ _ (container_good_source _) e o k (length (c :: l)) (c :: l) (le_n _)
      (Datatypes.S fuel) [] st S I Hb (unit_roomy _ _ R) F) as (st1 & l1 & E1 & H1 & Q & S1 & L1 & _).
    unfold read_line. rewrite E1. cbn [bind app]. rewrite U in *. cbn [fst snd] in *.
    assert (Ls : (length l1 < length (c :: l))%nat) by (apply L1; discriminate).
    rewrite (IH l1 fuel st1 Q S1); try assumption.
    + reflexivity.
    + apply (forall_sub _ (filtered (c :: l))); [|assumption]. intros x X. apply upto_lf_in. now rewrite U.
    + lia.
Qed.

Lemma read_words_ok : forall native e o cap k fuel n l ws st, words_of (filtered l) ws -> Forall scalar l ->
  Forall (insertable k) (filtered l) -> before (left cap) e o (text_bytes e o l) st -> roomy cap (unit_width e) ->
  (length l < fuel)%nat ->
  exists st' l', read_words (order_of native) fuel n k st = Ok (st', firstn n (map (units k) ws ++ repeat [] n)) /\
    before (left cap) e o (text_bytes e o l') st' /\ words_of (filtered l') (skipn n ws).
Proof.
  intros native e o cap k fuel. induction n as [|n IH]; intros l ws st H S I Hb R F; cbn [read_words].
  - exists st, l. split; [reflexivity|]. split; [exact Hb|exact H].
  - destruct (read_word_ok native container_source _ _ (container_good_source _) e o k l fuel st S I Hb (unit_roomy _ _ R) F)
      as (st1 & l1 & E1 & H1 & Q & S1 & L1). rewrite E1. cbn [bind].
    assert (I1 : Forall (insertable k) (filtered l1)).
    { apply (forall_sub _ (filtered l)); [|assumption]. intros x X. rewrite Q in X. apply skip_white_in. now apply upto_white_in. }
    apply words_first in H. destruct ws as [|w ws].
    + rewrite H in *. cbn [upto_white fst snd] in *.
      assert (H0 : words_of (filtered l1) []) by (rewrite Q; constructor; constructor).
      destruct (IH l1 [] st1 H0 S1 I1 H1 R ltac:(lia)) as (st2 & l2 & E2 & H2 & W2). rewrite E2. cbn [bind].
      exists st2, l2. split; [reflexivity|]. split; [exact H2|]. rewrite skipn_nil in *. exact W2.
    + destruct H as (rest & U & H). rewrite U in *. cbn [fst snd] in *. rewrite <- Q in H.
      destruct (IH l1 ws st1 H S1 I1 H1 R ltac:(lia)) as (st2 & l2 & E2 & H2 & W2). rewrite E2. cbn [bind].
      exists st2, l2. split; [|split; [exact H2|exact W2]]. cbn [map app firstn]. do 3 f_equal.
      rewrite !firstn_app, !map_length. f_equal. replace (n - length ws)%nat with (n - length ws)%nat by lia.
      assert (X : forall a b c, (a <= b)%nat -> (a <= c)%nat -> firstn a (repeat (@nil N) b) = firstn a (repeat [] c)).
      { induction a as [|a IHa]; intros b c Hb' Hc; [reflexivity|]. destruct b, c; try lia. cbn [repeat firstn]. f_equal. apply IHa; lia. }
      apply X; lia.
Qed.

(* -------------------------------------------------------- integers and bools *)

Definition item_ok (i : item) : Prop :=
  match i with
  | Int t x => standard t /\ in_range t x /\ (is_signed t = true -> x <> min_of t)
  | Bool _ => True
  end.

(** Visible ASCII. *)
Definition visible (c : N) : Prop := (33 <= c < 127)%N.

Lemma grouped_none : forall l, grouped None l = l.
Proof. unfold grouped. generalize 0%nat. intros n l. induction l; cbn; congruence. Qed.

Lemma numeral_visible : forall x s, numeral 10 false None x s -> Forall visible s /\ s <> [].
Proof.
  intros x s (ds & (Ne & D & _) & _ & ->). rewrite grouped_none. split.
  - apply Forall_app. split.
    + unfold sign_text. destruct (x <? 0); [repeat constructor; unfold visible; lia|]. rewrite andb_false_r. constructor.
    + apply Forall_map. eapply Forall_impl; [|exact D]. intros d Hd. cbn beta in Hd. unfold visible, digit_char.
      rewrite (proj2 (N.ltb_lt d 10) Hd). lia.
  - intro X. apply app_eq_nil in X. destruct X as [_ X]. apply map_eq_nil in X. contradiction.
Qed.

Definition text_of (i : item) (s : list N) : Prop :=
  Forall visible s /\ s <> [] /\
  match i with
  | Int t x => forall k cs, format_integer k cs t x default_integer_format = Ok s /\ parse_integer k t s default_integer_format = Ok x
  | Bool b => s = [if b then 49 else 48]%N
  end.

Lemma item_text : forall i, item_ok i -> exists s, text_of i s.
Proof.
  intros [t x|b] H; cbn [item_ok] in H.
  - destruct H as (Ht & Rx & Hm).
    assert (Hr : valid_radix (radix default_integer_format)) by (vm_compute; split; discriminate).
    destruct (C18_canonical_partial K8 true t x default_integer_format Ht Rx Hr Hm) as (s & _ & Hn & _).
    exists s. destruct (numeral_visible x s Hn) as [V Ne]. split; [exact V|]. split; [exact Ne|]. intros k cs.
    destruct (C18_canonical_partial k cs t x default_integer_format Ht Rx Hr Hm) as (s' & E & _ & Un).
    rewrite <- (Un s Hn) in E. split; [exact E|].
    destruct (C17_round_trip_partial k cs t x default_integer_format Ht Rx Hr Hm) as (s2 & E2 & P).
    rewrite E in E2. injection E2 as <-. exact P.
  - exists [if b then 49 else 48]%N. split; [destruct b; repeat constructor; unfold visible; lia|].
    split; [discriminate|reflexivity].
Qed.

Lemma visible_printable : forall native e o k s, Forall visible s -> Forall (printable native e o k) s.
Proof.
  intros native e o k s H. eapply Forall_impl; [|exact H]. intros c V. unfold visible in V.
  destruct k; cbn [printable]; try lia; (split; [unfold scalar; lia|]); intros _; (split; [apply ascii_writable; lia|]);
    unfold single_unit, bmp; try exact I; lia.
Qed.

Lemma own_kind_form : forall e, encoding_of (own_kind (form_of e)) = e.
Proof. intros []; reflexivity. Qed.

Definition item_bytes (e : encoding) (o : byte_order) (s : list N) : list N := text_bytes e o (s ++ [32%N]).

Lemma visible_units : forall k s, Forall visible s -> units k s = s.
Proof. intros. apply ascii_units. eapply Forall_impl; [|exact H]. unfold visible. intros; lia. Qed.

Lemma write_one : forall native cs e o cap i s b st, text_of i s -> wrote (got cap) e o b st ->
  len (b ++ text_bytes e o (s ++ [32%N])) <= 2 ^ 62 - 1 ->
  exists st', bind (match i with
            | Int t x => write_integer (order_of native) container_sink cs t st x
            | Bool b => write_bool (order_of native) container_sink st b
            end) (fun st => write_char (order_of native) container_sink cs st 32) = Ok st' /\
    wrote (got cap) e o (b ++ text_bytes e o (s ++ [32%N])) st'.
Proof.
  intros native cs e o cap i s b st (V & Ne & T) H L. pose proof H as (_ & O & F).
  rewrite text_bytes_app, app_assoc in *.
  assert (L1 : len (b ++ text_bytes e o s) <= 2 ^ 62 - 1).
  { rewrite len_app in L. pose proof (len_nonneg (text_bytes e o [32%N])). lia. }
  assert (W : exists st1, write_string (order_of native) container_sink (own_kind (form_of e)) st s = Ok st1 /\
    wrote (got cap) e o (b ++ text_bytes e o s) st1).
  { destruct (write_string_ok native container_sink _ _ (container_good_sink (Z.of_nat cap)) e o (own_kind (form_of e)) s b st)
      as (st1 & E & H1); try assumption; [now apply visible_printable|].
    rewrite visible_units in E by assumption. eauto. }
  destruct W as (st1 & W & H1).
  assert (C : exists st2, write_char (order_of native) container_sink cs st1 32 = Ok st2 /\
    wrote (got cap) e o ((b ++ text_bytes e o s) ++ text_bytes e o [32%N]) st2).
  { unfold write_char. replace (widen (KChar cs) 32) with 32%N by (destruct cs; reflexivity).
    destruct (write_code_point_ok native container_sink _ _ (container_good_sink (Z.of_nat cap)) e o _ 32 st1
      (ascii_writable e 32 ltac:(lia)) H1) as (st2 & E & H2).
    - rewrite text_bytes_cons in L. change (text_bytes e o []) with (@nil N) in L. now rewrite app_nil_r in L.
    - exists st2. split; [exact E|]. rewrite text_bytes_cons. change (text_bytes e o []) with (@nil N). now rewrite app_nil_r. }
  destruct C as (st2 & C & H2). exists st2. split; [|exact H2].
  destruct i as [t x|v].
  - unfold write_integer. rewrite F, (proj1 (T (own_kind (form_of e)) cs)). cbn [bind]. rewrite W. cbn [bind]. exact C.
  - unfold write_bool. rewrite F. subst s.
    assert (Fb : format_bool (own_kind (form_of e)) v default_bool_format = Ok [if v then 49 else 48]%N)
      by (destruct e, v; vm_compute; reflexivity).
    rewrite Fb. cbn [bind]. rewrite W. cbn [bind]. exact C.
Qed.

Definition items_text (ss : list (list N)) : list N := flat_map (fun s => s ++ [32%N]) ss.

Lemma write_items_ok : forall native cs e o cap items ss b st, Forall2 text_of items ss -> wrote (got cap) e o b st ->
  len (b ++ text_bytes e o (items_text ss)) <= 2 ^ 62 - 1 ->
  exists st', write_items (order_of native) cs st items = Ok st' /\
    wrote (got cap) e o (b ++ text_bytes e o (items_text ss)) st'.
Proof.
  intros native cs e o cap items ss b st H. revert b st. induction H as [|i s items ss T H IH]; intros b st Hb L; cbn [write_items].
  - exists st. split; [reflexivity|]. cbn. now rewrite app_nil_r.
  - cbn [items_text flat_map] in *. fold (items_text ss) in *. rewrite text_bytes_app, app_assoc in *.
    destruct (write_one native cs e o cap i s b st T Hb) as (st1 & E & H1).
    { rewrite len_app in L. pose proof (len_nonneg (text_bytes e o (items_text ss))). lia. }
    destruct (IH _ st1 H1 L) as (st2 & E2 & H2). exists st2. split; [|exact H2].
    match goal with |- bind ?a _ = _ => destruct a as [x| | | |] end; cbn [bind] in E |- *; try discriminate.
    rewrite E. exact E2.
Qed.

Lemma visible_not_white : forall c, visible c -> is_whitespace c = false.
Proof. intros c H. apply white_false. unfold visible, white_space in *. lia. Qed.

Lemma no_cr_items : forall items ss, Forall2 text_of items ss -> ~ In 13%N (items_text ss).
Proof.
  intros items ss H. induction H as [|i s items ss (V & _) H IH]; cbn [items_text flat_map]; [tauto|].
  intro X. apply in_app_or in X. destruct X as [X|X]; [|now apply IH]. apply in_app_or in X. destruct X as [X|X].
  - rewrite Forall_forall in V. apply V in X. unfold visible in X. lia.
  - destruct X as [X|[]]. discriminate.
Qed.

Lemma ascii_items : forall items ss, Forall2 text_of items ss -> Forall (fun c => (c < 128)%N) (items_text ss).
Proof.
  intros items ss H. induction H as [|i s items ss (V & _) H IH]; cbn [items_text flat_map]; [constructor|].
  apply Forall_app. split; [|exact IH]. apply Forall_app. split; [|repeat constructor; lia].
  eapply Forall_impl; [|exact V]. unfold visible. intros; lia.
Qed.

Lemma read_items_ok : forall native e o cap items ss, Forall2 text_of items ss -> forall fuel st l,
  filtered l = items_text ss -> Forall scalar l ->
  before (left cap) e o (text_bytes e o l) st -> roomy cap (unit_width e) -> (length l < fuel)%nat ->
  read_items (order_of native) fuel st items = Ok items.
Proof.
  intros native e o cap items ss H. induction H as [|i s items ss T H IH]; intros fuel st l El Sl Hb R F; cbn [read_items]; [reflexivity|].
  assert (A : Forall (fun c => (c < 128)%N) (filtered l)) by (rewrite El; exact (ascii_items (i :: items) (s :: ss) (Forall2_cons _ _ T H))).
  assert (I : Forall (insertable K8) (filtered l)) by (eapply Forall_impl; [|exact A]; intros; now apply ascii_insertable).
  destruct (read_word_ok native container_source _ _ (container_good_source _) e o K8 l fuel st Sl I Hb (unit_roomy _ _ R) F)
    as (st1 & l1 & E1 & H1 & Q & S1 & L1).
  destruct T as (V & Ne & T). rewrite El in *. cbn [items_text flat_map] in *. fold (items_text ss) in *.
  assert (Vw : Forall (fun c => is_whitespace c = false) s) by (eapply Forall_impl; [|exact V]; intros; now apply visible_not_white).
  assert (U : upto_white (skip_white ((s ++ [32%N]) ++ items_text ss)) = (s, items_text ss)).
  { assert (Sk : skip_white ((s ++ [32%N]) ++ items_text ss) = s ++ 32%N :: items_text ss).
    { destruct s as [|c s]; [congruence|]. cbn [app skip_white]. inversion Vw as [|? ? Vc]; subst. rewrite Vc.
      now rewrite <- app_assoc. }
    rewrite Sk, upto_white_app by assumption. cbn [upto_white]. change (is_whitespace 32) with true. cbn [fst snd].
    now rewrite app_nil_r. }
  rewrite U in *. cbn [fst snd] in *. rewrite visible_units in E1 by assumption.
  assert (E : bind (match i with
            | Int t _ => bind (read_integer (order_of native) container_source fuel t st) (fun '(st, x) => Ok (st, Int t x))
            | Bool _ => bind (read_bool (order_of native) container_source fuel st) (fun '(st, b) => Ok (st, Bool b))
            end) (fun x => Ok x) = Ok (st1, i)).
  { destruct i as [t x|v].
    - unfold read_integer. rewrite E1. cbn [bind]. rewrite (proj2 (T K8 true)). reflexivity.
    - unfold read_bool. rewrite E1. cbn [bind]. subst s. destruct v; reflexivity. }
  specialize (IH fuel st1 l1 Q S1 H1 R ltac:(lia)).
  match goal with |- bind ?a _ = _ => destruct a as [[? ?]| | | |] end;
    cbn [bind] in E |- *; try discriminate; injection E as -> ->; now rewrite IH.
Qed.

Lemma encoding_eq_dec_utf8 : forall e, {e = UTF8} + {e <> UTF8}.
Proof. intros []; [now left|right; discriminate|right; discriminate]. Qed.

(** Numerals have at most 20 digits. *)
Lemma value_digits : forall n ds, (length ds <= n)%nat -> forall d, hd_error ds = Some d -> d <> 0%N ->
  (10 ^ N.of_nat (length ds - 1) <= value 10 ds)%N.
Proof.
  assert (A : forall ds a, (a * 10 ^ N.of_nat (length ds) <= fold_left (fun a d => a * 10 + d) ds a)%N).
  { induction ds as [|d ds IH]; intro a; cbn [length fold_left].
    - rewrite N.pow_0_r. lia.
    - etransitivity; [|apply IH]. rewrite Nat2N.inj_succ, N.pow_succ_r'. nia. }
  intros n ds _ d H N. destruct ds as [|x ds]; [discriminate|]. injection H as ->.
  unfold value. cbn [fold_left length]. etransitivity; [|apply A]. replace (S (length ds) - 1)%nat with (length ds) by lia. nia.
Qed.

Lemma range_64 : forall t x, standard t -> in_range t x -> - 2 ^ 63 <= x < 2 ^ 64.
Proof. intros t x H R. std_cases t H; bounds; lia. Qed.

Lemma text_short : forall i s, item_ok i -> text_of i s -> (length s <= 21)%nat.
Proof.
  intros [t x|b] s H (V & Ne & T); cbn [item_ok] in H.
  - destruct H as (Ht & Rx & Hm).
    assert (Hr : valid_radix (radix default_integer_format)) by (vm_compute; split; discriminate).
    destruct (C18_canonical_partial K8 true t x default_integer_format Ht Rx Hr Hm) as (s' & E & Hn & _).
    rewrite (proj1 (T K8 true)) in E. injection E as <-. destruct Hn as (ds & (Nd & Dd & Hd) & Vd & ->).
    cbn [default_integer_format separator sep_char]. rewrite grouped_none, app_length, map_length.
    assert (Ls : (length (sign_text (shows_plus (sign default_integer_format)) x) <= 1)%nat).
    { unfold sign_text. destruct (x <? 0); [cbn; lia|]. destruct (_ && _); cbn; lia. }
    assert (Bs : (Z.abs_N x < 10 ^ 20)%N).
    { pose proof (range_64 t x Ht Rx) as B. clear - B. lia. }
    clear T V Ne Rx Hm Ht.
    assert (Ld : (length ds <= 20)%nat); [|lia].
    destruct (Nat.le_gt_cases (length ds) 20) as [L|L]; [exact L|exfalso].
    destruct ds as [|d ds]; [congruence|]. destruct (N.eq_dec d 0) as [->|N].
    + rewrite (Hd eq_refl) in L. cbn in L. lia.
    + pose proof (value_digits _ (d :: ds) (le_n _) d eq_refl N) as P. cbn [radix default_integer_format] in Vd.
      rewrite Vd in P.
      assert (Q' : (10 ^ N.of_nat (length (d :: ds) - 1) = 10 ^ 20)%N \/ (10 ^ 21 <= 10 ^ N.of_nat (length (d :: ds) - 1))%N).
      { destruct (Nat.eq_dec (length (d :: ds)) 21) as [Z|Z]; [left; rewrite Z; reflexivity|right].
        apply N.pow_le_mono_r; lia. }
      destruct Q' as [Q'|Q']; [rewrite Q' in P; lia|]. assert ((10 ^ 20 < 10 ^ 21)%N) by (vm_compute; reflexivity). lia.
  - subst s. cbn. lia.
Qed.

Lemma items_texts : forall items, Forall item_ok items -> exists ss, Forall2 text_of items ss /\
  Z.of_nat (length (items_text ss)) <= 22 * Z.of_nat (length items).
Proof.
  intros items H. induction H as [|i items Hi H IH]; [exists []; split; [constructor|cbn; lia]|].
  destruct IH as (ss & F & L). destruct (item_text i Hi) as (s & T). exists (s :: ss). split; [now constructor|].
  cbn [items_text flat_map length]. rewrite !app_length. cbn [length]. pose proof (text_short i s Hi T). fold (items_text ss). lia.
Qed.

Lemma ascii_text_length : forall e o l, Forall (fun c => (c < 128)%N) l ->
  len (text_bytes e o l) = Z.of_nat (unit_width e) * len l.
Proof.
  intros e o l H. unfold text_bytes. fold (unit_bytes e o (encode e l)). rewrite len_unit_bytes.
  f_equal. f_equal. clear o. induction H as [|c l Hc H IH]; [reflexivity|].
  change (encode e (c :: l)) with (encode1 e c ++ encode e l).
  assert (E : encode1 e c = [c]).
  { destruct e; cbn [encode1]; unfold utf8_of, utf16_of, utf32_of; rewrite ?ltb_t by lia; reflexivity. }
  rewrite E. cbn [app]. now rewrite IH.
Qed.
