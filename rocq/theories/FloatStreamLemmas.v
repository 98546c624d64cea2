(** Lemmas on floating-point numbers in text files. *)
From Coq Require Import NArith ZArith List Bool Lia.
From Coq Require Import ZifyBool ZifyNat ZifyN.
From Verif Require Import Base Integers UnicodeSpec UnicodeModel UnicodeText NumeralSpec NumberModel NumberText FloatSpec FloatSpec2 FloatModel FloatText
  ResourceSpec ResourceModel ResourceText StreamSpec StreamModel StreamText FileSpec FileModel FileText
  TextFileModel FloatStreamModel FloatStreamText.
From Verif Require Import NumberLemmas2 UnicodeLemmas ResourceLemmas StreamLemmas StreamLemmas2 StreamLemmas3 StreamLemmas4
  FloatLemmas FloatLemmas2 FloatLemmas3 FloatLemmas4 FloatLemmas5 FloatLemmas6 FloatLemmas7 FloatProps FloatProps2
  FileLemmas FileLemmas2 FileLemmas3 FileLemmas5 FileLemmas6
  TextFileLemmas TextFileLemmas2 TextFileLemmas3 TextFileLemmas4 TextFileLemmas5.
From Verif Require Import TextFileSpec TextFileText.
Import ListNotations.
Open Scope Z_scope.

Lemma expand_length : forall t r k f, (length (expand t r k f) <= k)%nat.
Proof. intros t r k. induction k as [|k IH]; intro f; cbn [expand]; [cbn; lia|]. destruct (f =? 0); cbn [length]; [lia|]. specialize (IH (next_frac t r f)). lia. Qed.

Lemma decimal_digits_visible : forall ds, Forall (fun d => (d < 10)%N) ds -> Forall visible (map digit_char ds).
Proof.
  intros ds H. apply Forall_map. eapply Forall_impl; [|exact H]. intros d Hd. cbn beta in Hd. unfold visible, digit_char.
  rewrite (proj2 (N.ltb_lt d 10) Hd). lia.
Qed.

Lemma scale_small : forall t, ieee t -> 0 <= scale t < 20000.
Proof. intros t [->|[->|[->| ->]]]; vm_compute; split; congruence. Qed.

Lemma default_radix : valid_radix (radix (base default_float_format)).
Proof. vm_compute. split; discriminate. Qed.

(** The text of one value, and what is read from it. *)
Lemma number_text : forall k cs t n, ieee t -> has_value t n -> integral_part_fits t n ->
  exists s, format_floating_point k cs t (Fin n) default_float_format = Ok s /\
    Forall visible s /\ s <> [] /\ Z.of_nat (length s) < 20022 /\
    denotes_near 10 46 s (shown_value t n) (one t) (prec t - 1).
Proof.
  intros k cs t n Ht Hv Hfit.
  pose proof (ieee_fine t Ht) as F. pose proof (fine_good t F) as G. pose proof (has_value_in t n Hv) as Hin.
  set (f := default_float_format).
  assert (Ev : N.even (radix (base f)) = true) by reflexivity.
  destruct (format_denotes k cs t f n F Hin Hfit default_radix ltac:(discriminate) eq_refl Ev) as (s & E & Near & _).
  destruct (format_text (fraction_fuel t f) k cs t f n F Hin Hfit default_radix (or_intror Ev) (le_n _)) as (itext & Ei & Hn & E').
  unfold format_floating_point in E |- *. rewrite E in E'. injection E' as Es.
  change (radix (base f)) with 10%N in *. change (shows_plus (sign (base f))) with false in *. change (sep_char (separator (base f))) with (@None N) in *.
  exists s. split; [exact E|]. clear E.
  pose proof (fits_whole t n G Hfit) as W.
  assert (Ok0 : item_ok (Int I64 (whole t n))).
  { change (item_ok (Int I64 (whole t n))) with (standard I64 /\ in_range I64 (whole t n) /\ (is_signed I64 = true -> whole t n <> min_of I64)).
    split; [unfold standard; cbn; auto 10|]. split; [unfold in_range; lia|lia]. }
  destruct (item_text _ Ok0) as (s' & T). pose proof (text_short _ _ Ok0 T) as Sh. destruct T as (Vi & Ni & Ti).
  destruct (Ti k cs) as [Ei' _]. change (base f) with default_integer_format in Ei. rewrite Ei in Ei'. injection Ei' as <-.
  pose proof (scale_small t Ht) as Sc.
  rewrite Es. destruct (Z.abs n mod one t =? 0).
  - rewrite app_nil_r. split; [exact Vi|]. split; [exact Ni|]. split; [lia|]. rewrite app_nil_r in Es. now rewrite <- Es.
  - cbv zeta in *. cbn [padding limit f default_float_format repeat]. rewrite app_nil_r, fraction_text_none.
    assert (Fx : frac t (Z.abs n mod one t)) by (apply mod_frac; [assumption|]; apply Hin).
    split; [|split; [intro X; apply app_eq_nil in X; now destruct X|split]].
    + apply Forall_app. split; [exact Vi|]. constructor; [unfold visible; cbn; lia|]. apply decimal_digits_visible.
      apply expand_digits; auto. lia.
    + rewrite app_length. cbn [length]. rewrite map_length. pose proof (expand_length t 10 (shown t f) (Z.abs n mod one t)) as L.
      assert (shown t f = Z.to_nat (scale t)) as Sw by reflexivity. lia.
    + rewrite Es in Near. cbn [padding limit f default_float_format repeat] in Near. rewrite app_nil_r, fraction_text_none in Near. exact Near.
Qed.

(* ------------------------------------------------ writing keeps the encoding *)

Definition same_form {R} (f : encoding_form) (r : outcome (text_output R)) : Prop :=
  forall st, r = Ok st -> out_form st = f.

Lemma same_form_bind : forall R (r : outcome (text_output R)) (g : text_output R -> outcome (text_output R)) f,
  same_form f r -> (forall st, out_form st = f -> same_form f (g st)) -> same_form f (bind r g).
Proof. intros R r g f H G st E. destruct r as [a| | | |]; try discriminate. exact (G a (H a eq_refl) st E). Qed.

Lemma same_form_step : forall R A (r : outcome A) (g : A -> outcome (text_output R)) f,
  (forall a, same_form f (g a)) -> same_form f (bind r g).
Proof. intros R A r g f G st E. destruct r as [a| | | |]; try discriminate. exact (G a st E). Qed.

Lemma text_write_form : forall R (ops : sink R) st d, same_form (out_form st) (text_write ops st d).
Proof. intros. unfold text_write. apply same_form_step. intros r st' E. injection E as <-. reflexivity. Qed.

Lemma text_reverse_write_form : forall R (ops : sink R) st d, same_form (out_form st) (text_reverse_write ops st d).
Proof. intros. unfold text_reverse_write. apply same_form_step. intros r st' E. injection E as <-. reflexivity. Qed.

Lemma write8_form : forall R (ops : sink R) st c, same_form (out_form st) (write_code_point_in_utf8 ops st c).
Proof. intros. unfold write_code_point_in_utf8. apply same_form_step. intro. apply text_write_form. Qed.

Lemma write16_form : forall R native (ops : sink R) st c, same_form (out_form st) (write_code_point_in_utf16 native ops st c).
Proof.
  intros. unfold write_code_point_in_utf16. apply same_form_step. intro d. destruct (endian_eqb _ _); [apply text_write_form|].
  apply same_form_bind; [apply text_reverse_write_form|]. intros st' E. rewrite <- E. destruct (Nat.ltb 1 (length d)); [apply text_reverse_write_form|].
  intros s X. now injection X as <-.
Qed.

Lemma write32_form : forall R native (ops : sink R) st c, same_form (out_form st) (write_code_point_in_utf32 native ops st c).
Proof. intros. unfold write_code_point_in_utf32. destruct (endian_eqb _ _); [apply text_write_form|apply text_reverse_write_form]. Qed.

Lemma write_each_form : forall R (g : text_output R -> N -> outcome (text_output R)),
  (forall st c, same_form (out_form st) (g st c)) -> forall l st, same_form (out_form st) (write_each g st l).
Proof.
  intros R g G. induction l as [|c l IH]; intro st; cbn [write_each]; [intros s X; now injection X as <-|].
  apply same_form_bind; [apply G|]. intros st' E. rewrite <- E. apply IH.
Qed.

Lemma write_by_form : forall R (g : text_output R -> N -> outcome (text_output R)) k st s,
  (forall st c, same_form (out_form st) (g st c)) -> same_form (out_form st) (write_by_code_point g k st s).
Proof.
  intros R g k st s G. unfold write_by_code_point. destruct (visit k s) as [l r].
  apply same_form_bind; [now apply write_each_form|]. intros st' E. apply same_form_step. intros _ x X. now injection X as <-.
Qed.

Lemma write_string_form : forall R native (ops : sink R) k st s, same_form (out_form st) (write_string native ops k st s).
Proof.
  intros. unfold write_string.
  destruct (out_form st) eqn:E, k; try destruct (endian_eqb _ _); rewrite <- E;
    first [apply text_write_form | apply write_by_form | apply write_each_form];
    intros; first [apply write8_form | apply write16_form | apply write32_form].
Qed.

Lemma write_code_point_form : forall R native (ops : sink R) st c, same_form (out_form st) (write_code_point native ops st c).
Proof. intros. unfold write_code_point. destruct (out_form st) eqn:E; rewrite <- E; [apply write8_form|apply write16_form|apply write32_form]. Qed.

(* -------------------------------------------------- numbers as entries, words *)

Definition number_entries (k : ukind) (ss : list (list N)) : list (entry * ukind) :=
  flat_map (fun s => [(EnterText s, k); (EnterCharacter 10%N, k)]) ss.

Lemma put_numbers_entries : forall R native cs (ops : sink R) f l ss st,
  out_form st = f ->
  Forall2 (fun '(t, x) s => format_floating_point (own_kind f) cs t x default_float_format = Ok s /\ Forall visible s) l ss ->
  put_numbers native cs ops st l = make_entries native cs ops st (number_entries (own_kind f) ss).
Proof.
  intros R native cs ops f l ss st E H. revert st E. induction H as [|[t x] s l ss [F V] H IH]; intros st E; [reflexivity|].
  cbn [put_numbers number_entries flat_map app make_entries make_entry]. fold (number_entries (own_kind f) ss).
  unfold write_float. rewrite E, F. cbn [bind]. rewrite visible_units by exact V.
  pose proof (write_string_form R native ops (own_kind f) st s) as Ws. rewrite E in Ws.
  destruct (write_string native ops (own_kind f) st s) as [st1| | | |]; try reflexivity. cbn [bind].
  specialize (Ws st1 eq_refl). pose proof (write_code_point_form R native ops st1 10) as Wc. rewrite Ws in Wc.
  destruct (write_code_point native ops st1 10) as [st2| | | |]; try reflexivity. cbn [bind]. apply IH. exact (Wc st2 eq_refl).
Qed.

Lemma get_numbers_words : forall R native (ops : source R) fuel (l : list (float_type * fval)) ws st st',
  answer_requests native ops fuel st (map (fun _ => (Word, K8)) l) = Ok (st', map AText ws) ->
  Forall2 (fun '(t, x) s => parse_floating_point K8 t s default_float_format = Ok x) l ws ->
  get_numbers native ops fuel st (map fst l) = Ok (st', map snd l).
Proof.
  intros R native ops fuel l ws st st' E H. revert st E. induction H as [|[t x] s l ws F H IH]; intros st E.
  - cbn in E |- *. injection E as ->. reflexivity.
  - cbn [map fst snd get_numbers answer_requests answer_request] in *. unfold read_float.
    destruct (read_word native ops fuel K8 st) as [[st1 a]| | | |]; try discriminate. cbn [bind] in *.
    destruct (answer_requests native ops fuel st1 (map (fun _ => (Word, K8)) l)) as [[st2 r]| | | |] eqn:E2; try discriminate.
    cbn [bind] in E. injection E as -> -> ->. rewrite F. cbn [bind]. rewrite (IH st1 E2). reflexivity.
Qed.

Lemma save_is_write : forall pl w q m how cap native cs e o l ss,
  Forall2 (fun '(t, x) s => format_floating_point (own_kind (form_of e)) cs t x default_float_format = Ok s /\ Forall visible s) l ss ->
  save_numbers pl w q m how cap native cs e o l
  = write_text_file pl w q m how cap false native cs e o (number_entries (own_kind (form_of e)) ss).
Proof.
  intros pl w q m how cap native cs e o l ss H. unfold save_numbers, write_text_file.
  destruct (new_file pl w q m how cap) as [f| | | |]; try reflexivity. cbn [bind].
  rewrite (put_numbers_entries file native cs (file_sink pl) (form_of e) l ss); [reflexivity|reflexivity|exact H].
Qed.

Lemma load_is_read : forall pl w q m cap native e o fuel l ws w',
  read_text_file pl w q m cap false native e o fuel (map (fun _ => (Word, K8)) l) = Ok (w', map AText ws) ->
  Forall2 (fun '(t, x) s => parse_floating_point K8 t s default_float_format = Ok x) l ws ->
  load_numbers pl w q m cap native e o fuel (map fst l) = Ok (w', map snd l).
Proof.
  intros pl w q m cap native e o fuel l ws w' E H. unfold read_text_file in E. unfold load_numbers.
  destruct (new_file pl w q m Fail cap) as [f| | | |]; try discriminate. cbn [bind] in *.
  destruct (answer_requests native (file_source pl) fuel (TextInput f (order_of o) (form_of e)) (map (fun _ => (Word, K8)) l))
    as [[st r]| | | |] eqn:E2; try discriminate. cbn [bind] in E.
  destruct (destroy pl (in_res st)) as [w1| | | |] eqn:E3; try discriminate. cbn [bind] in E. injection E as -> ->.
  rewrite (get_numbers_words file native (file_source pl) fuel l ws _ st E2 H). cbn [bind]. now rewrite E3.
Qed.

Lemma words_arrive : forall l (ws : list (list N)), length l = length ws -> Forall (Forall visible) ws ->
  pieces_in (map (fun _ : float_type * fval => (Word, K8)) l) (map AText ws) = map AText ws /\
  all_can_arrive (map (fun _ : float_type * fval => (Word, K8)) l) (map AText ws).
Proof.
  induction l as [|x l IH]; intros [|s ws] E V; try discriminate.
  - split; [reflexivity|constructor].
  - cbn [length] in E. injection E as E. pose proof (Forall_inv V) as V1. apply Forall_inv_tail in V.
    destruct (IH ws E V) as [A B]. unfold pieces_in, all_can_arrive in *. cbn [map combine]. split.
    + rewrite A. cbn [piece_in]. now rewrite visible_units.
    + constructor; [|exact B]. cbn [can_arrive]. eapply Forall_impl; [|exact V1]. intros c Hc. unfold visible in Hc. unfold storable.
      split; [unfold holds, scalar; lia|]. intros _. rewrite N.mod_small by lia. lia.
Qed.

Lemma lines_entered : forall k ss, entries_text (map fst (number_entries k ss)) (lines_text ss).
Proof.
  intros k. induction ss as [|s ss IH]; [constructor|]. cbn [number_entries lines_text flat_map map app fst].
  rewrite <- app_assoc. constructor; [constructor|]. apply (AnotherEntry _ [10%N] _ (lines_text ss)); [constructor|exact IH].
Qed.

Lemma lines_ascii : forall ss, Forall (Forall visible) ss -> Forall (fun c => (c < 128)%N) (lines_text ss).
Proof.
  intros ss H. induction H as [|s ss V H IH]; cbn [lines_text flat_map]; [constructor|].
  apply Forall_app. split; [|exact IH]. apply Forall_app. split; [|repeat constructor; lia].
  eapply Forall_impl; [|exact V]. unfold visible. intros; lia.
Qed.

Lemma lines_no_cr : forall ss, Forall (Forall visible) ss -> ~ In 13%N (lines_text ss).
Proof.
  intros ss H. induction H as [|s ss V H IH]; cbn [lines_text flat_map]; [tauto|].
  intro X. apply in_app_or in X. destruct X as [X|X]; [|now apply IH]. apply in_app_or in X. destruct X as [X|X].
  - rewrite Forall_forall in V. apply V in X. unfold visible in X. lia.
  - cbn in X. lia.
Qed.

Lemma lines_length : forall B ss, Forall (fun s => Z.of_nat (length s) < B) ss -> len (lines_text ss) <= (B + 1) * Z.of_nat (length ss).
Proof.
  intros B ss H. induction H as [|s ss V H IH]; [cbn; unfold len; cbn; lia|].
  cbn [lines_text flat_map]. fold (lines_text ss). rewrite !len_app. unfold len at 1 2. cbn [length]. cbn beta in V. lia.
Qed.

Lemma lines_can_enter : forall pl native e o k ss, Forall (Forall visible) ss -> Forall (fun s => Z.of_nat (length s) < 20022) ss ->
  Forall (fun '(p, k) => can_enter native e o p k /\ small_entry pl e o p) (number_entries k ss).
Proof.
  intros pl native e o k ss V L. induction ss as [|s ss IH]; [constructor|].
  pose proof (Forall_inv V) as V1. pose proof (Forall_inv L) as L1. apply Forall_inv_tail in V. apply Forall_inv_tail in L.
  assert (Small : forall l, Forall (fun c => (c < 128)%N) l -> len l < 20022 -> len (text_bytes e o l) <= chunk_max pl).
  { intros l A B. rewrite ascii_text_length by exact A. pose proof (len_nonneg l). destruct pl, e; cbn [unit_width chunk_max]; lia. }
  cbn [number_entries flat_map app]. constructor; [|constructor; [|now apply IH]].
  - split; [now apply visible_printable|]. intros x X. inversion X; subst. apply Small; [|exact L1].
    eapply Forall_impl; [|exact V1]. unfold visible. intros; lia.
  - split; [apply ascii_writable; lia|]. intros x X. inversion X; subst. apply Small; [repeat constructor; lia|unfold len; cbn; lia].
Qed.

Lemma visible_not_space : forall s, Forall visible s -> Forall (fun c => ~ white_space c) s.
Proof. intros s H. eapply Forall_impl; [|exact H]. intros c V. unfold visible in V. unfold white_space. lia. Qed.

Lemma lines_words : forall (l : list (float_type * fval)) ss, length l = length ss -> Forall (Forall visible) ss -> Forall (fun s => s <> []) ss ->
  obtains_all (map fst (map (fun _ => (Word, K8)) l)) (lines_text ss) (map AText ss) [].
Proof.
  induction l as [|x l IH]; intros [|s ss] E V Ne; try discriminate; cbn [map fst]; [constructor|].
  pose proof (Forall_inv V) as V1. pose proof (Forall_inv Ne) as N1. apply Forall_inv_tail in V. apply Forall_inv_tail in Ne.
  cbn [length] in E. injection E as E.
  eapply ObtainsNext; [|apply (IH ss); assumption]. apply ObtainsWord.
  cbn [lines_text flat_map]. fold (lines_text ss). rewrite <- app_assoc. cbn [app].
  apply (WordThenSpace [] s 10%N (lines_text ss)); [constructor|exact N1|now apply visible_not_space|unfold white_space; lia].
Qed.
