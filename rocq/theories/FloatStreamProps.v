(** Properties C99 and C100: floating-point numbers in text files, on both platforms. *)
From Coq Require Import NArith ZArith List Bool Lia.
From Coq Require Import ZifyBool ZifyNat ZifyN.
From Verif Require Import Base Integers UnicodeSpec UnicodeModel UnicodeText NumeralSpec NumberModel NumberText FloatSpec FloatSpec2 FloatModel FloatText
  ResourceSpec ResourceModel ResourceText StreamSpec StreamModel StreamText FileSpec FileModel FileText
  TextFileModel FloatStreamModel FloatStreamText.
From Verif Require Import NumberLemmas2 UnicodeLemmas ResourceLemmas StreamLemmas StreamLemmas2 StreamLemmas3 StreamLemmas4
  FloatLemmas FloatLemmas2 FloatLemmas3 FloatLemmas4 FloatLemmas5 FloatLemmas6 FloatLemmas7 FloatLemmas8 FloatLemmas9 FloatProps FloatProps2
  FileLemmas FileLemmas2 FileLemmas3 FileLemmas5 FileLemmas6
  TextFileLemmas TextFileLemmas2 TextFileLemmas3 TextFileLemmas4 TextFileLemmas5 FloatStreamLemmas.
From Verif Require Import TextFileSpec TextFileText.
Import ListNotations.
Open Scope Z_scope.

(** A desk with one file, 1. *)
Definition shelf (l : option (list N)) : world := World (fun q => if N.eqb q 1 then l else None) (fun _ => None) 0 [].
Definition saved (x : outcome world) : world := match x with Ok w => w | _ => shelf None end.
Definition loaded (x : outcome (world * list fval)) : world := match x with Ok (w, _) => w | _ => shelf None end.

(* ---------------------------------------------------------------------- C99 *)

(** One value. *)
Lemma number_back : forall k cs t n, ieee t -> has_value t n -> integral_part_fits t n -> 0 <= n \/ (one t | n) ->
  exists s n', format_floating_point k cs t (Fin n) default_float_format = Ok s /\
    Forall visible s /\ s <> [] /\ Z.of_nat (length s) < 20022 /\
    denotes_near 10 46 s n (one t) (prec t - 1) /\
    parse_floating_point K8 t s default_float_format = Ok (Fin n') /\ has_value t n' /\
    ((one t | n) -> n' = n) /\ (0 <= n -> within n' n (one t) (2 * prec t + 33) (prec t)).
Proof.
  intros k cs t n Ht Hv Hf Hn. destruct (number_text k cs t n Ht Hv Hf) as (s & E & V & Ne & L & D).
  pose proof (one_positive t (ieee_ample t Ht)) as PT.
  assert (Sv : shown_value t n = n).
  { unfold shown_value. destruct (Z.ltb_spec n 0); [|reflexivity]. destruct Hn as [Hn|Hn]; [lia|].
    replace (Z.abs n mod one t) with 0; [reflexivity|]. symmetry. apply Z.mod_divide; [lia|]. now apply Z.divide_abs_r. }
  rewrite Sv in D.
  destruct (Z.eq_dec (n mod one t) 0) as [X|X].
  - assert (Dv : (one t | n)) by (apply Z.mod_divide; [lia|exact X]).
    pose proof (C27_integral_partial k K8 cs t n default_float_format Ht Hv Dv Hf default_radix ltac:(discriminate)) as P.
    rewrite E in P. cbn [bind] in P. exists s, n. repeat (split; [assumption|]). split; [reflexivity|].
    intro H0. unfold within. rewrite Z.sub_diag. change (Z.abs 0) with 0. rewrite Z.mul_0_l.
    pose proof (ieee_ample t Ht) as A. apply Z.mul_nonneg_nonneg; [destruct A; lia|lia].
  - destruct Hn as [Hn|Hn]; [|apply Z.mod_divide in Hn; lia].
    destruct (C27_near_partial k K8 cs t n default_float_format Ht Hv Hn Hf default_radix eq_refl eq_refl eq_refl) as (n' & P & V' & W).
    rewrite E in P. cbn [bind] in P. exists s, n'. repeat (split; [assumption|]). split; [|auto].
    intro Dv. apply Z.mod_divide in Dv; lia.
Qed.

Definition keeps_number : float_type * Z -> Z -> Prop := fun '(t, n) n' =>
  has_value t n' /\ ((one t | n) -> n' = n) /\ (0 <= n -> within n' n (one t) (2 * prec t + 33) (prec t)).

Lemma numbers_back : forall k cs l,
  Forall (fun '(t, n) => ieee t /\ has_value t n /\ integral_part_fits t n /\ (0 <= n \/ (one t | n))) l ->
  exists ss ns,
    Forall2 (fun '(t, x) s => format_floating_point k cs t x default_float_format = Ok s /\ Forall visible s)
      (map (fun '(t, n) => (t, Fin n)) l) ss /\
    Forall (Forall visible) ss /\ Forall (fun s => s <> []) ss /\ Forall (fun s => Z.of_nat (length s) < 20022) ss /\
    Forall2 (fun '(t, n) s => denotes_near 10 46 s n (one t) (prec t - 1)) l ss /\
    Forall2 (fun '(t, x) s => parse_floating_point K8 t s default_float_format = Ok x) (combine (map fst l) (map Fin ns)) ss /\
    Forall2 keeps_number l ns.
Proof.
  intros k cs l H. induction H as [|[t n] l (Ht & Hv & Hf & Hn) H (ss & ns & A & B & C & D & E & F & G)].
  - exists [], []. repeat split; constructor.
  - destruct (number_back k cs t n Ht Hv Hf Hn) as (s & n' & P1 & P2 & P3 & P4 & P5 & P6 & P7 & P8 & P9).
    exists (s :: ss), (n' :: ns). cbn [map fst combine].
    split; [constructor; [now split|assumption]|]. do 3 (split; [constructor; assumption|]).
    split; [constructor; assumption|]. split; [constructor; assumption|]. constructor; [|assumption]. now repeat split.
Qed.

Lemma combine_firsts : forall A B (a : list A) (b : list B), length a = length b -> map fst (combine a b) = a /\ map snd (combine a b) = b.
Proof.
  intros A B. induction a as [|x a IH]; intros [|y b] E; try discriminate; [split; reflexivity|].
  cbn [length] in E. injection E as E. destruct (IH b E) as [P Q]. cbn [combine map fst snd]. now rewrite P, Q.
Qed.

Lemma forall2_length : forall A B (P : A -> B -> Prop) a b, Forall2 P a b -> length a = length b.
Proof. intros A B P a b H. induction H; cbn [length]; congruence. Qed.

(** Numbers of any types, not negative or integral, and with integral parts that fit a
    long long, are written to a new or empty file in any encoding and byte order, one on
    each line.  The line of each number denotes it to within 2^(1-p), where p is the
    precision of the type in bits; and read back, each number comes to within
    (2p + 33) 2^-p (x + 1), and exactly if it is integral.  Missing: that the same
    numbers are read back, and the other numbers, which is refuted below. *)
Theorem C99_saved_partial : forall pl native native' cs w q how cap cap' m m' e o l,
  will_open w q how [] -> obliging w ->
  Z.of_nat cap <= chunk_max pl -> Z.of_nat cap' <= chunk_max pl -> wide_enough cap' e ->
  m <> ReadOnly -> m' <> WriteOnly ->
  Forall (fun '(t, n) => ieee t /\ has_value t n /\ integral_part_fits t n /\ (0 <= n \/ (one t | n))) l ->
  Z.of_nat (length l) < 2 ^ 40 ->
  exists w1 lines,
    save_numbers pl w q m how cap (order_of native) cs e o (map (fun '(t, n) => (t, Fin n)) l) = Ok w1 /\
    disk w1 q = Some (text_bytes e o (lines_text lines)) /\ (forall x, x <> q -> disk w1 x = disk w x) /\
    Forall2 (fun '(t, n) s => denotes_near 10 46 s n (one t) (prec t - 1)) l lines /\
    forall fuel, (length (lines_text lines) < fuel)%nat ->
    exists w2 ns, load_numbers pl w1 q m' cap' (order_of native') e o fuel (map fst l) = Ok (w2, map Fin ns) /\
      (forall x, disk w2 x = disk w1 x) /\
      Forall2 (fun '(t, n) n' => has_value t n' /\ ((one t | n) -> n' = n) /\
                                 (0 <= n -> within n' n (one t) (2 * prec t + 33) (prec t))) l ns.
Proof.
  intros pl native native' cs w q how cap cap' m m' e o l Wo B C C' Wi Mw Mr Hl Ll.
  assert (Mw' : mode_writes m = true) by (destruct m; [congruence|reflexivity|reflexivity]).
  assert (Mr' : mode_reads m' = true) by (destruct m'; [reflexivity|congruence|reflexivity]).
  destruct (numbers_back (own_kind (form_of e)) cs l Hl) as (ss & ns & Fm & Vs & Ne & Sh & De & Pa & Ke).
  pose proof (forall2_length _ _ _ _ _ De) as L1. pose proof (forall2_length _ _ _ _ _ Ke) as L2.
  assert (Sz : len (text_bytes e o (lines_text ss)) < 2 ^ 62).
  { rewrite ascii_text_length by now apply lines_ascii. pose proof (lines_length 20022 ss Sh). pose proof (len_nonneg (lines_text ss)).
    destruct e; cbn [unit_width]; lia. }
  destruct (write_text_file_ok pl native cs w q [] how cap false m e o (number_entries (own_kind (form_of e)) ss) (lines_text ss)
    Wo B C Mw' (lines_entered _ _) (lines_can_enter pl native e o _ ss Vs Sh)) as (w1 & E1 & D1 & O1 & B1).
  { change (len (@nil N)) with 0. lia. }
  rewrite put_over in D1 by (change (len (@nil N)) with 0; apply len_nonneg).
  exists w1, ss. split; [rewrite (save_is_write pl w q m how cap (order_of native) cs e o _ ss Fm); exact E1|].
  split; [exact D1|]. split; [exact O1|]. split; [exact De|]. intros fuel Fu.
  set (l' := combine (map fst l) (map Fin ns)) in *.
  assert (Lc : length (map fst l) = length (map Fin ns)) by (rewrite !map_length; exact L2).
  destruct (combine_firsts _ _ _ _ Lc) as [Cf Cs]. fold l' in Cf, Cs.
  pose proof (forall2_length _ _ _ _ _ Pa) as L3.
  assert (Sc : Forall scalar (lines_text ss)).
  { eapply Forall_impl; [|apply lines_ascii; exact Vs]. intros c Hc. cbn beta in Hc. unfold scalar. lia. }
  pose proof (lines_words l' ss L3 Vs Ne) as Ob. rewrite <- (filtered_none (lines_text ss) (lines_no_cr ss Vs)) in Ob.
  destruct (words_arrive l' ss L3 Vs) as [Pi Ca].
  destruct (gives_true _ _ _ (read_text_file_gives _ True pl native' w1 q cap' m' e o (lines_text ss) fuel _ _ []
    (sound_full pl True) D1 ltac:(lia) (obliging_now w1 B1) B1 C' Wi Mr' Sc Fu Ob Ca)) as ([w2 xs] & E2 & -> & D2 & O2).
  rewrite Pi in E2. exists w2, ns. rewrite <- Cf at 1. rewrite <- Cs.
  split; [exact (load_is_read pl w1 q m' cap' (order_of native') e o fuel l' ss w2 E2 Pa)|].
  split; [|exact Ke]. intro x. destruct (N.eq_dec x q) as [->|X]; [exact D2|now apply O2].
Qed.
Print Assumptions C99_saved_partial.

(** Four numbers, of float and double, in UTF-16. *)
Definition four_numbers : list (float_type * Z) :=
  [(F32, 11 * 2 ^ (scale F32 - 4)); (F32, -3 * one F32); (F32, 2 ^ (scale F32 - 2)); (F64, 10 * one F64)].
Example C99_example : forall pl,
  will_open (shelf None) 1 Create [] /\ obliging (shelf None) /\ wide_enough 3 UTF16 /\
  Forall (fun '(t, n) => ieee t /\ has_value t n /\ integral_part_fits t n /\ (0 <= n \/ (one t | n))) four_numbers /\
  bind (save_numbers pl (shelf None) 1 WriteOnly Create 16 Little true UTF16 BigEndian (map (fun '(t, n) => (t, Fin n)) four_numbers))
    (fun w => Ok (disk w 1%N))
  = Ok (Some (text_bytes UTF16 BigEndian
      (lines_text [[48; 46; 54; 56; 55; 53]; [45; 51]; [48; 46; 50; 53]; [49; 48]])%N)) (* 0.6875, -3, 0.25, 10 *) /\
  bind (save_numbers pl (shelf None) 1 WriteOnly Create 16 Little true UTF16 BigEndian (map (fun '(t, n) => (t, Fin n)) four_numbers))
    (fun w => bind (load_numbers pl w 1 ReadOnly 16 Little UTF16 BigEndian 40 (map fst four_numbers)) (fun '(_, l) => Ok (skipn 1 l)))
  = Ok (skipn 1 (map (fun '(t, n) => Fin n) four_numbers)).
Proof.
  intro pl. split; [right; split; [reflexivity|split; reflexivity]|]. split; [constructor|]. split; [right; cbn; lia|].
  split.
  - unfold four_numbers, ieee, has_value, integral_part_fits. apply Forall_cons; [|apply Forall_cons; [|apply Forall_cons; [|apply Forall_cons; [|constructor]]]].
    + split; [auto|]. split; [exists 11, (scale F32 - 4); vm_compute; repeat split; congruence|]. split; [split; vm_compute; congruence|left; vm_compute; congruence].
    + split; [auto|]. split; [exists 3, (scale F32); vm_compute; repeat split; congruence|]. split; [split; vm_compute; congruence|right; exists (-3); reflexivity].
    + split; [auto|]. split; [exists 1, (scale F32 - 2); vm_compute; repeat split; congruence|]. split; [split; vm_compute; congruence|left; vm_compute; congruence].
    + split; [auto|]. split; [exists 10, (scale F64); vm_compute; repeat split; congruence|]. split; [split; vm_compute; congruence|left; vm_compute; congruence].
  - split; destruct pl; vm_compute; reflexivity.
Qed.

(** The same numbers need not come back: the float 0.6875 is saved as "0.6875" and loaded as
    the next float above. *)
Theorem C99_same_refuted : forall pl, exists w1 w2,
  let n := 11 * 2 ^ (scale F32 - 4) in
  save_numbers pl (shelf None) 1 WriteOnly Create 16 Little true UTF8 LittleEndian [(F32, Fin n)] = Ok w1 /\
  disk w1 1%N = Some [48; 46; 54; 56; 55; 53; 10]%N /\
  load_numbers pl w1 1 ReadOnly 16 Little UTF8 LittleEndian 10 [F32] = Ok (w2, [Fin (n + 2 ^ (scale F32 - 24))]).
Proof.
  intro pl.
  set (x := save_numbers pl (shelf None) 1 WriteOnly Create 16 Little true UTF8 LittleEndian [(F32, Fin (11 * 2 ^ (scale F32 - 4)))]).
  exists (saved x), (loaded (load_numbers pl (saved x) 1 ReadOnly 16 Little UTF8 LittleEndian 10 [F32])).
  destruct pl; split; [|split| |split]; vm_compute; reflexivity.
Qed.
Print Assumptions C99_same_refuted.

(** A number below zero with a fraction is neither saved nor loaded: -1.25 is written
    "-2.25", which is read as -1.75. *)
Theorem C99_negative_refuted : forall pl, exists w1 w2,
  save_numbers pl (shelf None) 1 WriteOnly Create 16 Little true UTF8 LittleEndian [(F32, Fin (-5 * 2 ^ (scale F32 - 2)))] = Ok w1 /\
  disk w1 1%N = Some [45; 50; 46; 50; 53; 10]%N /\
  load_numbers pl w1 1 ReadOnly 16 Little UTF8 LittleEndian 10 [F32] = Ok (w2, [Fin (-7 * 2 ^ (scale F32 - 2))]).
Proof.
  intro pl.
  set (x := save_numbers pl (shelf None) 1 WriteOnly Create 16 Little true UTF8 LittleEndian [(F32, Fin (-5 * 2 ^ (scale F32 - 2)))]).
  exists (saved x), (loaded (load_numbers pl (saved x) 1 ReadOnly 16 Little UTF8 LittleEndian 10 [F32])).
  destruct pl; split; [|split| |split]; vm_compute; reflexivity.
Qed.
Print Assumptions C99_negative_refuted.

(** To write a number whose integral part does not fit a long long, an infinity or what
    is not a number has undefined behaviour, on every stream. *)
Theorem C99_range_refuted : forall (R : Type) native (ops : sink R) cs t st, ieee t ->
  (forall n, n < - 2 ^ 63 * one t \/ 2 ^ 63 * one t <= n -> write_float native ops cs t st (Fin n) = UB FloatCast) /\
  (forall n, - 2 ^ 63 * one t <= n < - (2 ^ 63 - 1) * one t -> write_float native ops cs t st (Fin n) = UB SignedOverflow) /\
  (forall b, write_float native ops cs t st (Inf b) = UB FloatCast) /\
  write_float native ops cs t st NaN = UB FloatCast.
Proof.
  intros R native ops cs t st Ht.
  destruct (C26_range_refuted (fraction_fuel t default_float_format) (own_kind (out_form st)) cs t default_float_format Ht default_radix)
    as (A & B & C & D).
  unfold write_float, format_floating_point. split; [|split; [|split]].
  - intros n H. now rewrite (A n H).
  - intros n H. now rewrite (B n H).
  - intro b. now rewrite C.
  - now rewrite D.
Qed.
Print Assumptions C99_range_refuted.
Example C99_range_example :
  save_numbers Windows (shelf None) 1 WriteOnly Create 16 Little true UTF8 LittleEndian [(F32, Fin (2 ^ 100 * one F32))] = UB FloatCast.
Proof. vm_compute. reflexivity. Qed.

(* --------------------------------------------------------------------- C100 *)

Lemma decimal_reads : forall t s, ieee t -> decimal_text s ->
  Forall visible s /\ s <> [] /\
  exists n, parse_floating_point K8 t s default_float_format = Ok (Fin n) /\ has_value t n /\
    denotes_within 10 46 s n (one t) (2 * prec t + 31) (prec t).
Proof.
  intros t s Ht (i & itext & ds & Hi & Hn & Hd & Hs).
  destruct (C59_near_partial K8 t default_float_format i itext ds s Ht default_radix Hi Hn ltac:(discriminate) Hd Hs) as (n & A & B & C).
  destruct (numeral_visible i itext Hn) as [V Ne].
  split; [|split; [|eauto]].
  - destruct Hs as [->|[_ ->]]; [exact V|]. apply Forall_app. split; [exact V|]. constructor; [unfold visible; lia|now apply decimal_digits_visible].
  - destruct Hs as [->|[_ ->]]; [exact Ne|]. intro X. apply app_eq_nil in X. now destruct X.
Qed.

Lemma decimals_read : forall l, Forall (fun '(t, s) => ieee t /\ decimal_text s) l ->
  Forall (Forall visible) (map snd l) /\ exists ns,
    Forall2 (fun '(t, x) s => parse_floating_point K8 t s default_float_format = Ok x) (combine (map fst l) (map Fin ns)) (map snd l) /\
    Forall2 (fun '(t, s) n => has_value t n /\ denotes_within 10 46 s n (one t) (2 * prec t + 31) (prec t)) l ns.
Proof.
  intros l H. induction H as [|[t s] l (Ht & D) H (A & ns & B & C)].
  - split; [constructor|]. exists []. split; constructor.
  - destruct (decimal_reads t s Ht D) as (V & _ & n & P & Q & W). split; [constructor; assumption|].
    exists (n :: ns). cbn [map fst snd combine]. split; constructor; auto.
Qed.

(** A text file in any encoding and byte order, whose text has decimal numbers that are
    not negative as its first words, with any white space before, between and after
    them: each is loaded as a value of the type asked for, at most (2p + 31) 2^-p (v + 1)
    away from the number v the word denotes.  Missing: that it is the value of the type
    closest to v, and numbers below zero, which are refuted (C59). *)
Theorem C100_loaded_partial : forall pl native w q cap m e o text l rest fuel,
  disk w q = Some (text_bytes e o text) -> len (text_bytes e o text) < 2 ^ 63 -> obliging w ->
  Z.of_nat cap <= chunk_max pl -> wide_enough cap e -> m <> WriteOnly ->
  Forall scalar text -> carriage_returns_paired text -> (length text < fuel)%nat ->
  Forall (fun '(t, s) => ieee t /\ decimal_text s) l ->
  obtains_all (map (fun _ => Word) l) (lf_text text) (map (fun '(_, s) => AText s) l) rest ->
  exists w' ns, load_numbers pl w q m cap (order_of native) e o fuel (map fst l) = Ok (w', map Fin ns) /\
    (forall x, disk w' x = disk w x) /\
    Forall2 (fun '(t, s) n => has_value t n /\ denotes_within 10 46 s n (one t) (2 * prec t + 31) (prec t)) l ns.
Proof.
  intros pl native w q cap m e o text l rest fuel D L B C Wi Mr Sc Cr Fu Hl Ob.
  assert (Mr' : mode_reads m = true) by (destruct m; [reflexivity|congruence|reflexivity]).
  destruct (decimals_read l Hl) as (Vs & ns & Pa & De).
  pose proof (forall2_length _ _ _ _ _ De) as L2.
  set (l' := combine (map fst l) (map Fin ns)) in *.
  assert (Lc : length (map fst l) = length (map Fin ns)) by (rewrite !map_length; exact L2).
  destruct (combine_firsts _ _ _ _ Lc) as [Cf Cs]. fold l' in Cf, Cs.
  pose proof (forall2_length _ _ _ _ _ Pa) as L3.
  destruct (words_arrive l' (map snd l) L3 Vs) as [Pi Ca].
  assert (Q : map fst (map (fun _ : float_type * fval => (Word, K8)) l') = map (fun _ => Word) l).
  { rewrite map_map. cbn [fst]. rewrite map_length in L3. clearbody l'. clear - L3. revert l L3. induction l' as [|x l' IH]; intros [|y l] E; try discriminate; [reflexivity|].
    cbn [map length] in *. injection E as E. now rewrite (IH l E). }
  assert (A : map (fun '(_, s) => AText s) l = map AText (map snd l)).
  { rewrite map_map. apply map_ext. now intros [t s]. }
  rewrite <- Q, A in Ob. rewrite <- (filtered_lf_text (length text) text (le_n _) Cr) in Ob.
  destruct (gives_true _ _ _ (read_text_file_gives _ True pl native w q cap m e o text fuel _ _ rest
    (sound_full pl True) D L (obliging_now w B) B C Wi Mr' Sc Fu Ob Ca)) as ([w2 xs] & E2 & -> & D2 & O2).
  rewrite Pi in E2. exists w2, ns. rewrite <- Cf, <- Cs.
  split; [exact (load_is_read pl w q m cap (order_of native) e o fuel l' (map snd l) w2 E2 Pa)|].
  split; [|exact De]. intro x. destruct (N.eq_dec x q) as [->|X]; [exact D2|now apply O2].
Qed.
Print Assumptions C100_loaded_partial.

(** " 0.5" CR LF TAB "3" and no line feed at the end; the bound for 0.5 as a float is
    79 * 2^-24 * 1.5. *)
Definition two_decimals : list N := [32; 48; 46; 53; 13; 10; 9; 51]%N.
Example C100_example : forall pl,
  let w := shelf (Some two_decimals) in
  obliging w /\ wide_enough 4 UTF8 /\ Forall scalar two_decimals /\ carriage_returns_paired two_decimals /\
  text_bytes UTF8 LittleEndian two_decimals = two_decimals /\
  Forall (fun '(t, s) => ieee t /\ decimal_text s) [(F32, [48; 46; 53]); (F32, [51])]%N /\
  obtains_all [Word; Word] (lf_text two_decimals) [AText [48; 46; 53]; AText [51]]%N [] /\
  2 * prec F32 + 31 = 79 /\
  bind (load_numbers pl w 1 ReadOnly 4 Little UTF8 LittleEndian 20 [F32; F32]) (fun '(_, l) => Ok l)
  = Ok [Fin (2 ^ (scale F32 - 1)); Fin (3 * one F32)].
Proof.
  intros pl w. split; [constructor|]. split; [right; cbn; lia|].
  split; [unfold two_decimals; repeat constructor; unfold scalar; lia|].
  split; [unfold two_decimals; cbn; lia|]. split; [reflexivity|].
  split.
  { assert (N0 : numeral 10 false None 0 [48]%N).
    { exists [0%N]. split; [|split; reflexivity]. split; [discriminate|]. split; [repeat constructor|]. intros; reflexivity. }
    assert (N3 : numeral 10 false None 3 [51]%N).
    { exists [3%N]. split; [|split; reflexivity]. split; [discriminate|]. split; [repeat constructor|]. discriminate. }
    apply Forall_cons; [|apply Forall_cons; [|constructor]]; (split; [unfold ieee; auto|]).
    - exists 0, [48]%N, [5]%N. split; [lia|]. split; [exact N0|]. split; [repeat constructor|]. right. split; [discriminate|reflexivity].
    - exists 3, [51]%N, []. split; [lia|]. split; [exact N3|]. split; [constructor|]. left. reflexivity. }
  split.
  { change (lf_text two_decimals) with ([32] ++ [48; 46; 53] ++ 10 :: [9; 51])%N.
    eapply ObtainsNext; [apply ObtainsWord; apply WordThenSpace|eapply ObtainsNext; [apply ObtainsWord; apply (LastWord [9]%N [51]%N)|constructor]];
      try discriminate; repeat constructor; unfold white_space; lia. }
  split; [reflexivity|]. destruct pl; vm_compute; reflexivity.
Qed.

(** The value need not be the closest one: "0.6875" is a float, but the next float above
    is loaded. *)
Theorem C100_closest_refuted : forall pl,
  let text := [48; 46; 54; 56; 55; 53]%N in
  let n := 11 * 2 ^ (scale F32 - 4) in
  denotes 10 46 text n (one F32) /\ has_value F32 n /\
  exists w', load_numbers pl (shelf (Some text)) 1 ReadOnly 16 Little UTF8 LittleEndian 10 [F32] = Ok (w', [Fin (n + 2 ^ (scale F32 - 24))]).
Proof.
  intros pl text n. split; [vm_compute; reflexivity|]. split; [exists 11, (scale F32 - 4); vm_compute; repeat split; congruence|].
  exists (loaded (load_numbers pl (shelf (Some text)) 1 ReadOnly 16 Little UTF8 LittleEndian 10 [F32])). destruct pl; vm_compute; reflexivity.
Qed.
Print Assumptions C100_closest_refuted.

(** Of a number below zero the fraction is added: "-3.25" is loaded as -2.75. *)
Theorem C100_negative_refuted : forall pl,
  let text := [45; 51; 46; 50; 53]%N in
  denotes 10 46 text (-13 * 2 ^ (scale F32 - 2)) (one F32) /\
  exists w', load_numbers pl (shelf (Some text)) 1 ReadOnly 16 Little UTF8 LittleEndian 10 [F32] = Ok (w', [Fin (-11 * 2 ^ (scale F32 - 2))]).
Proof.
  intros pl text. split; [vm_compute; reflexivity|].
  exists (loaded (load_numbers pl (shelf (Some text)) 1 ReadOnly 16 Little UTF8 LittleEndian 10 [F32])). destruct pl; vm_compute; reflexivity.
Qed.
Print Assumptions C100_negative_refuted.
