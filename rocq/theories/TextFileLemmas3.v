(** Byte order marks, I/O streams and copies. *)
From Coq Require Import NArith ZArith List Bool Lia ZifyBool ZifyNat ZifyN.
From Verif Require Import Base Integers UnicodeSpec UnicodeModel UnicodeText UnicodeLemmas UnicodeLemmas2 UnicodeLemmas3
  NumeralSpec NumberModel NumberText NumberLemmas NumberProps
  ResourceSpec ResourceModel ResourceText ResourceLemmas StreamSpec StreamModel StreamText StreamLemmas StreamLemmas2 StreamLemmas3 StreamLemmas4
  FileSpec FileModel FileText FileLemmas FileLemmas2 FileLemmas3 FileLemmas4 FileLemmas6
  TextFileSpec TextFileModel TextFileText TextFileLemmas TextFileLemmas2.
Import ListNotations.
Open Scope Z_scope.

(** In UTF-8 the byte order does not matter. *)
Lemma utf8_any_order : forall o o' l, text_bytes UTF8 o l = text_bytes UTF8 o' l.
Proof.
  intros o o' l. unfold text_bytes. apply flat_map_ext. intro v. destruct o, o'; reflexivity.
Qed.

Definition marked_order (e : encoding) (o o' : byte_order) : byte_order := match e with UTF8 => o' | _ => o end.

Lemma marked_bytes : forall e o o' l, text_bytes e o l = text_bytes e (marked_order e o o') l.
Proof. intros [| |] o o' l; [apply utf8_any_order| |]; reflexivity. Qed.

Lemma gives_true : forall A (x : outcome A) P, gives True x P -> exists a, x = Ok a /\ P a.
Proof. intros A x P [H|[H _]]; [exact H|destruct (H I)]. Qed.

Lemma obliging_now : forall w, obliging w -> response_now w <> Refuse.
Proof. intros w B. assert (response_now w = InFull) by exact (hd_Forall (fun r => r = InFull) _ eq_refl B). congruence. Qed.

Lemma sound_full : forall pl sure, sound_responses pl sure (fun r => r = InFull).
Proof. intros pl sure. split; [right; auto|]. intros _ r ->. discriminate. Qed.

Lemma read_marked_file : forall pl native w q cap m e o o' l fuel qs answers rest,
  disk w q = Some (text_bytes e o (byte_order_mark :: l)) -> len (text_bytes e o (byte_order_mark :: l)) < 2 ^ 63 -> obliging w ->
  Z.of_nat cap <= chunk_max pl -> wide_enough cap e -> mode_reads m = true ->
  Forall scalar l -> (length l < fuel)%nat ->
  obtains_all (map fst qs) (filtered l) answers rest -> all_can_arrive qs answers ->
  exists w', read_text_file pl w q m cap true (order_of native) e o' fuel qs = Ok (w', pieces_in qs answers) /\
    disk w' q = disk w q /\ (forall x, x <> q -> disk w' x = disk w x).
Proof.
  intros pl native w q cap m e o o' l fuel qs answers rest D L B C W Mr S F Ob Ca. unfold read_text_file.
  set (c := text_bytes e o (byte_order_mark :: l)) in *.
  destruct (opened_left _ pl w q cap m c D L (obliging_now w B) B C) as (f & E & Lf). rewrite E. cbn [bind].
  pose proof (file_text_source _ True pl (Z.of_nat cap) q m (disk w) c (sound_full pl True) Mr) as T.
  destruct (read_bom_marked native (file_source pl) _ _ (sure_good _ _ _ _ T) e o o' l (TextInput f (order_of o') (form_of e)))
    as (st1 & E1 & H1); [split; [exact Lf|split; reflexivity]|exact (file_biggest_wide pl cap e W C)|].
  rewrite E1. cbn [bind]. change (match e with UTF8 => o' | _ => o end) with (marked_order e o o') in H1.
  rewrite (marked_bytes e o o') in H1.
  destruct (gives_true _ _ _ (requests_give True native (file_source pl) _ _ T e (marked_order e o o') (length l) fuel
    (file_biggest_wide pl cap e W C) F qs l answers rest st1 (conj H1 (conj S (le_n _))) Ob Ca)) as ([st2 xs] & E2 & -> & l' & _ & (Lf2 & _) & _).
  rewrite E2. cbn [bind]. destruct Lf2 as (p & s & K' & _ & Pw & Bs & _).
  destruct (close_reader pl (Z.of_nat cap) q m (disk w) p s (in_res st2) K' Pw) as (f' & E' & D' & O' & _).
  unfold destroy. rewrite E'. cbn [bind]. eexists. split; [reflexivity|]. split; [|exact O'].
  unfold disk_of in D'. rewrite D', Bs. now rewrite D.
Qed.

(* -------------------------------------------------------------- I/O streams *)

Lemma obliging_file_left : forall pl cap q m others c rest f, file_left (fun r => r = InFull) pl cap q m others c rest f -> mode_writes m = true ->
  len c < 2 ^ 63 ->
  exists f', file_seek pl f 0 FromEnd = Ok f' /\ file_got pl cap q m others c (len c) [] f'.
Proof.
  intros pl cap q m others c rest f (p & s & K & Pa & Pw & Bs & At & Dr & B) Mw L. pose proof (len_nonneg c).
  destruct (call_file_step pl cap q m others p s f (SetPosition 0 End) K B eq_refl) as (f' & E & Pa' & B2 & K').
  - cbn [file_allowed]. unfold file_target. rewrite Bs. split; [lia|discriminate].
  - intros _. exact Mw.
  - cbn [call_file reference] in E. destruct (file_seek pl f 0 FromEnd) as [f1| | | |]; try discriminate. cbn [bind] in E.
    injection E as ->. exists f'. split; [reflexivity|]. unfold next_stage in K'. cbn [file_call fst] in K'. unfold file_target in K'. rewrite Bs in K'.
    exists Resting. rewrite put_nil. unfold len at 2. cbn [length]. rewrite Z.add_0_r in *.
    split; [destruct (cap =? 0); exact K'|]. split; [congruence|]. split; [discriminate|exact B2].
Qed.

Lemma edit_text_file_ok : forall pl native cs w q cap e o o' l0 l fuel k ps,
  disk w q = Some (text_bytes e o (byte_order_mark :: l0)) -> obliging w ->
  Z.of_nat cap <= chunk_max pl -> wide_enough cap e ->
  Forall scalar l0 -> Forall (storable k) (filtered l0) -> (length l0 < fuel)%nat ->
  entries_text (map fst ps) l ->
  Forall (fun '(p, k) => can_enter native e o' p k /\ small_entry pl e o' p) ps ->
  len (text_bytes e o (byte_order_mark :: l0)) + len (text_bytes e o' l) < 2 ^ 63 ->
  exists w', edit_text_file pl w q cap (order_of native) cs e o' fuel k ps = Ok (w', AText (units k (filtered l0))) /\
    disk w' q = Some (text_bytes e o (byte_order_mark :: l0) ++ text_bytes e o' l) /\
    (forall x, x <> q -> disk w' x = disk w x).
Proof.
  intros pl native cs w q cap e o o' l0 l fuel k ps D B C W Sc St F T Pc L. unfold edit_text_file.
  set (c := text_bytes e o (byte_order_mark :: l0)) in *. pose proof (len_nonneg (text_bytes e o' l)). pose proof (len_nonneg c).
  destruct (opened_left _ pl w q cap ReadAndWrite c D ltac:(lia) (obliging_now w B) B C) as (f & E & Lf). rewrite E. cbn [bind].
  pose proof (file_text_source _ True pl (Z.of_nat cap) q ReadAndWrite (disk w) c (sound_full pl True) eq_refl) as G.
  destruct (read_bom_marked native (file_source pl) _ _ (sure_good _ _ _ _ G) e o o' l0 (TextInput f (order_of o') (form_of e)))
    as (st1 & E1 & H1); [split; [exact Lf|split; reflexivity]|exact (file_biggest_wide pl cap e W C)|].
  unfold as_input, new_text_io. cbn [io_res io_in_order io_in_form io_out_order io_out_form]. rewrite E1. cbn [bind io_res io_in_order io_in_form io_out_order io_out_form].
  change (match e with UTF8 => o' | _ => o end) with (marked_order e o o') in H1.
  rewrite (marked_bytes e o o') in H1.
  replace (TextInput (in_res st1) (in_order_ st1) (in_form st1)) with st1 by (destruct st1; reflexivity).
  destruct (gives_true _ _ _ (request_gives True native (file_source pl) _ _ G e (marked_order e o o') Rest k (length l0) l0 _ _ fuel st1
    (conj H1 (conj Sc (le_n _))) (file_biggest_wide pl cap e W C) F (ObtainsRest _) St)) as ([st2 x] & E2 & -> & l' & _ & (Lf2 & _) & _).
  rewrite E2. cbn [bind io_res io_in_order io_in_form io_out_order io_out_form].
  destruct (obliging_file_left _ _ _ _ _ _ _ _ Lf2 eq_refl ltac:(lia)) as (f3 & E3 & Hg3). rewrite E3. cbn [bind].
  unfold as_output. cbn [io_res io_in_order io_in_form io_out_order io_out_form].
  destruct (entries_on_file pl native cs (Z.of_nat cap) q ReadAndWrite (disk w) e o' ps l c (len c) (TextOutput f3 (order_of o') (form_of e)))
    as (st4 & E4 & W4); try assumption; try lia; try reflexivity.
  { split; [exact Hg3|split; reflexivity]. }
  rewrite E4. cbn [bind io_res io_in_order io_in_form io_out_order io_out_form]. destruct W4 as (Hg4 & _).
  destruct (gk_flush _ _ _ (file_good_sink pl (Z.of_nat cap) q ReadAndWrite (disk w) c (len c) eq_refl ltac:(lia)) _ _ Hg4) as (f5 & E5 & Hg5).
  unfold text_flush. cbn [out_res]. rewrite E5. cbn [bind noexcept with_res out_res io_res].
  destruct Hg5 as (pp & K5 & Pa5 & Pr5 & B5).
  destruct (close_file pl (Z.of_nat cap) q ReadAndWrite (disk w) pp _ f5 K5 B5 (fun _ => eq_refl)) as (f6 & E6 & _ & D6 & O6 & _ & B6 & _).
  unfold destroy. rewrite E6. cbn [bind]. eexists. split; [reflexivity|]. split; [|exact O6].
  unfold disk_of in D6. rewrite D6. cbn [bytes]. now rewrite put_end.
Qed.
