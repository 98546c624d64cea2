(** Tables of records in files. *)
From Coq Require Import NArith ZArith List Bool Lia ZifyBool ZifyNat ZifyN.
From Verif Require Import Base Integers UnicodeModel ResourceSpec ResourceModel ResourceText ResourceLemmas
  StreamSpec StreamModel StreamText StreamLemmas StreamLemmas2 StreamLemmas4
  FileSpec FileModel FileText FileLemmas FileLemmas2 FileLemmas3 FileLemmas4 FileLemmas6
  TextFileModel TextFileText TextFileLemmas TextFileLemmas2 TextFileLemmas3
  DataFileSpec DataFileModel DataFileText DataFileLemmas.
Import ListNotations.
Open Scope Z_scope.

(* ------------------------------------------------------------------- bytes *)

Lemma put_mid : forall a b c d, len d = len b -> put (a ++ b ++ c) (len a) d = a ++ d ++ c.
Proof.
  intros a b c d H. destruct d as [|x d].
  - destruct b; [reflexivity|]. unfold len in H. cbn [length] in H. lia.
  - rewrite put_eq by discriminate. rewrite take_app_exact. rewrite !len_app. pose proof (len_nonneg b). pose proof (len_nonneg c).
    rewrite zeros_none by lia. cbn [app]. f_equal. f_equal. f_equal.
    pose proof (len_nonneg a). rewrite H. rewrite drop_app_r by lia. replace (len a + len b - len a) with (len b) by lia.
    now rewrite drop_app_exact.
Qed.

Lemma record_size_nonneg : forall ly, 0 <= record_size ly.
Proof. induction ly as [|w ly IH]; cbn [record_size]; lia. Qed.

Lemma len_record : forall o ly r, length r = length ly -> len (record_bytes o ly r) = record_size ly.
Proof.
  unfold record_bytes. intros o. induction ly as [|w ly IH]; intros [|v r] L; cbn in L; try discriminate; [reflexivity|].
  cbn [combine record_size]. rewrite values_bytes_cons, len_app, len_in_order, IH by lia. reflexivity.
Qed.

Lemma len_table : forall o ly t, Forall (has_layout ly) t -> len (table_bytes o ly t) = Z.of_nat (length t) * record_size ly.
Proof.
  intros o ly t H. induction H as [|r t [Hr _] H IH]; [reflexivity|]. unfold table_bytes in *. cbn [flat_map length].
  rewrite len_app, IH, len_record by exact Hr. lia.
Qed.

Lemma table_bytes_app : forall o ly a b, table_bytes o ly (a ++ b) = table_bytes o ly a ++ table_bytes o ly b.
Proof. intros. unfold table_bytes. apply flat_map_app. Qed.

Lemma split_at : forall (A : Type) (d : A) i l, (i < length l)%nat ->
  l = firstn i l ++ nth i l d :: skipn (S i) l /\ length (firstn i l) = i.
Proof.
  intros A d. induction i as [|i IH]; intros [|x l] H; cbn [length] in H; try lia; [auto|].
  destruct (IH l ltac:(lia)) as [E L]. cbn [firstn nth skipn app length]. rewrite L. split; [|reflexivity]. f_equal. exact E.
Qed.

Lemma replaced_split : forall (A : Type) (a b : list A) x y, replaced (length a) y (a ++ x :: b) = a ++ y :: b.
Proof. intros A. induction a as [|z a IH]; intros b x y; cbn [app length replaced]; [reflexivity|]. now rewrite IH. Qed.

(** Where a record is. *)
Lemma table_at : forall o ly t i, Forall (has_layout ly) t -> (i < length t)%nat ->
  exists a b, table_bytes o ly t = a ++ record_bytes o ly (nth i t []) ++ b /\ len a = Z.of_nat i * record_size ly /\
    (forall r, table_bytes o ly (replaced i r t) = a ++ record_bytes o ly r ++ b) /\ has_layout ly (nth i t []).
Proof.
  intros o ly t i H Hi. destruct (split_at record [] i t Hi) as [E L]. set (x := nth i t []) in *.
  exists (table_bytes o ly (firstn i t)), (table_bytes o ly (skipn (S i) t)).
  assert (F : Forall (has_layout ly) (firstn i t) /\ has_layout ly x).
  { rewrite E in H. apply Forall_app in H. destruct H as [H1 H2]. split; [exact H1|]. exact (Forall_inv H2). }
  split; [|split; [|split; [|apply F]]].
  - rewrite E at 1. rewrite table_bytes_app. reflexivity.
  - rewrite len_table by apply F. now rewrite L.
  - intro r. rewrite E at 1. rewrite <- L at 1. rewrite replaced_split, table_bytes_app. reflexivity.
Qed.

(** Where a field is. *)
Lemma field_at : forall o ly r j, has_layout ly r -> (j < length ly)%nat ->
  exists a b, record_bytes o ly r = a ++ in_order o (nth j ly 0%nat) (nth j r 0%N) ++ b /\ len a = field_place ly j /\
    (forall v, record_bytes o ly (replaced j v r) = a ++ in_order o (nth j ly 0%nat) v ++ b) /\
    fits (nth j ly 0%nat, nth j r 0%N).
Proof.
  unfold record_bytes, field_place. intros o. induction ly as [|w ly IH]; intros [|v r] j [L F] H; cbn [length] in *; try lia.
  cbn [combine] in F. pose proof (Forall_inv F) as F1. apply Forall_inv_tail in F.
  destruct j as [|j]; cbn [nth firstn record_size replaced combine].
  - exists [], (values_bytes o (combine ly r)). auto.
  - destruct (IH r j ltac:(split; [lia|exact F]) ltac:(lia)) as (a & b & E & La & Er & Fv).
    exists (in_order o w v ++ a), b. rewrite values_bytes_cons, E, len_app, len_in_order, La, <- app_assoc.
    split; [reflexivity|]. split; [reflexivity|]. split; [|exact Fv].
    intro v'. rewrite values_bytes_cons, Er, <- app_assoc. reflexivity.
Qed.

Lemma replaced_length : forall (A : Type) i (x : A) l, length (replaced i x l) = length l.
Proof. intros A. induction i as [|i IH]; intros x [|y l]; cbn [replaced length]; auto. Qed.

Lemma replaced_Forall : forall (A : Type) (P : A -> Prop) i x l, P x -> Forall P l -> Forall P (replaced i x l).
Proof.
  intros A P. induction i as [|i IH]; intros x [|y l] Hx F; cbn [replaced]; auto; inversion F; subst; constructor; auto.
Qed.

Lemma replaced_layout : forall ly r j v, has_layout ly r -> (j < length ly)%nat -> fits (nth j ly 0%nat, v) ->
  has_layout ly (replaced j v r).
Proof.
  intros ly r j v [L F] H Fv. split; [now rewrite replaced_length|]. revert r j L F H Fv.
  induction ly as [|w ly IH]; intros [|x r] j L F H Fv; cbn [length combine] in *; try lia.
  pose proof (Forall_inv F) as F1. apply Forall_inv_tail in F. destruct j as [|j]; cbn [nth replaced combine] in *; constructor; auto.
  apply IH; auto; lia.
Qed.

Lemma perform_layout : forall ly t d, Forall (has_layout ly) t -> sensible ly t d -> Forall (has_layout ly) (fst (perform t d)).
Proof.
  intros ly t d H S. destruct d as [i|i j|i r|i j v|r| |]; cbn [perform fst sensible] in *; auto.
  - apply replaced_Forall; tauto.
  - destruct S as (Hi & Hj & Fv). apply replaced_Forall; [|exact H].
    destruct (table_at LittleEndian ly t i H Hi) as (a & b & _ & _ & _ & Hl). now apply replaced_layout.
  - apply Forall_app. auto.
Qed.

Lemma perform_length : forall t d, (length (fst (perform t d)) <= S (length t))%nat.
Proof.
  intros t d. destruct d as [i|i j|i r|i j v|r| |]; cbn [perform fst];
    rewrite ?(replaced_length record), ?(app_length (A := record)); cbn [length]; unfold record in *; lia.
Qed.

(* ------------------------------------------------------------------ streams *)

Lemma get_fields_eq : forall (R : Type) native (ops : source R) i o ws r,
  get_fields native ops (DataIO r i o) ws = bind (take_values native ops i r ws) (fun '(r, l) => Ok (DataIO r i o, l)).
Proof.
  intros R native ops i o. induction ws as [|w ws IH]; intro r; cbn [get_fields take_values]; [reflexivity|].
  unfold get_value. cbn [dio_in dio_res dio_out]. destruct (data_read native ops i r w) as [[r1 x]| | | |]; cbn [bind]; try reflexivity.
  rewrite IH. destruct (take_values native ops i r1 ws) as [[r2 l]| | | |]; reflexivity.
Qed.

Lemma put_fields_eq : forall (R : Type) native (ops : sink R) i o vs r,
  put_fields native ops (DataIO r i o) vs = bind (send_values native ops o r vs) (fun r => Ok (DataIO r i o)).
Proof.
  intros R native ops i o. induction vs as [|[w v] vs IH]; intro r; cbn [put_fields send_values]; [reflexivity|].
  unfold put_value. cbn [dio_in dio_res dio_out]. destruct (data_write native ops o r _) as [r1| | | |]; cbn [bind]; try reflexivity.
  apply IH.
Qed.

(* -------------------------------------------------------------------- deeds *)

Section Table.
Variables (pl : platform) (o : byte_order) (cap : nat) (q : N) (others : N -> option (list N)) (ly : layout).
Hypothesis Su : suits pl cap ly.
Hypothesis Ne : ly <> [].

(** The file holds the bytes c. *)
Definition holds_bytes (c : list N) (f : file) : Prop :=
  exists p s, keeps pl (Z.of_nat cap) q ReadAndWrite others p s f /\ path f = Some q /\ bytes s = c /\
    obliging (os (inner (res f))).

(** It is at n, and can be read from or written to. *)
Definition ready (c : list N) (n : Z) (f : file) : Prop :=
  keeps pl (Z.of_nat cap) q ReadAndWrite others Resting (Store c n) f /\ path f = Some q /\ obliging (os (inner (res f))).

Lemma go_ok : forall c f n pr, holds_bytes c f ->
  match pr with FromBegin => 0 <= n | FromCurrent => False | FromEnd => n = 0 end -> n < 2 ^ 63 -> len c < 2 ^ 63 ->
  exists f', file_seek pl f n pr = Ok f' /\ ready c (match pr with FromEnd => len c | _ => n end) f'.
Proof.
  intros c f n pr (p & s & K & Pa & Bs & B) H L Lc. pose proof (len_nonneg c).
  set (og := match pr with FromEnd => End | _ => Begin end).
  destruct (call_file_step pl _ q ReadAndWrite others p s f (SetPosition n og) K B eq_refl) as (f' & E & Pa' & B' & K').
  - cbn [file_allowed]. subst og. destruct pr; [|contradiction|]; unfold file_target; rewrite ?Bs; split; try lia; discriminate.
  - reflexivity.
  - exists f'. cbn [call_file] in E. replace (reference og) with pr in E by (subst og; destruct pr; [reflexivity|contradiction|reflexivity]).
    destruct (file_seek pl f n pr) as [f1| | | |]; try discriminate. cbn [bind] in E. injection E as ->. split; [reflexivity|].
    split; [|split; [congruence|exact B']].
    replace (next_stage (Z.of_nat cap) p (SetPosition n og)) with Resting in K' by (unfold next_stage; destruct (Z.of_nat cap =? 0); reflexivity).
    cbn [file_call fst] in K'. rewrite Bs in K'. subst og. destruct pr; [exact K'|contradiction|].
    unfold file_target in K'. rewrite Bs in K'. rewrite H, Z.add_0_r in K'. exact K'.
Qed.

Lemma ready_holds : forall c n f, ready c n f -> holds_bytes c f.
Proof. intros c n f (K & Pa & B). exists Resting, (Store c n). auto. Qed.

Lemma ready_left : forall c n f, ready c n f -> 0 <= n <= len c ->
  file_left (fun r => r = InFull) pl (Z.of_nat cap) q ReadAndWrite others c (drop n c) f.
Proof.
  intros c n f (K & Pa & B) H. exists Resting, (Store c n). cbn [bytes at_]. split; [exact K|]. split; [exact Pa|].
  split; [discriminate|]. split; [reflexivity|]. split; [lia|]. split; [reflexivity|exact B].
Qed.

Lemma left_holds : forall c rest f, file_left (fun r => r = InFull) pl (Z.of_nat cap) q ReadAndWrite others c rest f ->
  holds_bytes c f.
Proof. intros c rest f (p & s & K & Pa & _ & Bs & _ & _ & B). exists p, s. auto. Qed.

Lemma get_at : forall native o' c f a vs b, c = a ++ values_bytes o vs ++ b -> ready c (len a) f ->
  suits pl cap (map fst vs) ->
  exists f', take_values (order_of native) (file_source pl) (order_of o') f (map fst vs) = Ok (f', map (arrives native o) vs) /\
    holds_bytes c f'.
Proof.
  intros native o' c f a vs b E H S. subst c.
  assert (Sp : sound_responses pl True (fun r => r = InFull)) by (split; [right; intros r ->; now left|intros _ r ->; discriminate]).
  pose proof (ready_left _ _ _ H) as Lf. rewrite drop_app_exact in Lf. rewrite !len_app in Lf.
  pose proof (len_nonneg a). pose proof (len_nonneg b). pose proof (len_nonneg (values_bytes o vs)).
  destruct (gives_true _ _ _ (take_values_gives file True native o' o (file_source pl) _ _
    (file_text_source _ True pl (Z.of_nat cap) q ReadAndWrite others _ Sp eq_refl) vs b f (Lf ltac:(lia)) (suits_values pl cap vs S)))
    as ([f' l] & X & -> & Lf').
  exists f'. split; [exact X|]. exact (left_holds _ _ _ Lf').
Qed.

Lemma set_at : forall native c n f vs, ready c n f -> 0 <= n -> n + len (values_bytes o vs) < 2 ^ 63 ->
  suits pl cap (map fst vs) ->
  exists f', send_values (order_of native) (file_sink pl) (order_of o) f vs = Ok f' /\
    holds_bytes (put c n (values_bytes o vs)) f'.
Proof.
  intros native c n f vs (K & Pa & B) N0 L S.
  destruct (send_on_file pl native o (Z.of_nat cap) q ReadAndWrite others vs c n f eq_refl N0) as (f' & E & pp & K' & Pa' & _ & B').
  - unfold suits in S. rewrite Forall_map in S. eapply Forall_impl; [|exact S]. cbn beta. tauto.
  - exact L.
  - exists Resting. rewrite put_nil. unfold len. cbn [length]. rewrite Z.add_0_r. split; [exact K|]. split; [exact Pa|]. split; [discriminate|exact B].
  - exists f'. split; [exact E|]. exists pp, (Store (put c n (values_bytes o vs)) (n + len (values_bytes o vs))). auto.
Qed.

Lemma map_fst_combine : forall (r : record), length r = length ly -> map fst (combine ly r) = ly.
Proof.
  clear. induction ly as [|w l IH]; intros [|v r] L; cbn in L; try discriminate; [reflexivity|].
  cbn [combine map fst]. f_equal. apply IH. lia.
Qed.

Lemma map_snd_combine : forall (r : record), length r = length ly -> map snd (combine ly r) = r.
Proof.
  clear. induction ly as [|w l IH]; intros [|v r] L; cbn in L; try discriminate; [reflexivity|].
  cbn [combine map snd]. f_equal. apply IH. lia.
Qed.

Lemma suits_field : forall j, (j < length ly)%nat -> suits pl cap [nth j ly 0%nat].
Proof.
  intros j H. constructor; [|constructor]. unfold suits in Su. rewrite Forall_forall in Su. apply Su. now apply nth_In.
Qed.

Lemma record_size_pos : 0 < record_size ly.
Proof.
  destruct ly as [|w l]; [congruence|]. cbn [record_size]. pose proof (record_size_nonneg l).
  pose proof (Forall_inv Su) as (W & _). lia.
Qed.

Lemma take_one : forall native ord f w, take_values native (file_source pl) ord f [w]
  = bind (data_read native (file_source pl) ord f w) (fun '(r, data) => Ok (r, [from_memory native data])).
Proof. intros. cbn [take_values]. destruct (data_read _ _ _ _ _) as [[r x]| | | |]; reflexivity. Qed.

Lemma send_one : forall native ord f w v, send_values native (file_sink pl) ord f [(w, v)]
  = data_write native (file_sink pl) ord f (to_memory native w v).
Proof. intros. cbn [send_values]. destruct (data_write _ _ _ _ _) as [r| | | |]; reflexivity. Qed.

(** One deed, on a machine with the byte order of the table. *)
Lemma deed_ok : forall t d f, holds_bytes (table_bytes o ly t) f -> Forall (has_layout ly) t -> sensible ly t d ->
  (Z.of_nat (length t) + 1) * record_size ly < 2 ^ 63 ->
  exists f', do_deed pl (order_of o) ly (DataIO f (order_of o) (order_of o)) d
    = Ok (DataIO f' (order_of o) (order_of o), snd (perform t d)) /\
    holds_bytes (table_bytes o ly (fst (perform t d))) f'.
Proof.
  intros t d f H Ht S L. pose proof record_size_pos as Sz. pose proof (len_table o ly t Ht) as Lt.
  assert (Lb : len (table_bytes o ly t) + record_size ly < 2 ^ 63) by lia.
  assert (Bi : forall i, (i < length t)%nat -> 0 <= Z.of_nat i * record_size ly /\
    Z.of_nat i * record_size ly + record_size ly <= len (table_bytes o ly t)).
  { intros i Hi. rewrite Lt. assert (Z.of_nat i + 1 <= Z.of_nat (length t)) by lia. split; nia. }
  clear L.
  destruct d as [i|i j|i r|i j v|r| |]; cbn [sensible perform fst snd] in *; unfold do_deed, through; cbn [dio_res dio_in dio_out].
  - pose proof (Bi i S). destruct (table_at o ly t i Ht S) as (a & b & E & La & _ & Hl & Fl).
    destruct (go_ok _ f (Z.of_nat i * record_size ly) FromBegin H ltac:(cbn; lia) ltac:(lia) ltac:(lia)) as (f1 & E1 & R1). rewrite E1. cbn [bind].
    rewrite get_fields_eq. rewrite <- La in R1.
    destruct (get_at o o _ f1 a (combine ly (nth i t [])) b E R1) as (f2 & E2 & Hf2); [now rewrite map_fst_combine|].
    rewrite map_fst_combine in E2 by exact Hl. rewrite E2. cbn [bind]. exists f2.
    rewrite arrives_same by exact Fl. rewrite map_snd_combine by exact Hl. auto.
  - destruct S as [Hi Hj].
    pose proof (Bi i Hi). destruct (table_at o ly t i Ht Hi) as (a & b & E & La & _ & Hl).
    destruct (field_at o ly _ j Hl Hj) as (a' & b' & E' & La' & _ & Fv).
    pose proof (len_nonneg a'). pose proof (len_nonneg b').
    assert (Lf : field_place ly j <= record_size ly).
    { rewrite <- La'. rewrite <- (len_record o ly _ (proj1 Hl)), E', !len_app, len_in_order. lia. }
    destruct (go_ok _ f (Z.of_nat i * record_size ly + field_place ly j) FromBegin H ltac:(cbn; lia) ltac:(lia) ltac:(lia)) as (f1 & E1 & R1). rewrite E1. cbn [bind].
    unfold get_value. cbn [dio_res dio_in dio_out]. rewrite <- La, <- La', <- len_app in R1.
    destruct (get_at o o (table_bytes o ly t) f1 (a ++ a') [(nth j ly 0%nat, nth j (nth i t []) 0%N)] (b' ++ b)) as (f2 & E2 & Hf2).
    { rewrite E, E'. rewrite values_bytes_cons. cbn [values_bytes flat_map]. rewrite app_nil_r, <- !app_assoc. reflexivity. }
    { exact R1. }
    { now apply suits_field. }
    cbn [map fst] in E2. rewrite take_one in E2. destruct (data_read _ _ _ _ _) as [[r x]| | | |]; try discriminate. cbn [bind] in E2 |- *.
    injection E2 as -> Ex. exists f2. rewrite Ex. unfold arrives. cbn [fst snd]. rewrite from_memory_in_order by exact Fv. auto.
  - destruct S as [Hi [Lr Fr]].
    pose proof (Bi i Hi). destruct (table_at o ly t i Ht Hi) as (a & b & E & La & Er & Hl & _).
    destruct (go_ok _ f (Z.of_nat i * record_size ly) FromBegin H ltac:(cbn; lia) ltac:(lia) ltac:(lia)) as (f1 & E1 & R1). rewrite E1. cbn [bind].
    rewrite put_fields_eq. pose proof (len_record o ly r Lr) as Rl. unfold record_bytes in Rl.
    destruct (set_at o _ _ f1 (combine ly r) R1 ltac:(lia) ltac:(lia)) as (f2 & E2 & Hf2); [now rewrite map_fst_combine|].
    rewrite E2. cbn [bind]. exists f2. split; [reflexivity|]. rewrite Er. rewrite E, <- La in Hf2. rewrite put_mid in Hf2; [exact Hf2|].
    rewrite Rl. symmetry. now apply len_record.
  - destruct S as (Hi & Hj & Fv).
    pose proof (Bi i Hi). destruct (table_at o ly t i Ht Hi) as (a & b & E & La & Er & Hl).
    destruct (field_at o ly _ j Hl Hj) as (a' & b' & E' & La' & Er' & _).
    pose proof (len_nonneg a'). pose proof (len_nonneg b').
    assert (Lf : field_place ly j + Z.of_nat (nth j ly 0%nat) <= record_size ly).
    { rewrite <- La'. rewrite <- (len_record o ly _ (proj1 Hl)), E', !len_app, len_in_order. lia. }
    destruct (go_ok _ f (Z.of_nat i * record_size ly + field_place ly j) FromBegin H ltac:(cbn; lia) ltac:(lia) ltac:(lia)) as (f1 & E1 & R1). rewrite E1. cbn [bind].
    unfold put_value. cbn [dio_res dio_in dio_out].
    destruct (set_at o _ _ f1 [(nth j ly 0%nat, v)] R1 ltac:(lia)) as (f2 & E2 & Hf2).
    { rewrite values_bytes_cons. cbn [values_bytes flat_map]. rewrite app_nil_r, len_in_order. lia. }
    { now apply suits_field. }
    rewrite send_one in E2. rewrite E2. cbn [bind]. exists f2. split; [reflexivity|]. rewrite Er, Er'. rewrite <- La, <- La', <- len_app in Hf2.
    rewrite values_bytes_cons in Hf2. cbn [values_bytes flat_map] in Hf2. rewrite app_nil_r in Hf2.
    rewrite E, E' in Hf2. rewrite <- !app_assoc in Hf2. rewrite app_assoc in Hf2. rewrite put_mid in Hf2 by now rewrite !len_in_order.
    rewrite <- !app_assoc in *. exact Hf2.
  - destruct S as [Lr Fr].
    destruct (go_ok _ f 0 FromEnd H eq_refl ltac:(lia) ltac:(lia)) as (f1 & E1 & R1). rewrite E1. cbn [bind].
    rewrite put_fields_eq. pose proof (len_record o ly r Lr) as Rl. unfold record_bytes in Rl. pose proof (len_nonneg (table_bytes o ly t)).
    destruct (set_at o _ _ f1 (combine ly r) R1 ltac:(lia) ltac:(lia)) as (f2 & E2 & Hf2); [now rewrite map_fst_combine|].
    rewrite E2. cbn [bind]. exists f2. split; [reflexivity|]. rewrite put_end in Hf2. rewrite table_bytes_app.
    replace (table_bytes o ly [r]) with (values_bytes o (combine ly r)) by (unfold table_bytes; cbn [flat_map]; now rewrite app_nil_r).
    exact Hf2.
  - destruct (go_ok _ f 0 FromEnd H eq_refl ltac:(lia) ltac:(lia)) as (f1 & E1 & R1). rewrite E1. cbn [bind dio_res].
    pose proof R1 as (K1 & _). rewrite (file_position_ok _ _ _ _ _ _ _ _ K1). cbn [bind at_]. exists f1. rewrite Lt, Z.div_mul by lia.
    split; [reflexivity|]. exact (ready_holds _ _ _ R1).
  - destruct H as (p & s & [K Md] & Pa & Bs & B). unfold flush_io, through. cbn [dio_res dio_in dio_out file_sink sink_flush]. unfold file_flush.
    destruct (flush_file_step pl _ q _ _ others p _ (res f) K B) as (r' & E & B' & K'); [reflexivity|]. rewrite E. cbn [bind].
    exists (File r' (path f) (mode f)). split; [reflexivity|]. exists (match p with InReads => InReads | _ => Resting end), s.
    split; [split; [exact K'|exact Md]|]. auto.
Qed.

Lemma deeds_ok : forall ds t f, holds_bytes (table_bytes o ly t) f -> Forall (has_layout ly) t -> all_sensible ly t ds ->
  (Z.of_nat (length t) + Z.of_nat (length ds)) * record_size ly < 2 ^ 63 ->
  exists f', do_deeds pl (order_of o) ly (DataIO f (order_of o) (order_of o)) ds
    = Ok (DataIO f' (order_of o) (order_of o), snd (perform_all t ds)) /\
    holds_bytes (table_bytes o ly (fst (perform_all t ds))) f'.
Proof.
  pose proof record_size_pos as Sz.
  induction ds as [|d ds IH]; intros t f H Ht S L; cbn [do_deeds perform_all].
  - exists f. auto.
  - destruct S as [S1 S2]. cbn [length] in L.
    destruct (deed_ok t d f H Ht S1 ltac:(nia)) as (f1 & E1 & H1). rewrite E1. cbn [bind].
    pose proof (perform_length t d).
    destruct (IH _ f1 H1 (perform_layout ly t d Ht S1) S2 ltac:(nia)) as (f2 & E2 & H2). rewrite E2. cbn [bind].
    destruct (perform t d) as [t1 y]. cbn [fst snd] in *. destruct (perform_all t1 ds) as [t2 l]. exists f2. auto.
Qed.

End Table.

Lemma use_table_ok : forall pl o cap w q how ly t ds, Z.of_nat cap <= chunk_max pl -> suits pl cap ly -> ly <> [] ->
  will_open w q how (table_bytes o ly t) -> obliging w -> Forall (has_layout ly) t -> all_sensible ly t ds ->
  (Z.of_nat (length t) + Z.of_nat (length ds)) * record_size ly < 2 ^ 63 ->
  exists w', use_table pl w q how cap (order_of o) (order_of o) ly ds = Ok (w', snd (perform_all t ds)) /\
    disk w' q = Some (table_bytes o ly (fst (perform_all t ds))) /\ (forall x, x <> q -> disk w' x = disk w x) /\ obliging w'.
Proof.
  intros pl o cap w q how ly t ds C Su Ne D B Ht S L. unfold use_table. pose proof (len_table o ly t Ht) as Lt.
  pose proof (record_size_nonneg ly).
  destruct (new_file_opens pl w q _ ReadAndWrite how cap D ltac:(nia) B C) as (f & E & Pa & B1 & K). rewrite E. cbn [bind]. clear E.
  destruct (deeds_ok pl o cap q (disk w) ly Su Ne ds t f) as (f1 & E1 & p & s & [K1 Md] & Pa1 & Bs & B2); try assumption.
  { exists Resting, (Store (table_bytes o ly t) 0). auto. }
  unfold new_data_io. rewrite E1. cbn [bind]. unfold flush_io, through. cbn [dio_res dio_in dio_out file_sink sink_flush]. unfold file_flush.
  destruct (flush_file_step pl _ q _ _ (disk w) p _ (res f1) K1 B2) as (r' & E2 & B' & K'); [reflexivity|]. rewrite E2. cbn [bind noexcept dio_res].
  assert (K2 : keeps pl (Z.of_nat cap) q ReadAndWrite (disk w) (match p with InReads => InReads | _ => Resting end) s (File r' (path f1) (mode f1)))
    by (split; [exact K'|exact Md]).
  destruct (close_file pl (Z.of_nat cap) q ReadAndWrite (disk w) _ s _ K2 B' (fun _ => eq_refl)) as (f3 & E3 & _ & D3 & O3 & _ & B3 & _).
  unfold destroy. rewrite E3. cbn [bind]. eexists. split; [reflexivity|]. rewrite Bs in D3. split; [exact D3|]. split; [exact O3|exact B3].
Qed.
