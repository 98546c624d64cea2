(** Properties C94-C98 of values in files, on both platforms. *)
From Coq Require Import NArith ZArith List Bool Lia.
From Coq Require Import ZifyBool ZifyNat ZifyN.
From Verif Require Import Base Integers UnicodeModel ResourceSpec ResourceModel ResourceText
  StreamSpec StreamModel StreamText FileSpec FileModel FileText TextFileModel TextFileText
  DataFileSpec DataFileModel DataFileText.
From Verif Require Import ResourceLemmas StreamLemmas StreamLemmas2 StreamLemmas4 FileLemmas FileLemmas2 FileLemmas3 FileLemmas5
  TextFileLemmas TextFileLemmas2 TextFileLemmas3 DataFileLemmas DataFileLemmas2.
Import ListNotations.
Open Scope Z_scope.

(** For the examples: the contents of file 1, no others, none open, and the responses of
    the operating system. *)
Definition shelf (l : option (list N)) (s : list response) : world :=
  World (fun q => if N.eqb q 1 then l else None) (fun _ => None) 0 s.

Definition done (x : outcome world) : world := match x with Ok w => w | _ => shelf None [] end.
Definition done_with {A : Type} (x : outcome (world * A)) : world := match x with Ok (w, _) => w | _ => shelf None [] end.

Definition sample_values : list (nat * N) := [(4%nat, 0x01020304%N); (1%nat, 7%N); (8%nat, 0xFFFFFFFFFFFFFFFF%N); (2%nat, 0%N)].

Lemma chunk_100 : forall pl, 100 <= chunk_max pl.
Proof. intros []; vm_compute; discriminate. Qed.

Lemma suits_100 : forall pl cap ws, Forall (fun w => (0 < w)%nat /\ (w <= 100)%nat /\ roomy cap w) ws -> suits pl cap ws.
Proof.
  intros pl cap ws H. pose proof (chunk_100 pl). eapply Forall_impl; [|exact H]. cbn beta. intros w (A & B & C). split; [exact A|].
  split; [lia|exact C].
Qed.

Ltac small_sizes := repeat (apply Forall_cons; [split; [lia|]; split; [lia|]; unfold roomy; lia|]); apply Forall_nil.

Lemma suits_chunk : forall pl cap vs, suits pl cap (map fst vs) ->
  Forall (fun x : nat * N => (0 < fst x)%nat /\ Z.of_nat (fst x) <= chunk_max pl) vs.
Proof. intros pl cap vs S. unfold suits in S. rewrite Forall_map in S. eapply Forall_impl; [|exact S]. cbn beta. tauto. Qed.

Lemma both_chunk : forall pl pl' cap vs, Forall (fun x => Z.of_nat (fst x) <= chunk_max pl) vs -> suits pl' cap (map fst vs) ->
  Forall (fun x : nat * N => (0 < fst x)%nat /\ Z.of_nat (fst x) <= chunk_max pl) vs.
Proof.
  intros pl pl' cap vs A B. unfold suits in B. rewrite Forall_map in B. rewrite Forall_forall in *. intros x X.
  specialize (A x X). specialize (B x X). cbn beta in *. tauto.
Qed.

Lemma mode_writes_not : forall m, m <> ReadOnly -> mode_writes m = true.
Proof. intros [] H; congruence || reflexivity. Qed.
Lemma mode_reads_not : forall m, m <> WriteOnly -> mode_reads m = true.
Proof. intros [] H; congruence || reflexivity. Qed.

(* ---------------------------------------------------------------------- C94 *)

(** Values written to a file by one program, on any machine, are there in the byte order
    asked for, and another program with a machine of that byte order reads them back.
    Missing: readers with a machine of the other byte order (refuted below); an older file
    that is longer (refuted below); an operating system that does not transfer all it is
    asked to (C97, refuted below for writes); objects larger than the buffer or than one transfer. *)
Theorem C94_values_partial : forall pl pl' native o w q old how cap cap' m m' vs,
  will_open w q how old -> len old <= len (values_bytes o vs) < 2 ^ 62 -> obliging w ->
  Z.of_nat cap <= chunk_max pl -> Z.of_nat cap' <= chunk_max pl' -> m <> ReadOnly -> m' <> WriteOnly ->
  Forall (fun x => Z.of_nat (fst x) <= chunk_max pl) vs -> suits pl' cap' (map fst vs) -> Forall fits vs ->
  exists w1 w2,
    write_data_file pl w q m how cap false (order_of native) (order_of o) vs = Ok w1 /\
    disk w1 q = Some (values_bytes o vs) /\ (forall x, x <> q -> disk w1 x = disk w x) /\
    read_data_file pl' w1 q m' cap' (order_of o) (order_of o) (map fst vs) = Ok (w2, map snd vs) /\
    (forall x, disk w2 x = disk w1 x).
Proof.
  intros pl pl' native o w q old how cap cap' m m' vs Wo L B C C' Mw Mr Sm Su F. pose proof (len_nonneg old).
  destruct (write_data_file_ok pl native o w q old how cap false m vs Wo B C (mode_writes_not m Mw) (both_chunk pl pl' cap' vs Sm Su) ltac:(lia))
    as (w1 & E1 & D1 & O1 & B1).
  rewrite put_over in D1 by lia. exists w1.
  assert (D1' : disk w1 q = Some (values_bytes o vs ++ [])) by now rewrite app_nil_r.
  destruct (gives_true _ _ _ (read_data_file_gives (fun r => r = InFull) True pl' o o o w1 q cap' m' vs []
    ltac:(split; [right; intros r ->; now left|intros _ r ->; discriminate]) D1' ltac:(rewrite app_nil_r; lia) (obliging_now w1 B1) B1 C' Su
    (mode_reads_not m' Mr))) as ([w2 xs] & E2 & -> & Dq & O2).
  exists w2. rewrite arrives_same in E2 by exact F. split; [exact E1|]. split; [exact D1|]. split; [exact O1|]. split; [exact E2|].
  intro x. destruct (N.eq_dec x q) as [->|X]; [exact Dq|now apply O2].
Qed.
Print Assumptions C94_values_partial.
Example C94_example : forall pl,
  let w := shelf (Some [1; 2; 3]%N) [InFull; InFull] in
  will_open w 1 Fail [1; 2; 3]%N /\ len [1; 2; 3]%N <= len (values_bytes BigEndian sample_values) < 2 ^ 62 /\ obliging w /\
  Z.of_nat 5 <= chunk_max pl /\ Z.of_nat 8 <= chunk_max pl /\ suits pl 8 (map fst sample_values) /\ Forall fits sample_values /\ Forall (fun x => Z.of_nat (fst x) <= chunk_max pl) sample_values /\
  values_bytes BigEndian sample_values = [1; 2; 3; 4; 7; 255; 255; 255; 255; 255; 255; 255; 255; 0; 0]%N.
Proof.
  intro pl. cbn zeta. split; [left; reflexivity|]. split; [vm_compute; split; [discriminate|reflexivity]|]. split; [repeat constructor|].
  pose proof (chunk_100 pl). split; [lia|]. split; [lia|]. split.
  - apply suits_100. cbn [map fst sample_values]. small_sizes.
  - unfold sample_values. split; [repeat constructor|]. split; [repeat constructor; cbn [fst]; lia|reflexivity].
Qed.

(** On a machine of the other byte order every value of the file comes back with its bytes
    reversed, though the stream was given the byte order of the file. *)
Theorem C94_other_order_refuted : forall pl pl' native o w q old how cap cap' m m' vs,
  will_open w q how old -> len old <= len (values_bytes o vs) < 2 ^ 62 -> obliging w ->
  Z.of_nat cap <= chunk_max pl -> Z.of_nat cap' <= chunk_max pl' -> m <> ReadOnly -> m' <> WriteOnly ->
  Forall (fun x => Z.of_nat (fst x) <= chunk_max pl) vs -> suits pl' cap' (map fst vs) -> Forall fits vs ->
  exists w1 w2 l,
    write_data_file pl w q m how cap false (order_of native) (order_of o) vs = Ok w1 /\
    disk w1 q = Some (values_bytes o vs) /\
    read_data_file pl' w1 q m' cap' (order_of (opposite o)) (order_of o) (map fst vs) = Ok (w2, l) /\
    Forall2 (fun x v' => fits (fst x, v') /\ little (fst x) v' = rev (little (fst x) (snd x))) vs l.
Proof.
  intros pl pl' native o w q old how cap cap' m m' vs Wo L B C C' Mw Mr Sm Su F. pose proof (len_nonneg old).
  destruct (write_data_file_ok pl native o w q old how cap false m vs Wo B C (mode_writes_not m Mw) (both_chunk pl pl' cap' vs Sm Su) ltac:(lia))
    as (w1 & E1 & D1 & O1 & B1).
  rewrite put_over in D1 by lia. exists w1.
  assert (D1' : disk w1 q = Some (values_bytes o vs ++ [])) by now rewrite app_nil_r.
  destruct (gives_true _ _ _ (read_data_file_gives (fun r => r = InFull) True pl' (opposite o) o o w1 q cap' m' vs []
    ltac:(split; [right; intros r ->; now left|intros _ r ->; discriminate]) D1' ltac:(rewrite app_nil_r; lia) (obliging_now w1 B1) B1 C' Su
    (mode_reads_not m' Mr))) as ([w2 xs] & E2 & -> & Dq & O2).
  eexists w2, _. split; [exact E1|]. split; [exact D1|]. split; [exact E2|]. clear.
  induction vs as [|[w v] vs IH]; [constructor|]. cbn [map]. constructor; [|exact IH]. cbn [fst snd].
  destruct (reversed_value (opposite o) w v) as (v' & Fv & Ev). unfold arrives. cbn [fst snd].
  replace (opposite (opposite o)) with o in Ev by now destruct o.
  rewrite <- Ev, from_memory_in_order by exact Fv. split; [exact Fv|].
  destruct o; cbn [in_order opposite] in Ev.
  - rewrite <- Ev. now rewrite rev_involutive.
  - exact Ev.
Qed.
Print Assumptions C94_other_order_refuted.
Example C94_other_order_example : exists w1 w2,
  write_data_file Windows (shelf None []) 1 WriteOnly Create 16 false Little Big [(4%nat, 0x01020304%N)] = Ok w1 /\
  read_data_file Windows w1 1 ReadOnly 16 Little Big [4%nat] = Ok (w2, [0x04030201%N]).
Proof.
  exists (done (write_data_file Windows (shelf None []) 1 WriteOnly Create 16 false Little Big [(4%nat, 0x01020304%N)])).
  exists (done_with (read_data_file Windows (done (write_data_file Windows (shelf None []) 1 WriteOnly Create 16 false Little Big [(4%nat, 0x01020304%N)])) 1 ReadOnly 16 Little Big [4%nat])).
  split; vm_compute; reflexivity.
Qed.

(** What was in a longer file stays behind the values: whoever reads until the end gets
    more than was written. *)
Theorem C94_longer_file_refuted : forall pl, exists w1 w2,
  write_data_file pl (shelf (Some [1; 2; 3; 4]%N) []) 1 WriteOnly Create 16 false Little Little [(2%nat, 9%N)] = Ok w1 /\
  read_whole_file pl w1 1 ReadOnly 16 Little Little 10 2 = Ok (w2, [9; 0x0403]%N).
Proof.
  intro pl. exists (done (write_data_file pl (shelf (Some [1; 2; 3; 4]%N) []) 1 WriteOnly Create 16 false Little Little [(2%nat, 9%N)])).
  exists (done_with (read_whole_file pl (done (write_data_file pl (shelf (Some [1; 2; 3; 4]%N) []) 1 WriteOnly Create 16 false Little Little [(2%nat, 9%N)])) 1 ReadOnly 16 Little Little 10 2)).
  destruct pl; split; vm_compute; reflexivity.
Qed.
Print Assumptions C94_longer_file_refuted.

(** The operating system refuses the write: the values are lost, and nothing is thrown. *)
Theorem C94_lost_refuted : forall pl cap, cap = 0%nat \/ cap = 16%nat -> exists w',
  write_data_file pl (shelf (Some []) [InFull; Refuse]) 1 WriteOnly Create cap false Little Little [(4%nat, 5%N)] = Ok w' /\
  disk w' 1%N = Some [].
Proof.
  intros pl cap H. exists (done (write_data_file pl (shelf (Some []) [InFull; Refuse]) 1 WriteOnly Create cap false Little Little [(4%nat, 5%N)])).
  destruct pl, H as [->| ->]; split; vm_compute; reflexivity.
Qed.
Print Assumptions C94_lost_refuted.

(** Appending: the file keeps what it had, and has the values behind it.
    Missing: as for C94_values_partial. *)
Theorem C94_appended_partial : forall pl native o w q old cap m vs,
  disk w q = Some old -> len old + len (values_bytes o vs) < 2 ^ 63 -> obliging w ->
  Z.of_nat cap <= chunk_max pl -> m <> ReadOnly -> Forall (fun x => (0 < fst x)%nat /\ Z.of_nat (fst x) <= chunk_max pl) vs ->
  exists w1, write_data_file pl w q m Fail cap true (order_of native) (order_of o) vs = Ok w1 /\
    disk w1 q = Some (old ++ values_bytes o vs) /\ (forall x, x <> q -> disk w1 x = disk w x).
Proof.
  intros pl native o w q old cap m vs D L B C Mw F.
  destruct (write_data_file_ok pl native o w q old Fail cap true m vs (or_introl D) B C (mode_writes_not m Mw) F L) as (w1 & E1 & D1 & O1 & B1).
  rewrite put_end in D1. exists w1. auto.
Qed.
Print Assumptions C94_appended_partial.
Example C94_appended_example : forall pl,
  disk (shelf (Some [1; 2; 3]%N) []) 1%N = Some [1; 2; 3]%N /\ Z.of_nat 3 <= chunk_max pl /\
  Forall (fun x : nat * N => (0 < fst x)%nat /\ Z.of_nat (fst x) <= chunk_max pl) sample_values.
Proof. intro pl. pose proof (chunk_100 pl). split; [reflexivity|]. split; [lia|]. unfold sample_values. repeat constructor; cbn [fst]; lia. Qed.

(* ---------------------------------------------------------------------- C95 *)

(** A table of records kept in a file is used through a data I/O stream, with the position
    set before every access: each record or field read is the one last written there, and
    the file ends up as the bytes of the table.
    Missing: a byte order that is not the machine's (refuted below), accesses without
    setting the position (refuted below), fields larger than the buffer or than one
    transfer, an operating system that does not transfer all it is asked to. *)
Theorem C95_table_partial : forall pl o cap w q how ly t ds,
  will_open w q how (table_bytes o ly t) -> obliging w -> Z.of_nat cap <= chunk_max pl ->
  suits pl cap ly -> ly <> [] -> Forall (has_layout ly) t -> all_sensible ly t ds ->
  (Z.of_nat (length t) + Z.of_nat (length ds)) * record_size ly < 2 ^ 63 ->
  let '(t', answers) := perform_all t ds in
  exists w', use_table pl w q how cap (order_of o) (order_of o) ly ds = Ok (w', answers) /\
    disk w' q = Some (table_bytes o ly t') /\ (forall x, x <> q -> disk w' x = disk w x).
Proof.
  intros pl o cap w q how ly t ds D B C Su Ne Ht S L.
  destruct (use_table_ok pl o cap w q how ly t ds C Su Ne D B Ht S L) as (w' & E & Dq & O & _).
  destruct (perform_all t ds) as [t' answers]. exists w'. auto.
Qed.
Print Assumptions C95_table_partial.

Definition sample_deeds : list deed :=
  [AddRecord [1; 2]; AddRecord [3; 4]; GetRecord 0; SetField 1 0 0xABCD; AddRecord [5; 6]; Save; GetRecord 1; SetRecord 0 [7; 8];
   GetField 0 1; CountRecords]%N.
Example C95_example : forall pl,
  will_open (shelf (Some []) []) 1 Fail (table_bytes LittleEndian [2%nat; 1%nat] []) /\ suits pl 3 [2%nat; 1%nat] /\
  all_sensible [2%nat; 1%nat] [] sample_deeds /\
  perform_all [] sample_deeds
  = ([[7; 8]; [0xABCD; 4]; [5; 6]]%N,
     [Nothing; Nothing; ARecord [1; 2]%N; Nothing; Nothing; Nothing; ARecord [0xABCD; 4]%N; Nothing; AValue 8; ACount 3]) /\
  table_bytes LittleEndian [2%nat; 1%nat] (fst (perform_all [] sample_deeds)) = [7; 0; 8; 0xCD; 0xAB; 4; 5; 0; 6]%N.
Proof.
  intro pl. split; [left; reflexivity|]. split; [apply suits_100; small_sizes|]. split.
  - cbn. unfold has_layout, fits. cbn. repeat split; try lia; repeat constructor; cbn; lia.
  - split; reflexivity.
Qed.

(** With the other byte order (big-endian is the default of the streams) what is read is
    not what was written, not even by the same stream. *)
Theorem C95_byte_order_refuted : forall pl, exists w',
  use_table pl (shelf None []) 1 Create 16 Little Big [4%nat] [AddRecord [1]%N; GetRecord 0]
  = Ok (w', [Nothing; ARecord [0x01000000]%N]).
Proof.
  intro pl. exists (done_with (use_table pl (shelf None []) 1 Create 16 Little Big [4%nat] [AddRecord [1]%N; GetRecord 0])).
  destruct pl; vm_compute; reflexivity.
Qed.
Print Assumptions C95_byte_order_refuted.

(** Without setting the position: a value put, then one taken.  The one taken is not the
    next, and the one put never reaches the file.  Expected is
    turns [1; 2; 3; 4] 0 [Give 9; Take] = ([9; 2; 3; 4], [2]). *)
Theorem C95_in_turn_refuted : forall pl, exists w',
  turns [1; 2; 3; 4]%N 0 [Give 9; Take]%N = ([9; 2; 3; 4], [2])%N /\
  use_in_turn pl (shelf (Some [1; 2; 3; 4]%N) []) 1 4 Little Little 1 [Give 9; Take]%N = Ok (w', [1]%N) /\
  disk w' 1%N = Some [1; 2; 3; 4]%N.
Proof.
  intro pl. exists (done_with (use_in_turn pl (shelf (Some [1; 2; 3; 4]%N) []) 1 4 Little Little 1 [Give 9; Take]%N)).
  destruct pl; (split; [reflexivity|]); split; vm_compute; reflexivity.
Qed.
Print Assumptions C95_in_turn_refuted.

(** And values taken until the buffer is empty, then one put: undefined behaviour. *)
Theorem C95_in_turn_ub_refuted : forall pl,
  turns [1; 2; 3; 4]%N 0 [Take; Take; Give 9]%N = ([1; 2; 9; 4], [1; 2])%N /\
  use_in_turn pl (shelf (Some [1; 2; 3; 4]%N) []) 1 2 Little Little 1 [Take; Take; Give 9]%N = UB OutOfBoundsWrite.
Proof. intros []; split; vm_compute; reflexivity. Qed.
Print Assumptions C95_in_turn_ub_refuted.

(* ---------------------------------------------------------------------- C96 *)

Lemma whole_values : forall width (Hw : (0 < width)%nat) n (c : list N), (length c <= n)%nat -> Forall (fun b => (b < 256)%N) c ->
  exists vs rest, c = flat_map (little width) vs ++ rest /\ (length rest < width)%nat /\ Forall (fun v => fits (width, v)) vs.
Proof.
  intros width Hw. induction n as [|n IH]; intros c L F.
  - destruct c; [|cbn in L; lia]. exists [], []. cbn. auto.
  - destruct (Nat.lt_ge_cases (length c) width) as [H|H]; [exists [], c; cbn; auto|].
    destruct (IH (skipn width c)) as (vs & rest & E & Lr & Fv).
    { rewrite skipn_length. lia. }
    { rewrite <- (firstn_skipn width c) in F. apply Forall_app in F. apply F. }
    assert (Lf : length (firstn width c) = width) by (rewrite firstn_length; lia).
    assert (V : forall d, Forall (fun b => (b < 256)%N) d -> exists v, (v < 256 ^ N.of_nat (length d))%N /\ little (length d) v = d).
    { clear. induction d as [|b d IH]; intro H; [exists 0%N; cbn; split; [lia|reflexivity]|].
      inversion H; subst. destruct IH as (v & B & E); [assumption|]. exists (b + 256 * v)%N.
      cbn [length little]. split.
      - rewrite Nat2N.inj_succ, N.pow_succ_r'. lia.
      - replace ((b + 256 * v) mod 256)%N with b.
        + replace ((b + 256 * v) / 256)%N with v; [now rewrite E|].
          apply N.div_unique with b; lia.
        + apply N.mod_unique with v; lia. }
    destruct (V (firstn width c)) as (v & Bv & Ev).
    { rewrite <- (firstn_skipn width c) in F. apply Forall_app in F. apply F. }
    rewrite Lf in Bv, Ev. exists (v :: vs), rest. cbn [flat_map]. rewrite Ev, <- app_assoc, <- E, firstn_skipn.
    split; [reflexivity|]. split; [exact Lr|]. constructor; [exact Bv|exact Fv].
Qed.

(** Whatever a file contains: reading values of one size until the end gives values whose
    bytes are exactly those of the file, or ends with an exception because the last value is incomplete.
    Missing: an operating system that does not transfer all it is asked to (C97); reading
    with the byte order that is not the machine's (C94_other_order_refuted). *)
Theorem C96_whole_file_partial : forall pl native w q c cap m width fuel,
  disk w q = Some c -> Forall (fun b => (b < 256)%N) c -> len c < 2 ^ 63 -> obliging w -> Z.of_nat cap <= chunk_max pl ->
  suits pl cap [width] -> m <> WriteOnly -> (length c < fuel)%nat ->
  (exists vs w', read_whole_file pl w q m cap (order_of native) (order_of native) fuel width = Ok (w', vs) /\
     (forall x, disk w' x = disk w x) /\
     values_bytes native (map (pair width) vs) = c /\ Forall (fun v => fits (width, v)) vs) \/
  (read_whole_file pl w q m cap (order_of native) (order_of native) fuel width = Throw ReadPastEnd /\
     Z.of_nat (length c) mod Z.of_nat width <> 0).
Proof.
  intros pl native w q c cap m width fuel D Fc L B C Su Mr Fu.
  pose proof (Forall_inv Su) as (W & _).
  assert (X : exists vs rest, c = values_bytes native (map (pair width) vs) ++ rest /\ (length rest < width)%nat /\
    Forall (fun v => fits (width, v)) vs /\ (length vs <= length c)%nat).
  { destruct (whole_values width W (length c) c (le_n _) Fc) as (vs & rest & E & Lr & Fv).
    assert (K : exists vs', flat_map (little width) vs = values_bytes native (map (pair width) vs') /\ Forall (fun v => fits (width, v)) vs' /\
      length vs' = length vs).
    { clear - Fv. induction Fv as [|v vs Hv Fv IH]; [exists []; cbn; auto|]. destruct IH as (vs' & E & F & Ln).
      destruct native.
      - exists (v :: vs'). cbn [flat_map map]. rewrite values_bytes_cons, E. cbn [length]. auto.
      - destruct (reversed_value BigEndian width v) as (v' & F' & E'). exists (v' :: vs'). cbn [flat_map map]. rewrite values_bytes_cons, E, E'.
        cbn [length]. auto. }
    destruct K as (vs' & E' & F' & Ln). exists vs', rest. split; [congruence|]. split; [exact Lr|]. split; [exact F'|].
    rewrite E, app_length, Ln. assert (length vs <= length (flat_map (little width) vs))%nat; [|lia].
    clear - W. induction vs as [|v vs IH]; [cbn; lia|]. cbn [flat_map length]. rewrite app_length, little_length. lia. }
  destruct X as (vs & rest & E & Lr & Fv & Ln). subst c.
  pose proof (read_whole_file_ok pl native native native w q cap m width vs rest fuel D L B C Su (mode_reads_not m Mr) ltac:(unfold len; lia) ltac:(lia)) as H.
  destruct rest as [|b rest].
  - destruct H as (w' & E & O). left. exists vs, w'. rewrite app_nil_r. split; [|auto]. rewrite E. do 2 f_equal.
    rewrite <- map_map with (f := pair width) (g := arrives native native). rewrite arrives_same; [|now apply Forall_map].
    rewrite map_map. cbn [snd]. apply map_id.
  - right. split; [exact H|]. rewrite app_length.
    assert (Lv : Z.of_nat (length (values_bytes native (map (pair width) vs))) = Z.of_nat (length vs) * Z.of_nat width).
    { clear. induction vs as [|v vs IH]; [reflexivity|]. cbn [map]. rewrite values_bytes_cons, app_length, in_order_length. cbn [length]. lia. }
    rewrite Nat2Z.inj_add, Lv, Z.add_comm, Z.mod_add by lia. rewrite Z.mod_small by lia. cbn [length]. lia.
Qed.
Print Assumptions C96_whole_file_partial.
Example C96_example : forall pl,
  let w := shelf (Some [1; 0; 0; 2]%N) [] in
  disk w 1%N = Some [1; 0; 0; 2]%N /\ suits pl 0 [2%nat] /\
  (exists w', read_whole_file pl w 1 ReadOnly 0 Big Big 5 2 = Ok (w', [256; 2]%N)) /\
  read_whole_file pl w 1 ReadOnly 4 Big Big 5 3 = Throw ReadPastEnd.
Proof.
  intro pl. cbn zeta. split; [reflexivity|]. split; [apply suits_100; small_sizes|]. split.
  - exists (done_with (read_whole_file pl (shelf (Some [1; 0; 0; 2]%N) []) 1 ReadOnly 0 Big Big 5 2)). destruct pl; vm_compute; reflexivity.
  - destruct pl; vm_compute; reflexivity.
Qed.

(** With the byte order that is not the machine's the values are not those of the file: a
    big-endian file read by a big-endian stream on a little-endian machine. *)
Theorem C96_other_order_refuted : forall pl, exists w' vs,
  read_whole_file pl (shelf (Some [1; 0; 0; 2]%N) []) 1 ReadOnly 4 (order_of LittleEndian) (order_of BigEndian) 5 2 = Ok (w', vs) /\
  values_bytes BigEndian (map (pair 2%nat) vs) = [0; 1; 2; 0]%N.
Proof.
  intro pl. exists (done_with (read_whole_file pl (shelf (Some [1; 0; 0; 2]%N) []) 1 ReadOnly 4 (order_of LittleEndian) (order_of BigEndian) 5 2)), [1; 0x200]%N.
  destruct pl; split; vm_compute; reflexivity.
Qed.
Print Assumptions C96_other_order_refuted.

(* ---------------------------------------------------------------------- C97 *)

(** Whatever the operating system does when the file is read (on Unix-like systems: short of
    transferring only part of what it is asked for), the values are those of the file, or an exception
    says that there are too few.
    Missing: reads that transfer less on Unix-like systems (refuted below). *)
Theorem C97_any_system_partial : forall pl o w q cap m vs rest,
  disk w q = Some (values_bytes o vs ++ rest) -> len (values_bytes o vs ++ rest) < 2 ^ 63 ->
  opens w -> no_short_read_on_unix pl w -> Z.of_nat cap <= chunk_max pl -> suits pl cap (map fst vs) -> m <> WriteOnly ->
  Forall fits vs ->
  (exists w', read_data_file pl w q m cap (order_of o) (order_of o) (map fst vs) = Ok (w', map snd vs) /\
     (forall x, disk w' x = disk w x)) \/
  read_data_file pl w q m cap (order_of o) (order_of o) (map fst vs) = Throw ReadPastEnd.
Proof.
  intros pl o w q cap m vs rest D L Op Ns C Su Mr F.
  assert (Op' : response_now w <> Refuse).
  { unfold opens in Op. unfold response_now. destruct (script w) as [|[]]; cbn; congruence || tauto. }
  assert (G : gives False (read_data_file pl w q m cap (order_of o) (order_of o) (map fst vs)) (fun '(w', xs) =>
    xs = map (arrives o o) vs /\ disk w' q = disk w q /\ (forall x, x <> q -> disk w' x = disk w x))).
  { destruct Ns as [->|Ns].
    - apply (read_data_file_gives (fun _ => True) False) with (rest := rest); try assumption; try now apply mode_reads_not.
      + split; [now left|contradiction].
      + rewrite Forall_forall. auto.
    - apply (read_data_file_gives (fun r => r = InFull \/ r = Refuse) False) with (rest := rest); try assumption; try now apply mode_reads_not.
      split; [right; auto|contradiction]. }
  destruct G as [([w' xs] & E & -> & Dq & O)|[_ E]]; [left|right; exact E].
  exists w'. rewrite arrives_same in E by exact F. split; [exact E|]. intro x. destruct (N.eq_dec x q) as [->|X]; [exact Dq|now apply O].
Qed.
Print Assumptions C97_any_system_partial.
Example C97_example :
  let w := shelf (Some [1; 2; 3; 4]%N) [InFull; AtMost 3; Refuse] in
  disk w 1%N = Some (values_bytes BigEndian [(2%nat, 0x0102%N)] ++ [3; 4]%N) /\ opens w /\ no_short_read_on_unix Windows w /\
  suits Windows 4 [2%nat] /\
  (exists w', read_data_file Windows w 1 ReadOnly 4 Big Big [2%nat] = Ok (w', [0x0102]%N)) /\
  (forall pl, read_data_file pl (shelf (Some [1; 2; 3; 4]%N) [InFull; Refuse; Refuse; Refuse; Refuse; Refuse; Refuse]) 1 ReadOnly 4 Big Big [2%nat]
    = Throw ReadPastEnd).
Proof.
  cbn zeta. split; [reflexivity|]. split; [exact I|]. split; [now left|]. split; [apply suits_100; small_sizes|]. split.
  - exists (done_with (read_data_file Windows (shelf (Some [1; 2; 3; 4]%N) [InFull; AtMost 3; Refuse]) 1 ReadOnly 4 Big Big [2%nat])). vm_compute. reflexivity.
  - intros []; vm_compute; reflexivity.
Qed.

(** A Unix-like system transfers one byte of four at first: the value is a wrong one. *)
Theorem C97_short_read_refuted : exists w',
  read_data_file UnixLike (shelf (Some [1; 2; 3; 4]%N) [InFull; AtMost 1]) 1 ReadOnly 4 Little Little [4%nat] = Ok (w', [0x00040302%N]).
Proof.
  exists (done_with (read_data_file UnixLike (shelf (Some [1; 2; 3; 4]%N) [InFull; AtMost 1]) 1 ReadOnly 4 Little Little [4%nat])).
  vm_compute. reflexivity.
Qed.
Print Assumptions C97_short_read_refuted.

(* ---------------------------------------------------------------------- C98 *)

(** No value can be written to a file opened for reading, nor read from one opened for
    writing: an exception is thrown. *)
Theorem C98_write_refused : forall pl w q how cap f native o vs,
  new_file pl w q ReadOnly how cap = Ok f -> Forall (fun x => (0 < fst x)%nat) vs -> vs <> [] ->
  send_values (order_of native) (file_sink pl) (order_of o) f vs = Throw InvalidAccessMode.
Proof.
  intros pl w q how cap f native o vs H F Ne. destruct (new_file_cases _ _ _ _ _ _ _ H) as [M _].
  destruct vs as [|[n v] vs]; [congruence|]. apply Forall_inv in F. cbn [fst] in F. cbn [send_values].
  unfold data_write, reverse_write, stream_write. rewrite to_memory_in_order.
  assert (X : forall d, sink_write (file_sink pl) f d = Throw InvalidAccessMode).
  { intro d. cbn [file_sink sink_write]. unfold file_write. rewrite M. reflexivity. }
  destruct (endian_eqb _ _); [now rewrite X|]. change size_of with len. rewrite invert_whole.
  - cbn [bind]. now rewrite X.
  - intro E. apply (f_equal (@length N)) in E. rewrite in_order_length in E. cbn in E. lia.
Qed.
Print Assumptions C98_write_refused.

Theorem C98_read_refused : forall pl w q how cap f native o ws,
  new_file pl w q WriteOnly how cap = Ok f -> ws <> [] ->
  take_values (order_of native) (file_source pl) (order_of o) f ws = Throw InvalidAccessMode.
Proof.
  intros pl w q how cap f native o ws H Ne. destruct (new_file_cases _ _ _ _ _ _ _ H) as [M _].
  destruct ws as [|n ws]; [congruence|]. cbn [take_values]. unfold data_read, stream_read.
  cbn [file_source source_read]. unfold file_read. rewrite M. reflexivity.
Qed.
Print Assumptions C98_read_refused.
Example C98_example : exists f g,
  new_file UnixLike (shelf (Some [1; 2]%N) []) 1 ReadOnly Fail 4 = Ok f /\
  send_values Big (file_sink UnixLike) Little f sample_values = Throw InvalidAccessMode /\
  new_file Windows (shelf None []) 1 WriteOnly Create 4 = Ok g /\
  take_values Little (file_source Windows) Little g [4%nat] = Throw InvalidAccessMode.
Proof.
  exists (match new_file UnixLike (shelf (Some [1; 2]%N) []) 1 ReadOnly Fail 4 with Ok f => f | _ => no_file (shelf None []) 0 end).
  exists (match new_file Windows (shelf None []) 1 WriteOnly Create 4 with Ok f => f | _ => no_file (shelf None []) 0 end).
  repeat split; vm_compute; reflexivity.
Qed.
