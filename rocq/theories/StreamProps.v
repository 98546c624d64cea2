(** Theorems C40-C47 and C63: streams over container resources.

    [native] is the byte order of the machine.  Containers are smaller than 2^62
    bytes.  [roomy cap n]: the resource's buffer is absent or holds n bytes (reads
    larger than the buffer are the subject of C33). *)
From Coq Require Import NArith ZArith List Bool Lia ZifyBool ZifyNat ZifyN.
From Verif Require Import Base Integers UnicodeSpec UnicodeModel UnicodeText UnicodeLemmas UnicodeLemmas2
  ResourceSpec ResourceModel ResourceLemmas StreamSpec StreamModel StreamText
  StreamLemmas StreamLemmas2 StreamLemmas3 StreamLemmas4 StreamLemmas5.
Import ListNotations.
Open Scope Z_scope.

Local Notation size l := (Z.of_nat (length l)).

(* --------------------------------------------------------------- C40, C41 *)

(** C40, first half: the bytes on the resource are in the requested byte order,
    whatever the machine's. *)
Theorem C40_bytes : forall native o cap vs,
  Forall (fun x => (0 < fst x)%nat) vs -> size (values_bytes o vs) < 2 ^ 62 ->
  exists r, write_values (order_of native) (order_of o) (new_resource [] 1 cap) vs = Ok r /\
    content (inner r) = values_bytes o vs.
Proof.
  intros native o cap vs W L.
  destruct (write_values_ok native o (Z.of_nat cap) vs [] _ (container_got_new cap) W) as (r & E & C).
  - cbn [app]. unfold len. lia.
  - exists r. auto.
Qed.
Print Assumptions C40_bytes.
Example C40_bytes_example :
  let vs := [(4%nat, 0x01020304%N); (2%nat, 0xABCD%N)] in
  Forall (fun x => (0 < fst x)%nat) vs /\ size (values_bytes BigEndian vs) < 2 ^ 62 /\
  values_bytes BigEndian vs = [1; 2; 3; 4; 0xAB; 0xCD]%N /\ values_bytes LittleEndian vs = [4; 3; 2; 1; 0xCD; 0xAB]%N.
Proof. split; [repeat constructor|]. vm_compute. auto. Qed.

(** C40 as claimed is false: with the byte order that is not the machine's the
    input stream inverts twice.  (Big-endian is the default of data streams.) *)
Theorem C40_round_trip_refuted :
  ~ (forall native o cap vs, Forall (fun x => (0 < fst x)%nat) vs -> Forall fits vs ->
       Forall (fun x => roomy cap (fst x)) vs ->
       bind (write_values (order_of native) (order_of o) (new_resource [] 1 cap) vs) (fun r =>
       bind (read_values (order_of native) (order_of o) (new_resource (content (inner r)) 1 cap) (map fst vs)) (fun '(_, l) =>
       Ok l)) = Ok (map snd vs)).
Proof.
  intro H. specialize (H LittleEndian BigEndian 0%nat [(2%nat, 1%N)]
    ltac:(repeat constructor) ltac:(repeat constructor) ltac:(repeat constructor)).
  revert H. vm_compute. discriminate.
Qed.
Print Assumptions C40_round_trip_refuted.

(** What is missing is the case o <> native. *)
Theorem C40_round_trip_partial : forall native cap vs,
  Forall (fun x => (0 < fst x)%nat) vs -> Forall fits vs -> Forall (fun x => roomy cap (fst x)) vs ->
  size (values_bytes native vs) < 2 ^ 62 ->
  exists r r', write_values (order_of native) (order_of native) (new_resource [] 1 cap) vs = Ok r /\
    read_values (order_of native) (order_of native) (new_resource (content (inner r)) 1 cap) (map fst vs)
    = Ok (r', map snd vs).
Proof.
  intros native cap vs W F R L. destruct (C40_bytes native native cap vs W L) as (r & E & C).
  destruct (read_values_ok native native (Z.of_nat cap) vs [] (new_resource (values_bytes native vs) 1 cap)) as (r' & E' & _).
  - rewrite app_nil_r. apply container_left_new. unfold len. lia.
  - assert (Bw : Forall (fun x => Z.of_nat (fst x) <= size (values_bytes native vs)) vs).
    { clear. induction vs as [|[w v] vs IH]; [constructor|]. rewrite values_bytes_cons, app_length, in_order_length.
      constructor; [cbn; lia|]. eapply Forall_impl; [|exact IH]. intros; cbn beta in *. lia. }
    rewrite Forall_forall in *. intros x I. split; [now apply W|]. apply biggest_roomy; [now apply R|].
    specialize (Bw x I). cbn beta in Bw. lia.
  - exists r, r'. split; [exact E|]. rewrite C, E'. do 2 f_equal. clear - F. induction F as [|[w v] vs Fx F IH]; [reflexivity|].
    cbn [map fst snd]. rewrite IH, from_memory_in_order; [reflexivity|]. exact Fx.
Qed.
Print Assumptions C40_round_trip_partial.
Example C40_round_trip_example : let vs := [(4%nat, 0xDEADBEEF%N); (1%nat, 7%N)] in
  Forall (fun x => (0 < fst x)%nat) vs /\ Forall fits vs /\ Forall (fun x => roomy 4 (fst x)) vs /\
  size (values_bytes LittleEndian vs) < 2 ^ 62.
Proof. cbn. repeat split; repeat constructor; cbn; lia || (right; cbn; lia). Qed.

(** In the other byte order every value comes back with its bytes reversed. *)
Theorem C40_other_order_refuted : forall native cap vs,
  let o := opposite native in
  Forall (fun x => (0 < fst x)%nat) vs -> Forall fits vs -> Forall (fun x => roomy cap (fst x)) vs ->
  size (values_bytes o vs) < 2 ^ 62 ->
  exists r r' l, write_values (order_of native) (order_of o) (new_resource [] 1 cap) vs = Ok r /\
    read_values (order_of native) (order_of o) (new_resource (content (inner r)) 1 cap) (map fst vs) = Ok (r', l) /\
    Forall2 (fun x v' => fits (fst x, v') /\ little (fst x) v' = rev (little (fst x) (snd x))) vs l.
Proof.
  intros native cap vs o W F R L. destruct (C40_bytes native o cap vs W L) as (r & E & C).
  destruct (read_values_ok native o (Z.of_nat cap) vs [] (new_resource (values_bytes o vs) 1 cap)) as (r' & E' & _).
  - rewrite app_nil_r. apply container_left_new. unfold len. lia.
  - assert (Bw : Forall (fun x => Z.of_nat (fst x) <= size (values_bytes o vs)) vs).
    { clear. induction vs as [|[w v] vs IH]; [constructor|]. rewrite values_bytes_cons, app_length, in_order_length.
      constructor; [cbn; lia|]. eapply Forall_impl; [|exact IH]. intros; cbn beta in *. lia. }
    rewrite Forall_forall in *. intros x I. split; [now apply W|]. apply biggest_roomy; [now apply R|].
    specialize (Bw x I). cbn beta in Bw. lia.
  - eexists r, r', _. split; [exact E|]. rewrite C. split; [exact E'|]. clear - F.
    induction vs as [|[w v] vs IH]; [constructor|]. inversion F; subst. cbn [map fst snd]. constructor; [|now apply IH].
    destruct (reversed_value native w v) as (v' & Fv & Ev). subst o. rewrite <- Ev, from_memory_in_order by exact Fv.
    split; [exact Fv|]. destruct native; cbn [in_order opposite] in Ev; [exact Ev|].
    cbn [fst snd]. rewrite <- Ev. symmetry. apply rev_involutive.
Qed.
Print Assumptions C40_other_order_refuted.
Example C40_other_order_example :
  bind (write_values Little Big (new_resource [] 1 0) [(4%nat, 0x01020304%N)]) (fun r =>
  bind (read_values Little Big (new_resource (content (inner r)) 1 0) [4%nat]) (fun '(_, l) => Ok l))
  = Ok [0x04030201%N].
Proof. reflexivity. Qed.

(** Too few bytes: an exception, no value. *)
Theorem C40_too_few : forall native o cap bytes w,
  size bytes < Z.of_nat w -> size bytes < 2 ^ 62 -> Z.of_nat w <= 2 ^ 62 -> roomy cap w ->
  data_read (order_of native) container_source (order_of o) (new_resource bytes 1 cap) w = Throw ReadPastEnd.
Proof.
  intros native o cap bytes w L B Bw R. apply (data_read_short native o (Z.of_nat cap) bytes); [|exact L|].
  - apply container_left_new. unfold len. lia.
  - now apply biggest_roomy.
Qed.
Print Assumptions C40_too_few.
Example C40_too_few_example : size [1; 2; 3]%N < Z.of_nat 4 /\ roomy 0 4.
Proof. split; [cbn; lia|now left]. Qed.

(** C41: for every block of at least one byte. *)
Theorem C41_invert_partial : forall block n, (0 < n <= length block)%nat ->
  exists inverted, invert_endianness block (Z.of_nat n) = Ok inverted /\
    inverted = rev (firstn n block) ++ skipn n block /\
    invert_endianness inverted (Z.of_nat n) = Ok block.
Proof.
  intros block n H. assert (Ln : length (firstn n block) = n) by (rewrite firstn_length_le; lia).
  assert (Lz : len (firstn n block) = Z.of_nat n) by (unfold len; lia).
  assert (Ne : firstn n block <> []) by (intro X; rewrite X in Ln; cbn in Ln; lia).
  exists (rev (firstn n block) ++ skipn n block). split; [|split; [reflexivity|]].
  - rewrite <- (firstn_skipn n block) at 1. rewrite <- Lz. now apply invert_ok.
  - replace (Z.of_nat n) with (len (rev (firstn n block))) by (unfold len in *; rewrite rev_length; exact Lz).
    rewrite invert_ok.
    + now rewrite rev_involutive, firstn_skipn.
    + intro X. apply (f_equal (@length N)) in X. rewrite rev_length, Ln in X. cbn in X. lia.
Qed.
Print Assumptions C41_invert_partial.
Example C41_invert_example : (0 < 3 <= length [1; 2; 3; 4]%N)%nat /\
  invert_endianness [1; 2; 3; 4]%N 3 = Ok [3; 2; 1; 4]%N.
Proof. split; [cbn; lia|reflexivity]. Qed.

(** An empty block: the address before its beginning is computed. *)
Theorem C41_empty_refuted : forall block, invert_endianness block 0 = UB PointerArithmetic.
Proof. reflexivity. Qed.
Print Assumptions C41_empty_refuted.

Theorem C41_opposite : forall e,
  get_opposite_endianness (get_opposite_endianness e) = e /\ get_opposite_endianness e <> e.
Proof. intros []; split; (reflexivity || discriminate). Qed.
Print Assumptions C41_opposite.
Example C41_opposite_example : get_opposite_endianness Little = Big.
Proof. reflexivity. Qed.

(* -------------------------------------------------------------------- C42 *)

(** False: UTF-8 streams refuse code points such as U+1D800 (C01), and u16strings
    with supplementary characters cannot be written in another form (C07). *)
Theorem C42_round_trip_refuted :
  finished (write_each (write_code_point Little container_sink) (open_output 0 UTF8 LittleEndian) [0x1D800%N])
    = Throw InvalidCodePoint /\
  finished (write_string Little container_sink K16 (open_output 0 UTF8 LittleEndian) (units K16 [0x1F600%N]))
    = Throw InvalidUnicodeEncoding /\
  finished (write_string Little container_sink K16 (open_output 0 UTF16 BigEndian) (units K16 [0x1F600%N]))
    = Throw InvalidUnicodeEncoding.
Proof. split; [|split]; vm_compute; reflexivity. Qed.
Print Assumptions C42_round_trip_refuted.

(** Missing: exactly the code points that are not [writable] / [printable].  The
    machine that reads may have another byte order than the one that wrote. *)
Theorem C42_code_points_partial : forall native native' e o cap cap' l,
  Forall (writable e) l -> ~ In 13%N l -> size (text_bytes e o l) < 2 ^ 62 -> roomy cap' (unit_width e) ->
  exists bytes st,
    finished (write_each (write_code_point (order_of native) container_sink) (open_output cap e o) l) = Ok bytes /\
    bytes = text_bytes e o l /\
    read_code_points (order_of native') (length l) (open_input bytes cap' e o) = Ok (st, l) /\
    text_at_end container_source st = Ok true.
Proof.
  intros native native' e o cap cap' l W C L R.
  assert (S : Forall scalar l) by (eapply Forall_impl; [|exact W]; intros c X; exact (proj1 X)).
  destruct (read_code_points_ok native' e o cap' (length l) l (open_input (text_bytes e o l) cap' e o) (le_n _) S)
    as (st & E & H); try assumption.
  - apply open_input_ok. exact L.
  - rewrite (filtered_none l C) in E. exists (text_bytes e o l), st. split; [now apply write_text_ok|].
    split; [reflexivity|]. split; [exact E|]. exact (at_end_true _ _ _ _ H).
Qed.
Print Assumptions C42_code_points_partial.
Example C42_code_points_example : let l := [0x41; 0xE9; 0x20AC; 0x1F600; 0xFEFF]%N in
  Forall (writable UTF8) l /\ ~ In 13%N l /\ size (text_bytes UTF8 BigEndian l) < 2 ^ 62 /\ roomy 1 (unit_width UTF8).
Proof.
  cbn. split; [|split; [intuition discriminate|split; [lia|right; lia]]].
  repeat constructor; try (unfold scalar; lia); cbn; lia.
Qed.

(** Strings of each kind, written with << and read with read_all into a string of
    each kind. *)
Theorem C42_strings_partial : forall native native' e o cap cap' k k' l fuel,
  Forall (printable native e o k) l -> Forall (storable k') l -> ~ In 13%N l ->
  size (text_bytes e o l) < 2 ^ 62 -> roomy cap' (unit_width e) -> (length l < fuel)%nat ->
  exists bytes st,
    finished (write_string (order_of native) container_sink k (open_output cap e o) (units k l)) = Ok bytes /\
    bytes = text_bytes e o l /\
    read_all (order_of native') container_source fuel k' (open_input bytes cap' e o) = Ok (st, units k' l) /\
    text_at_end container_source st = Ok true.
Proof.
  intros native native' e o cap cap' k k' l fuel W I C L R F.
  assert (S : Forall scalar l).
  { eapply Forall_impl; [|exact W]. intros c X. destruct k; cbn [printable] in X; try exact (proj1 X). unfold scalar. lia. }
  destruct (read_all_ok native' e o cap' k' l fuel (open_input (text_bytes e o l) cap' e o) S I)
    as (st & E & H); try assumption.
  - apply open_input_ok. exact L.
  - rewrite (filtered_none l C) in E. exists (text_bytes e o l), st. split; [now apply write_string_text|].
    split; [reflexivity|]. split; [exact E|]. exact (at_end_true _ _ _ _ H).
Qed.
Print Assumptions C42_strings_partial.
Example C42_strings_example : let l := [0x41; 0xE9; 0x20AC; 0x1F600]%N in
  Forall (printable LittleEndian UTF16 BigEndian K32) l /\ Forall (storable K8) l /\ ~ In 13%N l /\
  size (text_bytes UTF16 BigEndian l) < 2 ^ 62 /\ roomy 0 (unit_width UTF16).
Proof.
  cbn. split; [|split; [|split; [intuition discriminate|split; [lia|now left]]]];
  repeat constructor; try (unfold scalar; lia); cbn; try lia; try discriminate.
Qed.

(* --------------------------------------------------------------- C43, C44 *)

(** C43, for every encoding form: the mark is returned and the rest decodes, whatever
    endianness the stream was created with. *)
Theorem C43_bom : forall native e o initial cap l,
  Forall scalar l -> ~ In 13%N l -> size (text_bytes e o (byte_order_mark :: l)) < 2 ^ 62 -> roomy cap (unit_width e) ->
  exists st st',
    read_bom (order_of native) container_source (open_input (text_bytes e o (byte_order_mark :: l)) cap e initial)
      = Ok (st, byte_order_mark) /\
    (e <> UTF8 -> in_order_ st = order_of o) /\
    read_code_points (order_of native) (length l) st = Ok (st', l) /\
    text_at_end container_source st' = Ok true.
Proof.
  intros native e o initial cap l S C L R.
  destruct (read_bom_marked native container_source _ _ (container_good_source (Z.of_nat cap)) e o initial l
    (open_input (text_bytes e o (byte_order_mark :: l)) cap e initial)) as (st & E & H).
  - now apply open_input_ok.
  - now apply unit_roomy.
  - assert (H' : before (container_left (Z.of_nat cap)) e (match e with UTF8 => initial | _ => o end)
              (text_bytes e (match e with UTF8 => initial | _ => o end) l) st).
    { destruct e; try exact H. replace (text_bytes UTF8 initial l) with (text_bytes UTF8 o l); [exact H|].
      unfold text_bytes. destruct o, initial; reflexivity. }
    destruct (read_code_points_ok native e _ cap (length l) l st (le_n _) S H' R) as (st' & E' & H2).
    rewrite (filtered_none l C) in E'. exists st, st'. split; [exact E|]. split; [|split; [exact E'|exact (at_end_true _ _ _ _ H2)]].
    intro N. destruct H as (_ & O & _). destruct e; [congruence|exact O|exact O].
Qed.
Print Assumptions C43_bom.
Example C43_bom_example : let l := [0x48; 0x20AC; 0x1F600]%N in
  Forall scalar l /\ ~ In 13%N l /\ size (text_bytes UTF16 BigEndian (byte_order_mark :: l)) < 2 ^ 62 /\
  roomy 2 (unit_width UTF16).
Proof.
  cbn. split; [|split; [intuition discriminate|split; [lia|right; lia]]]. repeat constructor; unfold scalar; lia.
Qed.

(** write_bom writes what read_bom expects. *)
Theorem C43_written : forall native e o cap l,
  Forall (writable e) l -> size (text_bytes e o (byte_order_mark :: l)) < 2 ^ 62 ->
  finished (bind (write_bom (order_of native) container_sink (open_output cap e o)) (fun st =>
            write_each (write_code_point (order_of native) container_sink) st l))
  = Ok (text_bytes e o (byte_order_mark :: l)).
Proof.
  intros native e o cap l W L.
  exact (write_text_ok native e o cap (byte_order_mark :: l)
    ltac:(constructor; [split; [unfold scalar, byte_order_mark; lia|intros _; cbn; lia]|exact W]) L).
Qed.
Print Assumptions C43_written.
Example C43_written_example : let l := [0x48; 0x20AC; 0x1F600]%N in
  Forall (writable UTF8) l /\ size (text_bytes UTF8 BigEndian (byte_order_mark :: l)) < 2 ^ 62.
Proof. cbn. split; [|lia]. repeat constructor; try (unfold scalar; lia); cbn; lia. Qed.

(** C44 is false: without a mark only the low byte of the first code unit is
    returned. *)
Theorem C44_no_bom_refuted :
  ~ (forall native e o cap c l, Forall scalar (c :: l) -> c <> byte_order_mark -> c <> 0xFFFE%N ->
       roomy cap (unit_width e) ->
       bind (read_bom (order_of native) container_source (open_input (text_bytes e o (c :: l)) cap e o))
         (fun '(_, x) => Ok x) = Ok c).
Proof.
  intro H. specialize (H LittleEndian UTF16 LittleEndian 0%nat 0x20AC%N []).
  assert (X : bind (read_bom Little container_source (open_input (text_bytes UTF16 LittleEndian [0x20AC%N]) 0 UTF16 LittleEndian))
         (fun '(_, x) => Ok x) = Ok 0x20AC%N).
  { apply H; [repeat constructor; unfold scalar; lia|discriminate|discriminate|now left]. }
  revert X. vm_compute. discriminate.
Qed.
Print Assumptions C44_no_bom_refuted.

(** Exactly what happens for the first code unit u of a UTF-16 or UTF-32 text
    without a mark in either byte order. *)
Theorem C44_no_bom_exact_refuted : forall native e o cap u rest,
  e <> UTF8 -> (u < 256 ^ N.of_nat (unit_width e))%N -> u <> byte_order_mark ->
  u <> (match e with UTF32 => 0xFFFE0000 | _ => 0xFFFE end)%N ->
  size (in_order o (unit_width e) u ++ rest) < 2 ^ 62 -> roomy cap (unit_width e) ->
  exists st, read_bom (order_of native) container_source (open_input (in_order o (unit_width e) u ++ rest) cap e o)
    = Ok (st, (u mod 256)%N) /\ in_order_ st = order_of o.
Proof.
  intros native e o cap u rest N U B1 B2 L R.
  destruct (read_bom_unmarked native container_source _ _ (container_good_source (Z.of_nat cap)) e o u rest
    (open_input (in_order o (unit_width e) u ++ rest) cap e o)) as (st & E & H); try assumption.
  - now apply open_input_ok.
  - now apply unit_roomy.
  - exists st. split; [exact E|]. exact (proj1 (proj2 H)).
Qed.
Print Assumptions C44_no_bom_exact_refuted.
Example C44_no_bom_exact_example : UTF16 <> UTF8 /\ (0x20AC < 256 ^ N.of_nat (unit_width UTF16))%N /\
  (0x20AC <> byte_order_mark)%N /\ size (in_order BigEndian (unit_width UTF16) 0x20AC ++ [1; 2]%N) < 2 ^ 62 /\ roomy 0 2.
Proof. split; [discriminate|]. split; [cbn; lia|]. split; [discriminate|]. split; [cbn; lia|now left]. Qed.

(** The first code point is returned, and the rest decodes, for UTF-8 texts and for
    texts starting with a code point below 256.  Missing: the other first code
    points in UTF-16 and UTF-32. *)
Theorem C44_no_bom_partial : forall native e o cap c l,
  Forall scalar (c :: l) -> ~ In 13%N l -> (e = UTF8 \/ c < 256)%N ->
  size (text_bytes e o (c :: l)) < 2 ^ 62 -> roomy cap (unit_width e) ->
  exists st st',
    read_bom (order_of native) container_source (open_input (text_bytes e o (c :: l)) cap e o) = Ok (st, c) /\
    in_order_ st = order_of o /\
    read_code_points (order_of native) (length l) st = Ok (st', l) /\
    text_at_end container_source st' = Ok true.
Proof.
  intros native e o cap c l S C Hc L R. inversion S as [|? ? Sc Sl]; subst.
  assert (X : exists st, read_bom (order_of native) container_source (open_input (text_bytes e o (c :: l)) cap e o) = Ok (st, c) /\
    before (container_left (Z.of_nat cap)) e o (text_bytes e o l) st).
  { pose proof (open_input_ok (text_bytes e o (c :: l)) cap e o L) as H.
    destruct (encoding_eq_dec_utf8 e) as [->|N].
    - exact (read_one native container_source _ _ (container_good_source (Z.of_nat cap)) UTF8 o c l _ Sc H (unit_roomy _ _ R)).
    - destruct Hc as [Hc|Hc]; [contradiction|].
      assert (E : text_bytes e o (c :: l) = in_order o (unit_width e) c ++ text_bytes e o l).
      { rewrite text_bytes_cons. f_equal. unfold unit_bytes. destruct e; [congruence| |]; cbn [encode1]; unfold utf16_of, utf32_of.
        - rewrite (proj2 (N.ltb_lt c 0x10000)) by lia. cbn [flat_map]. apply app_nil_r.
        - cbn [flat_map]. apply app_nil_r. }
      rewrite E in *.
      destruct (read_bom_unmarked native container_source _ _ (container_good_source (Z.of_nat cap)) e o c (text_bytes e o l) _ N H)
        as (st & Er & H').
      + now apply unit_roomy.
      + destruct e; [congruence| |]; cbn; lia.
      + unfold byte_order_mark. lia.
      + destruct e; lia.
      + exists st. rewrite N.mod_small in Er by exact Hc. split; [exact Er|exact H']. }
  destruct X as (st & E & H).
  destruct (read_code_points_ok native e o cap (length l) l st (le_n _) Sl H R) as (st' & E' & H2).
  rewrite (filtered_none l C) in E'. exists st, st'. split; [exact E|]. split; [exact (proj1 (proj2 H))|].
  split; [exact E'|exact (at_end_true _ _ _ _ H2)].
Qed.
Print Assumptions C44_no_bom_partial.
Example C44_no_bom_example : let l := [0x20AC; 0x1F600]%N in
  Forall scalar (0xE9%N :: l) /\ ~ In 13%N l /\ (0xE9 < 256)%N /\ size (text_bytes UTF32 BigEndian (0xE9%N :: l)) < 2 ^ 62 /\
  roomy 0 (unit_width UTF32).
Proof.
  cbn. split; [repeat constructor; unfold scalar; lia|]. split; [intuition discriminate|]. split; [lia|]. split; [lia|now left].
Qed.

(* --------------------------------------------------------------- C45, C46 *)

(** C45 is false for a CR that is not followed by LF: it disappears. *)
Theorem C45_lines_refuted :
  lines_of [0x61; 13; 0x62]%N [[0x61; 13; 0x62]]%N /\
  read_lines Little 10 K8 (open_input (text_bytes UTF8 LittleEndian [0x61; 13; 0x62]%N) 0 UTF8 LittleEndian)
    = Ok [[0x61; 0x62]]%N.
Proof.
  split; [|vm_compute; reflexivity].
  econstructor; [discriminate|reflexivity|constructor].
Qed.
Print Assumptions C45_lines_refuted.

(** Missing: texts with such a CR. *)
Theorem C45_lines_partial : forall native e o cap k l ls fuel,
  Forall scalar l -> Forall (storable k) l -> carriage_returns_paired l -> lines_of l ls ->
  size (text_bytes e o l) < 2 ^ 62 -> roomy cap (unit_width e) -> (length l < fuel)%nat ->
  read_lines (order_of native) fuel k (open_input (text_bytes e o l) cap e o) = Ok (map (units k) ls).
Proof.
  intros native e o cap k l ls fuel S I P H L R F.
  apply (read_lines_ok native e o cap k (filtered l) ls (lines_filtered l ls H P) l); auto.
  - now apply filtered_forall.
  - now apply open_input_ok.
Qed.
Print Assumptions C45_lines_partial.
Example C45_lines_example : let l := [0x61; 13; 10; 10; 0x20AC; 0x62]%N in
  Forall scalar l /\ Forall (storable K16) l /\ carriage_returns_paired l /\ lines_of l [[0x61]; []; [0x20AC; 0x62]]%N /\
  size (text_bytes UTF16 BigEndian l) < 2 ^ 62 /\ roomy 0 (unit_width UTF16).
Proof.
  cbn. split; [repeat constructor; unfold scalar; lia|].
  split; [repeat constructor; try (unfold scalar; lia); cbn; discriminate|].
  split; [repeat split; intro; discriminate|].
  split; [|split; [lia|now left]].
  repeat (econstructor; [discriminate|reflexivity|]). constructor.
Qed.

(** For every text: the lines of what remains once the CRs are dropped. *)
Theorem C45_lines_exact : forall native e o cap k l ls fuel,
  Forall scalar l -> Forall (storable k) l -> lf_lines (filtered l) ls ->
  size (text_bytes e o l) < 2 ^ 62 -> roomy cap (unit_width e) -> (length l < fuel)%nat ->
  read_lines (order_of native) fuel k (open_input (text_bytes e o l) cap e o) = Ok (map (units k) ls).
Proof.
  intros native e o cap k l ls fuel S I H L R F.
  apply (read_lines_ok native e o cap k (filtered l) ls H l); auto.
  - now apply filtered_forall.
  - now apply open_input_ok.
Qed.
Print Assumptions C45_lines_exact.
Example C45_lines_exact_example :
  filtered [0x61; 13; 0x62; 13; 13; 10]%N = [0x61; 0x62; 13; 10]%N /\
  lf_lines [0x61; 0x62; 13; 10]%N [[0x61; 0x62; 13]]%N.
Proof. split; [reflexivity|]. econstructor; [discriminate|reflexivity|constructor]. Qed.

(** Every text has lines, so the theorems above say what is read from every text. *)
Theorem C45_lines_exist : forall l, (exists ls, lines_of l ls) /\ (exists ls, lf_lines (filtered l) ls).
Proof.
  intro l. split; [exact (lines_exist (length l) l (le_n _))|].
  exact (lf_lines_exist (length (filtered l)) (filtered l) (le_n _)).
Qed.
Print Assumptions C45_lines_exist.

(** C46 is false for a CR not followed by LF, which does not separate words. *)
Theorem C46_words_refuted :
  words_of [0x61; 13; 0x62]%N [[0x61]; [0x62]]%N /\
  bind (read_words Little 10 2 K8 (open_input (text_bytes UTF8 LittleEndian [0x61; 13; 0x62]%N) 0 UTF8 LittleEndian))
    (fun '(_, ws) => Ok ws) = Ok [[0x61; 0x62]; []]%N.
Proof.
  split; [|vm_compute; reflexivity].
  apply (AWord [] [0x61]%N [13; 0x62]%N); [constructor|discriminate| | |].
  - repeat constructor; unfold white_space; lia.
  - intros c t X. injection X as <- <-. unfold white_space. lia.
  - apply (AWord [13]%N [0x62]%N []); [|discriminate| | |].
    + repeat constructor; unfold white_space; lia.
    + repeat constructor; unfold white_space; lia.
    + discriminate.
    + constructor. constructor.
Qed.
Print Assumptions C46_words_refuted.

(** n reads: the first n words, then empty strings.  Missing: texts with such a CR. *)
Theorem C46_words_partial : forall native e o cap k l ws n fuel,
  Forall scalar l -> Forall (storable k) l -> carriage_returns_paired l -> words_of l ws ->
  size (text_bytes e o l) < 2 ^ 62 -> roomy cap (unit_width e) -> (length l < fuel)%nat ->
  exists st, read_words (order_of native) fuel n k (open_input (text_bytes e o l) cap e o)
    = Ok (st, firstn n (map (units k) ws ++ repeat [] n)).
Proof.
  intros native e o cap k l ws n fuel S I P H L R F.
  destruct (read_words_ok native e o cap k fuel n l ws (open_input (text_bytes e o l) cap e o)) as (st & l' & E & _); auto.
  - now apply words_filtered.
  - now apply filtered_forall.
  - now apply open_input_ok.
  - exists st. exact E.
Qed.
Print Assumptions C46_words_partial.
Example C46_words_example : let l := [0x20; 0x61; 0x62; 13; 10; 9; 0x63]%N in
  Forall scalar l /\ Forall (storable K8) l /\ carriage_returns_paired l /\ words_of l [[0x61; 0x62]; [0x63]]%N /\
  size (text_bytes UTF16 BigEndian l) < 2 ^ 62 /\ roomy 0 (unit_width UTF16).
Proof.
  cbn. split; [repeat constructor; unfold scalar; lia|].
  split; [repeat constructor; try (unfold scalar; lia); cbn; lia|].
  split; [repeat split; intro; discriminate|].
  split; [|split; [lia|now left]].
  apply (AWord [0x20]%N [0x61; 0x62]%N [13; 10; 9; 0x63]%N); [| discriminate | | |].
  - repeat constructor; unfold white_space; lia.
  - repeat constructor; unfold white_space; lia.
  - intros c t X. injection X as <- <-. unfold white_space. lia.
  - apply (AWord [13; 10; 9]%N [0x63]%N []); [|discriminate| |discriminate|constructor; constructor].
    + repeat constructor; unfold white_space; lia.
    + repeat constructor; unfold white_space; lia.
Qed.

(** For every text: the words of what remains once the CRs are dropped. *)
Theorem C46_words_exact : forall native e o cap k l ws n fuel,
  Forall scalar l -> Forall (storable k) l -> words_of (filtered l) ws ->
  size (text_bytes e o l) < 2 ^ 62 -> roomy cap (unit_width e) -> (length l < fuel)%nat ->
  exists st, read_words (order_of native) fuel n k (open_input (text_bytes e o l) cap e o)
    = Ok (st, firstn n (map (units k) ws ++ repeat [] n)).
Proof.
  intros native e o cap k l ws n fuel S I H L R F.
  destruct (read_words_ok native e o cap k fuel n l ws (open_input (text_bytes e o l) cap e o)) as (st & l' & E & _); auto.
  - now apply filtered_forall.
  - now apply open_input_ok.
  - exists st. exact E.
Qed.
Print Assumptions C46_words_exact.
Example C46_words_exact_example : words_of (filtered [0x61; 13; 0x62]%N) [[0x61; 0x62]]%N.
Proof.
  apply (AWord [] [0x61; 0x62]%N []); [constructor|discriminate| |discriminate|constructor; constructor].
  repeat constructor; unfold white_space; lia.
Qed.

Theorem C46_words_exist : forall l, exists ws, words_of l ws.
Proof. exact words_exist. Qed.
Print Assumptions C46_words_exist.

(* -------------------------------------------------------------------- C47 *)

(** False for the smallest value of a signed type, which cannot be formatted or read
    (C17). *)
Theorem C47_numbers_refuted :
  ~ (forall native o cap t x, standard t -> in_range t x ->
       bind (finished (write_items (order_of native) true (open_output cap UTF8 o) [Int t x])) (fun bytes =>
       read_items (order_of native) 100 (open_input bytes cap UTF8 o) [Int t x]) = Ok [Int t x]).
Proof.
  intro H. specialize (H LittleEndian LittleEndian 0%nat I32 (-2147483648)
    ltac:(vm_compute; tauto) ltac:(vm_compute; split; discriminate)).
  revert H. vm_compute. discriminate.
Qed.
Print Assumptions C47_numbers_refuted.

(** Missing: exactly those values. *)
Theorem C47_numbers_partial : forall native native' cs e o cap cap' items,
  Forall (fun i => match i with
                   | Int t x => standard t /\ in_range t x /\ (is_signed t = true -> x <> min_of t)
                   | Bool _ => True
                   end) items ->
  Z.of_nat (length items) < 2 ^ 50 -> roomy cap' (unit_width e) ->
  exists bytes, finished (write_items (order_of native) cs (open_output cap e o) items) = Ok bytes /\
    forall fuel, (length bytes < fuel)%nat ->
      read_items (order_of native') fuel (open_input bytes cap' e o) items = Ok items.
Proof.
  intros native native' cs e o cap cap' items H L R.
  destruct (items_texts items H) as (ss & T & Ls).
  assert (Lt : len (text_bytes e o (items_text ss)) < 2 ^ 62).
  { rewrite (ascii_text_length e o _ (ascii_items items ss T)). unfold len.
    assert (X : Z.of_nat (unit_width e) <= 4) by (destruct e; cbn; lia). nia. }
  destruct (write_items_ok native cs e o cap items ss [] (open_output cap e o) T (open_output_ok cap e o)) as (st & E & Hw);
    [cbn [app]; lia|]. cbn [app] in Hw. rewrite E, (finished_ok _ _ _ _ _ Hw).
  exists (text_bytes e o (items_text ss)). split; [reflexivity|]. intros fuel F.
  apply (read_items_ok native' e o cap' items ss T fuel _ (items_text ss)); auto.
  - apply filtered_none. exact (no_cr_items items ss T).
  - eapply Forall_impl; [|exact (ascii_items items ss T)]. intros c Hc. cbn beta in Hc. unfold scalar. lia.
  - now apply open_input_ok.
  - pose proof (ascii_text_length e o _ (ascii_items items ss T)) as X. unfold len in X. pose proof (unit_width_pos e). nia.
Qed.
Print Assumptions C47_numbers_partial.
Example C47_numbers_example : let items := [Int I32 (-2147483647); Bool true; Int U64 18446744073709551615; Int I8 0] in
  Forall (fun i => match i with
                   | Int t x => standard t /\ in_range t x /\ (is_signed t = true -> x <> min_of t)
                   | Bool _ => True
                   end) items /\ Z.of_nat (length items) < 2 ^ 50 /\ roomy 0 (unit_width UTF16).
Proof.
  intro items. split; [|split; [cbn; lia|now left]].
  assert (X : forall t x, standard t -> in_range t x -> x <> min_of t ->
    standard t /\ in_range t x /\ (is_signed t = true -> x <> min_of t)) by tauto.
  constructor; [apply X; [vm_compute; tauto|vm_compute; split; discriminate|vm_compute; discriminate]|].
  constructor; [exact I|].
  constructor; [apply X; [vm_compute; tauto|vm_compute; split; discriminate|vm_compute; discriminate]|].
  constructor; [apply X; [vm_compute; tauto|vm_compute; split; discriminate|vm_compute; discriminate]|constructor].
Qed.

(* -------------------------------------------------------------------- C63 *)

(** False as stated: overlong UTF-8 forms, UTF-8 surrogates and UTF-32 values that are
    no scalar values are returned. *)
Theorem C63_strict_refuted :
  let first e bytes := bind (read_code_point Little container_source (open_input bytes 0 e LittleEndian))
                         (fun '(_, c) => Ok c) in
  first UTF8 [0xC0; 0x80]%N = Ok 0%N /\ utf8_of 0 <> [0xC0; 0x80]%N /\
  first UTF8 [0xED; 0xA0; 0x80]%N = Ok 0xD800%N /\ ~ scalar 0xD800 /\
  first UTF8 [0xF7; 0xBF; 0xBF; 0xBF]%N = Ok 0x1FFFFF%N /\ ~ scalar 0x1FFFFF /\
  first UTF32 [0; 0; 0; 0xFF]%N = Ok 0xFF000000%N /\ ~ scalar 0xFF000000.
Proof.
  cbv zeta. split; [vm_compute; reflexivity|]. split; [vm_compute; discriminate|].
  split; [vm_compute; reflexivity|]. split; [unfold scalar; lia|].
  split; [vm_compute; reflexivity|]. split; [unfold scalar; lia|].
  split; [vm_compute; reflexivity|]. unfold scalar; lia.
Qed.
Print Assumptions C63_strict_refuted.

(** Whatever the bytes are, reading a code point returns the code point whose
    (possibly overlong) encoding is at the front, or throws if there is none. *)
Theorem C63_decoding_partial : forall native e o cap bytes,
  Forall (fun b => b < 256)%N bytes -> size bytes < 2 ^ 62 -> roomy cap (unit_width e) ->
  let read := read_code_point (order_of native) container_source (open_input bytes cap e o) in
  (forall c rest, starts_with e o bytes c rest -> exists st, read = Ok (st, c)) /\
  ((forall c rest, ~ starts_with e o bytes c rest) -> read = Throw ReadPastEnd \/ read = Throw InvalidUnicodeEncoding).
Proof.
  intros native e o cap bytes F L R read. pose proof (open_input_ok bytes cap e o L) as H. split.
  - intros c rest S.
    destruct (starts_with_read native container_source _ _ (container_good_source (Z.of_nat cap)) e o bytes c rest _ S H (unit_roomy _ _ R))
      as (st & E & _). exists st. exact E.
  - intro N. destruct (read_any native container_source _ _ (container_good_source (Z.of_nat cap)) e o bytes _ H F (unit_roomy _ _ R))
      as [X|(c & rest & S)]; [exact X|]. elim (N c rest S).
Qed.
Print Assumptions C63_decoding_partial.
Example C63_decoding_example :
  Forall (fun b => b < 256)%N [0xE2; 0x82; 0xAC; 0xFF]%N /\
  starts_with UTF8 LittleEndian [0xE2; 0x82; 0xAC; 0xFF]%N 0x20AC [0xFF]%N.
Proof.
  split; [repeat constructor|]. exists [0xE2; 0x82; 0xAC]%N. split; [exact (loose_encode1 UTF8 0x20AC ltac:(unfold scalar; lia))|].
  split; [repeat constructor|reflexivity].
Qed.

(** Reading text from arbitrary bytes ends, with a result or with one of three
    exceptions, and is never undefined. *)
Theorem C63_settles : forall native e o cap bytes k fuel,
  Forall (fun b => b < 256)%N bytes -> size bytes < 2 ^ 62 -> roomy cap (unit_width e) -> (length bytes < fuel)%nat ->
  let st := open_input bytes cap e o in
  settles (read_filtered_code_point (order_of native) container_source st) /\
  settles (read_line (order_of native) container_source fuel k st) /\
  settles (read_all (order_of native) container_source fuel k st) /\
  settles (read_word (order_of native) container_source fuel k st).
Proof.
  intros native e o cap bytes k fuel F L R Fu st. pose proof (open_input_ok bytes cap e o L) as H.
  pose proof (container_good_source (Z.of_nat cap)) as G. pose proof (unit_roomy _ _ R) as B.
  split; [|split; [|split]].
  - destruct (filtered_any native container_source _ _ G e o bytes st H F B) as [[X|X]|(c & r & s & X & _)];
      unfold settles; rewrite X; auto.
  - exact (append_line_settles native container_source _ _ G e o k fuel bytes [] st H F B Fu).
  - exact (append_all_settles native container_source _ _ G e o k fuel bytes [] st H F B Fu).
  - exact (read_word_settles native container_source _ _ G e o k fuel bytes st H F B Fu).
Qed.
Print Assumptions C63_settles.
Example C63_settles_example :
  Forall (fun b => b < 256)%N [0x00; 0xD8; 0x41]%N /\ roomy 0 (unit_width UTF16) /\
  read_all Little container_source 10 K8 (open_input [0x00; 0xD8; 0x41]%N 0 UTF16 LittleEndian) = Throw ReadPastEnd /\
  read_all Little container_source 10 K8 (open_input [0x41; 0x80]%N 0 UTF8 LittleEndian) = Throw InvalidUnicodeEncoding /\
  read_all Little container_source 10 K8 (open_input [0; 0; 0x11; 0]%N 0 UTF32 LittleEndian) = Throw InvalidCodePoint.
Proof. split; [repeat constructor|]. split; [now left|]. vm_compute. auto. Qed.
