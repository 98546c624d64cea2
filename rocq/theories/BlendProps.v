(** Theorems C145: values and lines of text on the same resource.

    [native] is the byte order of the machine.  [proper_item] is what the streams can write
    and read at all (C40, C42): the buffer for reading is absent or holds each value. *)
From Coq Require Import NArith ZArith List Bool Lia ZifyBool ZifyNat ZifyN.
From Verif Require Import Base Integers UnicodeSpec UnicodeModel UnicodeText
  ResourceSpec ResourceModel ResourceText ResourceLemmas StreamSpec StreamModel StreamText StreamLemmas StreamLemmas2 StreamLemmas3 StreamLemmas4
  FileSpec FileModel FileText FileLemmas TextFileSpec TextFileModel TextFileText TextFileLemmas TextFileLemmas2
  BlendSpec BlendText BlendLemmas.
From Verif Require Import FileLemmas2 FileLemmas3 FileLemmas4 FileLemmas6.
Import ListNotations.
Open Scope Z_scope.

(** False as stated: a value in the byte order the machine does not have comes back with
    its bytes reversed (C40), while the text around it is right. *)
Theorem C145_other_order_refuted :
  let items := [TextLine [65; 66]; Value 2 1; TextLine [67]]%N in
  exists bytes, write_items_memory 8 Little K8 BigEndian UTF8 BigEndian items = Ok bytes /\
  bytes = [65; 66; 10; 0; 1; 67; 10]%N /\
  read_items_memory 8 Little 9 K8 BigEndian UTF8 BigEndian bytes (map wish_for items)
  = Ok [TextLine [65; 66]; Value 2 256; TextLine [67]]%N.
Proof. cbv zeta. exists [65; 66; 10; 0; 1; 67; 10]%N. repeat split; vm_compute; reflexivity. Qed.
Print Assumptions C145_other_order_refuted.

(** In memory: all items come back, in the byte order of the machine, with text in any
    encoding form and byte order.  Missing: the other byte order for values. *)
Theorem C145_memory_partial : forall native k e o items cap cap' fuel,
  len (items_bytes native e o items) < 2 ^ 62 -> roomy cap' (unit_width e) ->
  Forall (proper_item native e o k cap' fuel) items ->
  write_items_memory cap (order_of native) k native e o items = Ok (items_bytes native e o items) /\
  read_items_memory cap' (order_of native) fuel k native e o (items_bytes native e o items) (map wish_for items)
  = Ok (map (item_in k) items).
Proof.
  intros native k e o items cap cap' fuel L Rw F. split.
  - unfold write_items_memory.
    destruct (put_items_ok native container_sink _ _ (container_good_sink (Z.of_nat cap)) e o native k cap' fuel items []
      (new_resource [] 1 cap) (container_got_new cap) F) as (r & E & H); [cbn [app]; lia|].
    rewrite E. cbn [bind app] in *. destruct (container_got_flushed _ _ _ H) as (r' & E' & C & _). rewrite E'. cbn [bind]. now rewrite C.
  - unfold read_items_memory.
    destruct (take_items_ok native container_source _ _ (container_good_source (Z.of_nat cap')) e o (unit_roomy _ _ Rw) k cap' fuel items []
      (new_resource (items_bytes native e o items) 1 cap')) as (r & E & _).
    + rewrite app_nil_r. apply container_left_new. lia.
    + exact F.
    + intros w X Y. unfold biggest_read. destruct (Z.eqb_spec (Z.of_nat cap') 0); [lia|]. destruct X; lia.
    + now rewrite E.
Qed.
Print Assumptions C145_memory_partial.
Example C145_memory_example :
  let items := [Value 4 0x12345678; TextLine [0x20AC; 0x41]; Value 1 10; Value 2 13; TextLine []; TextLine [0x42]]%N in
  Forall (proper_item LittleEndian UTF16 BigEndian K32 4 9) items /\
  read_items_memory 4 Little 9 K32 LittleEndian UTF16 BigEndian
    [0x78; 0x56; 0x34; 0x12; 0x20; 0xAC; 0; 0x41; 0; 10; 10; 13; 0; 0; 10; 0; 0x42; 0; 10]%N (map wish_for items)
  = Ok items.
Proof.
  cbv zeta. split; [|vm_compute; reflexivity].
  repeat (apply Forall_cons; [cbn [proper_item]; first
    [ split; [lia|split; [lia|split; [vm_compute; reflexivity|right; lia]]]
    | split; [repeat (apply Forall_cons; [unfold printable, storable, scalar, StreamText.writable, single_unit, scalar; cbn;
        repeat split; try lia; try discriminate; try exact Logic.I|]); apply Forall_nil|cbn; lia]]|]).
  apply Forall_nil.
Qed.

(** In a file that was not longer: the same. *)
Theorem C145_file_partial : forall pl pl' native k e o w q old how items cap cap' fuel m m',
  will_open w q how old -> len old <= len (items_bytes native e o items) < 2 ^ 62 -> obliging w ->
  Z.of_nat cap <= chunk_max pl -> Z.of_nat cap' <= chunk_max pl' -> m <> ReadOnly -> m' <> WriteOnly ->
  wide_enough cap' e -> Forall (proper_item native e o k cap' fuel) items ->
  Forall (fun i => len (item_bytes native e o i) <= chunk_max pl) items ->
  exists w1 w2,
    write_items_file pl w q m how cap (order_of native) k native e o items = Ok w1 /\
    disk w1 q = Some (items_bytes native e o items) /\ (forall x, x <> q -> disk w1 x = disk w x) /\
    read_items_file pl' w1 q m' cap' (order_of native) fuel k native e o (map wish_for items) = Ok (w2, map (item_in k) items) /\
    (forall x, disk w2 x = disk w1 x).
Proof.
  intros pl pl' native k e o w q old how items cap cap' fuel m m' Wo L B C C' Mw Mr We F S.
  assert (Mw' : mode_writes m = true) by (destruct m; [congruence|reflexivity|reflexivity]).
  assert (Mr' : mode_reads m' = true) by (destruct m'; [reflexivity|congruence|reflexivity]).
  pose proof (len_nonneg old) as L0.
  destruct (new_file_opens pl w q old m how cap Wo ltac:(lia) B C) as (f & E & Pa & B1 & K).
  assert (Hg : file_got pl (Z.of_nat cap) q m (disk w) old 0 [] f).
  { exists Resting. rewrite put_nil. split; [exact K|]. split; [exact Pa|]. split; [discriminate|exact B1]. }
  destruct (put_on_file pl native e o native (Z.of_nat cap) q m (disk w) k cap' fuel items old 0 f Mw' ltac:(lia) F S ltac:(lia) Hg) as (f1 & E1 & Hg1).
  destruct (gk_flush _ _ _ (file_good_sink pl (Z.of_nat cap) q m (disk w) old 0 Mw' ltac:(lia)) _ _ Hg1) as (f2 & E2 & Hg2).
  destruct Hg2 as (pp & K2 & Pa2 & Pr2 & B2).
  destruct (close_file pl (Z.of_nat cap) q m (disk w) pp _ f2 K2 B2 (fun _ => Mw')) as (f3 & E3 & _ & D3 & O3 & _ & B3 & _).
  assert (D1 : disk (os (inner (res f3))) q = Some (items_bytes native e o items)).
  { unfold disk_of in D3. rewrite D3. cbn [bytes]. now rewrite put_over by lia. }
  set (w1 := os (inner (res f3))) in *.
  set (Pr := fun r => r = InFull).
  assert (Sp : sound_responses pl' True Pr).
  { split; [right; intros r ->; now left|intros _ r ->; discriminate]. }
  assert (Rn : response_now w1 <> Refuse).
  { unfold response_now. unfold obliging in B3. destruct (script w1) as [|r s]; [discriminate|]. inversion B3; subst. discriminate. }
  destruct (opened_left Pr pl' w1 q cap' m' _ D1 ltac:(lia) Rn B3 C') as (g & Eg & Lg).
  pose proof (sure_good _ _ _ _ (file_text_source Pr True pl' (Z.of_nat cap') q m' (disk w1) (items_bytes native e o items) Sp Mr')) as G.
  destruct (take_items_ok native (file_source pl') _ _ G e o (file_biggest_wide pl' cap' e We C') k cap' fuel items [] g) as (g1 & Et & Lg1).
  { now rewrite app_nil_r. }
  { exact F. }
  { intros x Rx X. unfold file_biggest. assert (2 ^ 32 - 1 <= chunk_max pl') by (destruct pl'; cbn; lia).
    destruct (Z.eqb_spec (Z.of_nat cap') 0); [lia|]. destruct Rx; lia. }
  destruct Lg1 as (p & s & K' & _ & Pw & Bs & _).
  destruct (close_reader pl' (Z.of_nat cap') q m' (disk w1) p s g1 K' Pw) as (g2 & E' & D' & O' & _).
  exists w1, (os (inner (res g2))). split; [|split; [exact D1|split; [exact O3|]]].
  - unfold write_items_file. rewrite E. cbn [bind]. rewrite E1. cbn [bind]. rewrite E2. cbn [bind noexcept]. unfold destroy. now rewrite E3.
  - split.
    + unfold read_items_file. rewrite Eg. cbn [bind]. rewrite Et. cbn [bind]. unfold destroy. now rewrite E'.
    + intro x. destruct (N.eq_dec x q) as [->|Nx]; [|now apply O']. unfold disk_of in D'. rewrite D', D1. now rewrite Bs.
Qed.
Print Assumptions C145_file_partial.
Example C145_file_example :
  let items := [TextLine [0x50; 0x36]; Value 4 640; Value 1 10; TextLine [0x20AC]]%N in
  let w := World (fun _ => None) (fun _ => None) 0 [] in
  Forall (proper_item LittleEndian UTF8 BigEndian K8 4 9) items /\ will_open w 1 Create [] /\
  bind (write_items_file UnixLike w 1 WriteOnly Create 3 Little K8 LittleEndian UTF8 BigEndian items) (fun w1 =>
  bind (read_items_file Windows w1 1 ReadOnly 4 Little 9 K8 LittleEndian UTF8 BigEndian (map wish_for items)) (fun '(_, l) => Ok l))
  = Ok [TextLine [0x50; 0x36]; Value 4 640; Value 1 10; TextLine [0xE2; 0x82; 0xAC]]%N.
Proof.
  cbv zeta. split; [|split; [right; auto|]].
  - repeat (apply Forall_cons; [cbn [proper_item]; first
    [ split; [lia|split; [lia|split; [vm_compute; reflexivity|right; lia]]]
    | split; [repeat (apply Forall_cons; [unfold printable, storable, scalar, StreamText.writable, single_unit, scalar; cbn;
        repeat split; try lia; try discriminate; try exact Logic.I|]); apply Forall_nil|cbn; lia]]|]).
    apply Forall_nil.
  - vm_compute. reflexivity.
Qed.
