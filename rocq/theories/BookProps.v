(** Theorems C144: places noted in a text can be returned to.

    [native] and [native'] are the byte orders of two machines.  Texts are smaller than
    2^62 bytes.  [roomy cap n], [wide_enough cap e]: the buffer is absent or holds a code
    unit. *)
From Coq Require Import NArith ZArith List Bool Lia ZifyBool ZifyNat ZifyN.
From Verif Require Import Base Integers UnicodeSpec UnicodeModel UnicodeText
  ResourceSpec ResourceModel ResourceText ResourceLemmas StreamSpec StreamModel StreamText StreamLemmas StreamLemmas2 StreamLemmas3 StreamLemmas4
  StreamLemmas5 FileSpec FileModel FileText FileLemmas TextFileSpec TextFileModel TextFileText TextFileLemmas TextFileLemmas2
  RecoverSpec RecoverModel RecoverLemmas RecoverLemmas2 SameText SameLemmas BookSpec BookText BookLemmas.
Import ListNotations.
Open Scope Z_scope.

(** False as stated: a container of two-byte characters notes its position in bytes and
    is set to one in characters.  In ABCD the program takes A, notes the place, takes B,
    returns and takes C. *)
Theorem C144_wide_elements_refuted :
  moves_in_memory 2 0 Little UTF16 LittleEndian (text_bytes UTF16 LittleEndian [65; 66; 67; 68]%N)
    [Take; Note; Take; Return 0; Take]
  = Ok ([Ok 65; Ok 66; Ok 67]%N, [2]).
Proof. vm_compute. reflexivity. Qed.
Print Assumptions C144_wide_elements_refuted.

(** On a container of bytes: every program takes and notes what the bytes say, whatever the
    buffer and whatever the bytes are, malformed text included. *)
Theorem C144_memory_partial : forall native native' cap e o bytes ms,
  len bytes < 2 ^ 62 -> Forall (fun b => b < 256)%N bytes -> roomy cap (unit_width e) ->
  moves_in_memory 1 cap (order_of native) e o bytes ms = Ok (walk (found_at (order_of native') e o bytes) 0 [] ms).
Proof.
  intros native native' cap e o bytes ms L F R. unfold moves_in_memory.
  apply (moves_walk native native' container_source _ (fixed_left (Z.of_nat cap) bytes) _ _ bytes e o
    (fixed_good_source _ _) (unit_roomy _ _ R)); try assumption.
  - intros rest r H. destruct (fixed_tell _ _ _ _ H) as (E & A & D). rewrite E. auto.
  - intros rest r i H I. eexists. split; [reflexivity|]. now apply (fixed_go _ _ rest).
  - pose proof (len_nonneg bytes). lia.
  - rewrite drop_0. split; [now apply fixed_new|]. split; reflexivity.
  - constructor.
Qed.
Print Assumptions C144_memory_partial.
Example C144_memory_example :
  let bytes := [0x41; 0xE2; 0x82; 0xAC; 0x0D; 0x0A; 0xFF; 0x42]%N in
  Forall (fun b => b < 256)%N bytes /\ roomy 3 (unit_width UTF8) /\
  moves_in_memory 1 3 Little UTF8 BigEndian bytes
    [Take; Note; Take; Take; Note; Take; Take; Return 0; Take; Return 1; Take; Note; Take; Take; Return 9; Take]
  = Ok ([Ok 0x41; Ok 0x20AC; Ok 10; Throw InvalidUnicodeEncoding; Ok 0x42; Ok 0x20AC; Throw InvalidUnicodeEncoding; Ok 0x42;
         Throw ReadPastEnd; Ok 0x41]%N, [1; 6; 7]).
Proof. cbv zeta. split; [repeat constructor|]. split; [right; cbn; lia|]. vm_compute. reflexivity. Qed.

(** On a file: the same, on every platform, as long as the operating system does not fail
    (and on Unix-like systems does not transfer less than it is asked for, C49). *)
Theorem C144_file_partial : forall pl native native' cap e o bytes ms w q m,
  len bytes < 2 ^ 62 -> Forall (fun b => b < 256)%N bytes -> wide_enough cap e -> Z.of_nat cap <= chunk_max pl ->
  disk w q = Some bytes -> m <> WriteOnly -> no_failure w -> no_short_read_on_unix pl w ->
  moves_in_file pl w q m cap (order_of native) e o ms = Ok (walk (found_at (order_of native') e o bytes) 0 [] ms).
Proof.
  intros pl native native' cap e o bytes ms w q m L Fb W C D M Nf Ns.
  set (Pr := fun r => r <> Refuse /\ (pl = Windows \/ r = InFull \/ r = Refuse)).
  assert (Sp : sound_responses pl True Pr).
  { split; [|intros _ r [X _]; exact X]. destruct pl; [right; intros r [_ [X|X]]; [discriminate|exact X]|now left]. }
  assert (Fr : Forall Pr (script w)).
  { apply Forall_forall. intros r I. unfold no_failure in Nf. rewrite Forall_forall in Nf. split; [now apply Nf|].
    destruct Ns as [X|X]; [now left|]. rewrite Forall_forall in X. right. now apply X. }
  assert (Mr : mode_reads m = true) by (destruct m; [reflexivity|congruence|reflexivity]).
  assert (Rn : response_now w <> Refuse).
  { unfold response_now. destruct (script w) as [|r s] eqn:S; [discriminate|]. inversion Fr as [|? ? [X _] _]. exact X. }
  destruct (opened_left Pr pl w q cap m bytes D ltac:(lia) Rn Fr C) as (f & E & Lf).
  pose proof (sure_good _ _ _ _ (file_text_source Pr True pl (Z.of_nat cap) q m (disk w) bytes Sp Mr)) as G.
  unfold moves_in_file. rewrite E. cbn [bind].
  apply (moves_walk native native' (file_source pl) _ (file_left Pr pl (Z.of_nat cap) q m (disk w) bytes) _ _ bytes e o
    G (file_biggest_wide pl cap e W C)); try assumption.
  - intros rest r H. now apply (file_tell Pr pl (Z.of_nat cap) q m (disk w)).
  - intros rest r i H I. now apply (file_go_to Pr pl (Z.of_nat cap) q m (disk w) bytes rest).
  - pose proof (len_nonneg bytes). lia.
  - rewrite drop_0. split; [exact Lf|]. split; reflexivity.
  - constructor.
Qed.
Print Assumptions C144_file_partial.
Example C144_file_example :
  let bytes := text_bytes UTF16 BigEndian [0x41; 0x1F600; 0x42]%N in
  let w := World (fun q => if N.eqb q 1 then Some bytes else None) (fun _ => None) 0 [InFull; AtMost 1; InFull] in
  disk w 1 = Some bytes /\ no_failure w /\ no_short_read_on_unix Windows w /\ wide_enough 4 UTF16 /\
  moves_in_file Windows w 1 ReadOnly 4 Little UTF16 BigEndian [Take; Note; Take; Note; Return 0; Take; Take; Return 1; Take]
  = Ok ([Ok 0x41; Ok 0x1F600; Ok 0x1F600; Ok 0x42; Ok 0x42]%N, [2; 6]).
Proof.
  cbv zeta. split; [reflexivity|]. split; [repeat constructor; discriminate|]. split; [now left|]. split; [right; cbn; lia|].
  vm_compute. reflexivity.
Qed.

(** What is found in a text: its characters, each as many bytes after the one before as
    that takes. *)
Theorem C144_places_of_characters : forall native e o before c after,
  Forall scalar (before ++ c :: after) -> c <> 13%N -> len (text_bytes e o (before ++ c :: after)) < 2 ^ 62 ->
  found_at (order_of native) e o (text_bytes e o (before ++ c :: after)) (len (text_bytes e o before))
  = (Ok c, len (text_bytes e o (before ++ [c]))).
Proof.
  intros native e o pre c post F Nc L. rewrite !text_bytes_app, len_app in *.
  assert (Sc : scalar c) by (rewrite Forall_app in F; destruct F as [_ F]; now inversion F).
  unfold found_at.
  assert (D : drop (len (text_bytes e o pre)) (text_bytes e o pre ++ text_bytes e o (c :: post)) = text_bytes e o (c :: post)).
  { unfold drop, len. rewrite Nat2Z.id, skipn_app, skipn_all, Nat.sub_diag. reflexivity. }
  rewrite D. pose proof (len_nonneg (text_bytes e o pre)) as L0. clear D.
  assert (Ec : text_bytes e o (c :: post) = unit_bytes e o (encode1 e c) ++ text_bytes e o post) by apply text_bytes_cons.
  assert (E1 : text_bytes e o [c] = unit_bytes e o (encode1 e c)) by (rewrite text_bytes_cons; apply app_nil_r).
  rewrite E1. set (t := text_bytes e o (c :: post)) in *.
  assert (H : StreamLemmas2.before (fixed_left (Z.of_nat 0) t) e o t (open_input t 0 e o)).
  { split; [apply fixed_new; lia|]. split; reflexivity. }
  assert (B : Z.of_nat (unit_width e) <= biggest_read (Z.of_nat 0)) by (apply (unit_roomy 0 e); now left).
  destruct (whole_char native container_source _ _ (fixed_good_source (Z.of_nat 0) t) e o B c (text_bytes e o post) (open_input t 0 e o) Sc)
    as (st' & E & H').
  { rewrite <- Ec. exact H. }
  unfold kept_filtered. rewrite E. cbn [then_]. replace (c =? 13)%N with false by (symmetry; now apply N.eqb_neq).
  destruct H' as (H' & _ & _). destruct (fixed_tell _ _ _ _ H') as (P & _ & _). rewrite P. f_equal.
  rewrite Ec, !len_app. lia.
Qed.
Print Assumptions C144_places_of_characters.
Example C144_places_example : Forall scalar ([0x41; 0x20AC] ++ 0x1F600 :: [0x42])%N /\
  found_at Little UTF8 BigEndian (text_bytes UTF8 BigEndian [0x41; 0x20AC; 0x1F600; 0x42]%N) 4 = (Ok 0x1F600%N, 8).
Proof. split; [repeat constructor; unfold scalar; lia|]. vm_compute. reflexivity. Qed.

(** What is taken after a place was noted is taken again after returning to it, whatever
    was done before and in between. *)
Theorem C144_again_partial : forall native cap e o bytes earlier n between,
  len bytes < 2 ^ 62 -> Forall (fun b => b < 256)%N bytes -> roomy cap (unit_width e) ->
  let noted := length (filter (fun m => match m with Note => true | _ => false end) earlier) in
  exists first again middle notes,
  moves_in_memory 1 cap (order_of native) e o bytes
    (earlier ++ Note :: repeat Take n ++ between ++ Return noted :: repeat Take n)
  = Ok (first ++ again ++ middle ++ again, notes) /\ length again = n.
Proof.
  intros native cap e o bytes earlier n between L F R noted.
  rewrite (C144_memory_partial native native cap e o bytes _ L F R).
  destruct (walk_again _ (found_at (order_of native) e o bytes) earlier n between) as (a & b & c & notes & E & Lb).
  exists a, b, c, notes. split; [now f_equal|exact Lb].
Qed.
Print Assumptions C144_again_partial.
Example C144_again_example :
  moves_in_memory 1 2 Little UTF16 LittleEndian (text_bytes UTF16 LittleEndian [65; 66; 67; 68]%N)
    ([Take; Note] ++ Note :: repeat Take 2 ++ [Return 0; Note; Take] ++ Return 1 :: repeat Take 2)
  = Ok ([Ok 65] ++ [Ok 66; Ok 67] ++ [Ok 66] ++ [Ok 66; Ok 67], [2; 2; 2]%Z)%N.
Proof. vm_compute. reflexivity. Qed.
