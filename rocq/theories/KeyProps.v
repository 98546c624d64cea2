(** Property C58: keys, their names and their native codes. *)
From Coq Require Import NArith ZArith List Bool Lia.
From Coq Require Import ZifyBool ZifyNat ZifyN.
From Verif Require Import Base KeySpec KeyModel.
Import ListNotations.
Open Scope N_scope.

(** The key an enumerator stands for; none for unknown and for values that are no
    enumerators. *)
Definition label_of (k : key) : option label :=
  match k with
  | key_f1 => Some (FunctionKey 1)
  | key_f2 => Some (FunctionKey 2)
  | key_f3 => Some (FunctionKey 3)
  | key_f4 => Some (FunctionKey 4)
  | key_f5 => Some (FunctionKey 5)
  | key_f6 => Some (FunctionKey 6)
  | key_f7 => Some (FunctionKey 7)
  | key_f8 => Some (FunctionKey 8)
  | key_f9 => Some (FunctionKey 9)
  | key_f10 => Some (FunctionKey 10)
  | key_f11 => Some (FunctionKey 11)
  | key_f12 => Some (FunctionKey 12)
  | key_f13 => Some (FunctionKey 13)
  | key_f14 => Some (FunctionKey 14)
  | key_f15 => Some (FunctionKey 15)
  | key_f16 => Some (FunctionKey 16)
  | key_f17 => Some (FunctionKey 17)
  | key_f18 => Some (FunctionKey 18)
  | key_f19 => Some (FunctionKey 19)
  | key_f20 => Some (FunctionKey 20)
  | key_f21 => Some (FunctionKey 21)
  | key_f22 => Some (FunctionKey 22)
  | key_f23 => Some (FunctionKey 23)
  | key_f24 => Some (FunctionKey 24)
  | key_number_0 => Some (NumberKey 0)
  | key_number_1 => Some (NumberKey 1)
  | key_number_2 => Some (NumberKey 2)
  | key_number_3 => Some (NumberKey 3)
  | key_number_4 => Some (NumberKey 4)
  | key_number_5 => Some (NumberKey 5)
  | key_number_6 => Some (NumberKey 6)
  | key_number_7 => Some (NumberKey 7)
  | key_number_8 => Some (NumberKey 8)
  | key_number_9 => Some (NumberKey 9)
  | key_numpad_0 => Some (NumpadKey 0)
  | key_numpad_1 => Some (NumpadKey 1)
  | key_numpad_2 => Some (NumpadKey 2)
  | key_numpad_3 => Some (NumpadKey 3)
  | key_numpad_4 => Some (NumpadKey 4)
  | key_numpad_5 => Some (NumpadKey 5)
  | key_numpad_6 => Some (NumpadKey 6)
  | key_numpad_7 => Some (NumpadKey 7)
  | key_numpad_8 => Some (NumpadKey 8)
  | key_numpad_9 => Some (NumpadKey 9)
  | key_a => Some (LetterKey 0)
  | key_b => Some (LetterKey 1)
  | key_c => Some (LetterKey 2)
  | key_d => Some (LetterKey 3)
  | key_e => Some (LetterKey 4)
  | key_f => Some (LetterKey 5)
  | key_g => Some (LetterKey 6)
  | key_h => Some (LetterKey 7)
  | key_i => Some (LetterKey 8)
  | key_j => Some (LetterKey 9)
  | key_k => Some (LetterKey 10)
  | key_l => Some (LetterKey 11)
  | key_m => Some (LetterKey 12)
  | key_n => Some (LetterKey 13)
  | key_o => Some (LetterKey 14)
  | key_p => Some (LetterKey 15)
  | key_q => Some (LetterKey 16)
  | key_r => Some (LetterKey 17)
  | key_s => Some (LetterKey 18)
  | key_t => Some (LetterKey 19)
  | key_u => Some (LetterKey 20)
  | key_v => Some (LetterKey 21)
  | key_w => Some (LetterKey 22)
  | key_x => Some (LetterKey 23)
  | key_y => Some (LetterKey 24)
  | key_z => Some (LetterKey 25)
  | key_space_bar => Some (SpaceKey)
  | key_unknown | other_key _ => None
  end.

Definition codes_of (t : toolkit) (l : label) : list N :=
  match t with
  | WindowsApi => [windows_code l]
  | Gtk => gdk_codes l
  | MacOS => macos_codes l
  end.

Definition is_key (k : key) : Prop := match k with other_key _ => False | _ => True end.

(** Every key has the name of what is written on it. *)
Theorem C58_names : forall k, is_key k ->
  to_u8string k = Ok (match label_of k with Some l => caption l | None => unknown_caption end).
Proof. intros k H. destruct k; try reflexivity. contradiction. Qed.
Print Assumptions C58_names.

Definition all_keys : list key :=
  [key_f1; key_f2; key_f3; key_f4; key_f5; key_f6; key_f7; key_f8; key_f9; key_f10; key_f11; key_f12; key_f13; key_f14; key_f15; key_f16; key_f17; key_f18; key_f19; key_f20; key_f21; key_f22; key_f23; key_f24; key_number_0; key_number_1; key_number_2; key_number_3; key_number_4; key_number_5; key_number_6; key_number_7; key_number_8; key_number_9; key_numpad_0; key_numpad_1; key_numpad_2; key_numpad_3; key_numpad_4; key_numpad_5; key_numpad_6; key_numpad_7; key_numpad_8; key_numpad_9; key_a; key_b; key_c; key_d; key_e; key_f; key_g; key_h; key_i; key_j; key_k; key_l; key_m; key_n; key_o; key_p; key_q; key_r; key_s; key_t; key_u; key_v; key_w; key_x; key_y; key_z; key_space_bar; key_unknown].

Definition all_labels : list label :=
  map (fun n => FunctionKey (N.of_nat n)) (seq 1 24) ++ map (fun n => NumberKey (N.of_nat n)) (seq 0 10) ++
  map (fun n => NumpadKey (N.of_nat n)) (seq 0 10) ++ map (fun n => LetterKey (N.of_nat n)) (seq 0 26) ++ [SpaceKey].

Lemma all_labels_all : forall l, on_keyboard l -> In l all_labels.
Proof.
  intros [n|d|d|i|] H; cbn [on_keyboard] in H; unfold all_labels; rewrite !in_app_iff.
  - left. apply in_map_iff. exists (N.to_nat n). split; [now rewrite N2Nat.id|]. apply in_seq. lia.
  - right. left. apply in_map_iff. exists (N.to_nat d). split; [now rewrite N2Nat.id|]. apply in_seq. lia.
  - right. right. left. apply in_map_iff. exists (N.to_nat d). split; [now rewrite N2Nat.id|]. apply in_seq. lia.
  - right. right. right. left. apply in_map_iff. exists (N.to_nat i). split; [now rewrite N2Nat.id|]. apply in_seq. lia.
  - right. right. right. right. now left.
Qed.

Definition same_label (a b : label) : bool :=
  match a, b with
  | FunctionKey n, FunctionKey m | NumberKey n, NumberKey m | NumpadKey n, NumpadKey m | LetterKey n, LetterKey m => n =? m
  | SpaceKey, SpaceKey => true
  | _, _ => false
  end.

Lemma same_label_eq : forall a b, same_label a b = true -> a = b.
Proof. intros [] [] H; try discriminate; try reflexivity; cbn [same_label] in H; apply N.eqb_eq in H; now subst. Qed.

Definition is_label (l : label) (k : key) : bool := match label_of k with Some m => same_label m l | None => false end.

Lemma is_label_eq : forall l k, is_label l k = true -> label_of k = Some l.
Proof. intros l k H. unfold is_label in H. destruct (label_of k) as [m|]; [|discriminate]. f_equal. now apply same_label_eq. Qed.

(** Every key of the keyboard is a key. *)
Theorem C58_complete : forall l, on_keyboard l -> exists k, is_key k /\ label_of k = Some l.
Proof.
  assert (A : forallb (fun l => existsb (is_label l) all_keys) all_labels = true) by (vm_compute; reflexivity).
  intros l H. apply all_labels_all in H. rewrite forallb_forall in A. specialize (A l H). apply existsb_exists in A.
  destruct A as (k & _ & E). exists k. apply is_label_eq in E. split; [|assumption]. destruct k; try exact I. discriminate.
Qed.
Print Assumptions C58_complete.

(** Different keys have different names. *)
Definition named (s : list N) : option key :=
  find (fun k => match to_u8string k with Ok t => if list_eq_dec N.eq_dec t s then true else false | _ => false end) all_keys.

Theorem C58_distinct : forall k k' s, to_u8string k = Ok s -> to_u8string k' = Ok s -> k = k'.
Proof.
  assert (A : forall k s, to_u8string k = Ok s -> named s = Some k).
  { intros k s H. destruct k; try discriminate; injection H as <-; vm_compute; reflexivity. }
  intros k k' s H H'. apply A in H. apply A in H'. congruence.
Qed.
Print Assumptions C58_distinct.

Example C58_names_example : is_key key_f12 /\ to_u8string key_f12 = Ok [70; 49; 50] /\ label_of key_f12 = Some (FunctionKey 12).
Proof. split; [exact I|]. split; reflexivity. Qed.

(** For values of the enumeration type that are no keys, to_u8string has undefined behaviour. *)
Example C58_cast_example : forall n, to_u8string (other_key n) = UB NoReturn.
Proof. reflexivity. Qed.

(** A native code is translated to the key it denotes. *)
Lemma switch_in : forall cases code, switch cases code = key_unknown \/ In (code, switch cases code) cases.
Proof.
  intros cases code. unfold switch. destruct (find _ cases) as [[c k]|] eqn:E; [|now left]. right.
  apply find_some in E. destruct E as [E1 E2]. cbn [fst] in E2. apply N.eqb_eq in E2. now subst c.
Qed.

Definition cases_of (t : toolkit) : list (N * key) :=
  match t with WindowsApi => windows_cases | Gtk => gtk_cases | MacOS => macos_cases end.

Lemma case_right : forall t code k, In (code, k) (cases_of t) -> exists l, label_of k = Some l /\ on_keyboard l /\ In code (codes_of t l).
Proof.
  assert (A : forall t, forallb (fun '(c, k) => existsb (fun l => is_label l k && existsb (N.eqb c) (codes_of t l)) all_labels) (cases_of t) = true).
  { intros []; vm_compute; reflexivity. }
  assert (B : forall l, In l all_labels -> on_keyboard l).
  { intros l H. unfold all_labels in H. rewrite !in_app_iff in H. rewrite !in_map_iff in H.
    destruct H as [(n & <- & H)|[(n & <- & H)|[(n & <- & H)|[(n & <- & H)|[<-|[]]]]]]; try apply in_seq in H; cbn [on_keyboard]; lia. }
  intros t code k H. specialize (A t). rewrite forallb_forall in A. specialize (A (code, k) H). cbn beta iota in A.
  apply existsb_exists in A. destruct A as (l & L & E). apply andb_prop in E. destruct E as [E1 E2]. exists l.
  split; [now apply is_label_eq|]. split; [now apply B|]. apply existsb_exists in E2. destruct E2 as (c & I & E). apply N.eqb_eq in E. now subst c.
Qed.

Lemma code_found : forall t l code, on_keyboard l -> In code (codes_of t l) -> label_of (translate_key_code t code) = Some l.
Proof.
  assert (A : forall t, forallb (fun l => forallb (fun c => is_label l (translate_key_code t c)) (codes_of t l)) all_labels = true).
  { intros []; vm_compute; reflexivity. }
  intros t l code H I. specialize (A t). rewrite forallb_forall in A. specialize (A l (all_labels_all _ H)).
  rewrite forallb_forall in A. apply is_label_eq. exact (A code I).
Qed.

Theorem C58_translated : forall t code l, on_keyboard l ->
  In code (codes_of t l) <-> label_of (translate_key_code t code) = Some l.
Proof.
  intros t code l H. split; [now apply code_found|]. intro E. destruct (switch_in (cases_of t) code) as [S|S].
  - change (switch (cases_of t) code) with (translate_key_code t code) in S. rewrite S in E. discriminate.
  - change (switch (cases_of t) code) with (translate_key_code t code) in S.
    destruct (case_right _ _ _ S) as (l' & L & _ & I). congruence.
Qed.
Print Assumptions C58_translated.

(** Every other code is translated to unknown. *)
Theorem C58_unlisted : forall t code, (forall l, on_keyboard l -> ~ In code (codes_of t l)) <-> translate_key_code t code = key_unknown.
Proof.
  intros t code. split.
  - intro H. destruct (switch_in (cases_of t) code) as [S|S]; [exact S|].
    destruct (case_right _ _ _ S) as (l & _ & K & I). exfalso. exact (H l K I).
  - intros E l K I. apply (code_found t l code K) in I. rewrite E in I. discriminate.
Qed.
Print Assumptions C58_unlisted.

Example C58_translated_example :
  translate_key_code WindowsApi 0x7B = key_f12 /\ translate_key_code Gtk 0x71 = key_q /\ translate_key_code Gtk 0x51 = key_q /\
  translate_key_code MacOS 0x0C = key_q /\ translate_key_code MacOS 0xFFFF = key_unknown /\ on_keyboard (FunctionKey 12).
Proof. repeat split; try reflexivity; cbn; lia. Qed.
