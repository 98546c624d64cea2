(** What a user expects of values kept in a file: a sequence of values, or a table of
    records of a fixed layout.  Independent of the model. *)
From Coq Require Import NArith ZArith List Bool.
From Verif Require Import StreamSpec.
Import ListNotations.
Open Scope Z_scope.

(** The layout of a record: the sizes of its fields. *)
Definition layout : Type := list nat.

(** A record: the values of its fields. *)
Definition record : Type := list N.
Definition has_layout (ly : layout) (r : record) : Prop :=
  length r = length ly /\ Forall fits (combine ly r).

(** The size of a record, and the place of field j in it. *)
Fixpoint record_size (ly : layout) : Z :=
  match ly with
  | [] => 0
  | w :: ly => Z.of_nat w + record_size ly
  end.
Definition field_place (ly : layout) (j : nat) : Z := record_size (firstn j ly).

(** The bytes of a record: its fields one after the other; those of a table: its records. *)
Definition record_bytes (o : byte_order) (ly : layout) (r : record) : list N := values_bytes o (combine ly r).
Definition table_bytes (o : byte_order) (ly : layout) (t : list record) : list N := flat_map (record_bytes o ly) t.

(** l with the element at i replaced. *)
Fixpoint replaced {A : Type} (i : nat) (x : A) (l : list A) : list A :=
  match l, i with
  | [], _ => []
  | _ :: l, O => x :: l
  | y :: l, S i => y :: replaced i x l
  end.

(** What can be done with a table. *)
Inductive deed : Type :=
| GetRecord (i : nat)
| GetField (i j : nat)
| SetRecord (i : nat) (r : record)
| SetField (i j : nat) (v : N)
| AddRecord (r : record)
| CountRecords
| Save.

Inductive yield : Type :=
| ARecord (r : record)
| AValue (v : N)
| ACount (n : Z)
| Nothing.

Definition perform (t : list record) (d : deed) : list record * yield :=
  match d with
  | GetRecord i => (t, ARecord (nth i t []))
  | GetField i j => (t, AValue (nth j (nth i t []) 0%N))
  | SetRecord i r => (replaced i r t, Nothing)
  | SetField i j v => (replaced i (replaced j v (nth i t [])) t, Nothing)
  | AddRecord r => (t ++ [r], Nothing)
  | CountRecords => (t, ACount (Z.of_nat (length t)))
  | Save => (t, Nothing)
  end.

Fixpoint perform_all (t : list record) (ds : list deed) : list record * list yield :=
  match ds with
  | [] => (t, [])
  | d :: ds =>
      let '(t, y) := perform t d in
      let '(t, l) := perform_all t ds in
      (t, y :: l)
  end.

(** Records and fields that are there, and values that fit. *)
Definition sensible (ly : layout) (t : list record) (d : deed) : Prop :=
  match d with
  | GetRecord i => (i < length t)%nat
  | GetField i j => (i < length t)%nat /\ (j < length ly)%nat
  | SetRecord i r => (i < length t)%nat /\ has_layout ly r
  | SetField i j v => (i < length t)%nat /\ (j < length ly)%nat /\ fits (nth j ly 0%nat, v)
  | AddRecord r => has_layout ly r
  | CountRecords | Save => True
  end.

Fixpoint all_sensible (ly : layout) (t : list record) (ds : list deed) : Prop :=
  match ds with
  | [] => True
  | d :: ds => sensible ly t d /\ all_sensible ly (fst (perform t d)) ds
  end.

(** Values taken from and put to a table of values of w bytes one after the other, without
    ever saying where. *)
Inductive turn : Type :=
| Take
| Give (v : N).

(** n: the values already passed. *)
Fixpoint turns (t : list N) (n : nat) (l : list turn) : list N * list N :=
  match l with
  | [] => (t, [])
  | Take :: l => let '(t', taken) := turns t (S n) l in (t', nth n t 0%N :: taken)
  | Give v :: l => turns (replaced n v t) (S n) l
  end.
