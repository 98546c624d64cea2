(** Programs that use a data stream and a text stream on the same resource, as in the C145
    statements. *)
From Coq Require Import NArith ZArith List.
From Verif Require Import Base Integers UnicodeSpec UnicodeModel UnicodeText ResourceSpec ResourceModel ResourceText
  StreamSpec StreamModel StreamText FileSpec FileModel FileText TextFileSpec TextFileModel TextFileText BlendSpec.
Import ListNotations.
Open Scope Z_scope.

(** Values are written through a data output stream, lines, given as strings of kind k,
    through a text output stream. *)
Fixpoint put_items {R : Type} (native : endian) (ops : sink R) (k : ukind) (d : byte_order) (e : encoding) (o : byte_order)
    (r : R) (l : list item) : outcome R :=
  match l with
  | [] => Ok r
  | Value w v :: l =>
      bind (data_write native ops (order_of d) r (to_memory native w v)) (fun r => put_items native ops k d e o r l)
  | TextLine t :: l =>
      bind (write_string native ops k (TextOutput r (order_of o) (form_of e)) (units k (t ++ [10%N]))) (fun st =>
      put_items native ops k d e o (out_res st) l)
  end.

(** Values are read through a data input stream, lines, to strings of kind k, through a
    text input stream. *)
Fixpoint take_items {R : Type} (native : endian) (ops : source R) (fuel : nat) (k : ukind) (d : byte_order) (e : encoding)
    (o : byte_order) (r : R) (l : list wish) : outcome (R * list item) :=
  match l with
  | [] => Ok (r, [])
  | AValue w :: l =>
      bind (data_read native ops (order_of d) r w) (fun '(r, x) =>
      bind (take_items native ops fuel k d e o r l) (fun '(r, a) => Ok (r, Value w (from_memory native x) :: a)))
  | ALine :: l =>
      bind (read_line native ops fuel k (TextInput r (order_of o) (form_of e))) (fun '(st, t) =>
      bind (take_items native ops fuel k d e o (in_res st) l) (fun '(r, a) => Ok (r, TextLine t :: a)))
  end.

(** A line as it arrives in a string of kind k. *)
Definition item_in (k : ukind) (i : item) : item :=
  match i with Value w v => Value w v | TextLine l => TextLine (units k l) end.

(** In a container of bytes that is empty at first. *)
Definition write_items_memory (cap : nat) (native : endian) (k : ukind) (d : byte_order) (e : encoding) (o : byte_order)
    (l : list item) : outcome (list N) :=
  bind (put_items native container_sink k d e o (new_resource [] 1 cap) l) (fun r =>
  bind (sink_flush container_sink r) (fun r => Ok (content (inner r)))).

Definition read_items_memory (cap : nat) (native : endian) (fuel : nat) (k : ukind) (d : byte_order) (e : encoding)
    (o : byte_order) (bytes : list N) (l : list wish) : outcome (list item) :=
  bind (take_items native container_source fuel k d e o (new_resource bytes 1 cap) l) (fun '(_, a) => Ok a).

(** In a file that is opened, used and destroyed. *)
Definition write_items_file (pl : platform) (w : world) (q : N) (m : access_mode) (how : if_not_there) (cap : nat)
    (native : endian) (k : ukind) (d : byte_order) (e : encoding) (o : byte_order) (l : list item) : outcome world :=
  bind (new_file pl w q m how cap) (fun f =>
  bind (put_items native (file_sink pl) k d e o f l) (fun f =>
  bind (noexcept (sink_flush (file_sink pl) f)) (fun f => destroy pl f))).

Definition read_items_file (pl : platform) (w : world) (q : N) (m : access_mode) (cap : nat) (native : endian) (fuel : nat)
    (k : ukind) (d : byte_order) (e : encoding) (o : byte_order) (l : list wish) : outcome (world * list item) :=
  bind (new_file pl w q m Fail cap) (fun f =>
  bind (take_items native (file_source pl) fuel k d e o f l) (fun '(f, a) =>
  bind (destroy pl f) (fun w => Ok (w, a)))).

(** An item that can be written and read: a value that fits and is read at once, a line
    without line ends that the strings and the stream can take (C42). *)
Definition proper_item (native : byte_order) (e : encoding) (o : byte_order) (k : ukind) (cap fuel : nat) (i : item) : Prop :=
  match i with
  | Value w v => (0 < w)%nat /\ Z.of_nat w < 2 ^ 32 /\ (v < 256 ^ N.of_nat w)%N /\ roomy cap w
  | TextLine l =>
      Forall (fun c => scalar c /\ printable native e o k c /\ storable k c /\ c <> 10%N /\ c <> 13%N) l /\
      (length l < fuel)%nat
  end.
