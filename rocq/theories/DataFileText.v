(** Programs that keep values in files, as in the theorem statements. *)
From Coq Require Import NArith ZArith List Bool.
From Verif Require Import Base Integers UnicodeModel ResourceSpec ResourceModel StreamSpec StreamModel StreamText FileModel TextFileModel
  DataFileSpec DataFileModel.
Import ListNotations.
Open Scope Z_scope.

(** A resource that takes reads of fields of these sizes (C33, C64): no buffer or one that
    holds the largest; no more than can be transferred at once. *)
Definition suits (pl : platform) (cap : nat) (ws : list nat) : Prop :=
  Forall (fun w => (0 < w)%nat /\ Z.of_nat w <= chunk_max pl /\ roomy cap w) ws.

(* ------------------------------------------------------------ value by value *)

(** Objects written one after the other with <<. *)
Fixpoint send_values {R : Type} (native : endian) (ops : sink R) (order : endian) (r : R) (vs : list (nat * N))
  : outcome R :=
  match vs with
  | [] => Ok r
  | (w, v) :: vs =>
      bind (data_write native ops order r (to_memory native w v)) (fun r => send_values native ops order r vs)
  end.

(** Objects read one after the other with >>: their values. *)
Fixpoint take_values {R : Type} (native : endian) (ops : source R) (order : endian) (r : R) (ws : list nat)
  : outcome (R * list N) :=
  match ws with
  | [] => Ok (r, [])
  | w :: ws =>
      bind (data_read native ops order r w) (fun '(r, data) =>
      bind (take_values native ops order r ws) (fun '(r, l) => Ok (r, from_memory native data :: l)))
  end.

(** while (!in.is_at_end()) { in >> x; ... } with objects of w bytes. *)
Fixpoint take_all_values {R : Type} (native : endian) (ops : source R) (order : endian) (fuel : nat) (r : R) (w : nat)
  : outcome (R * list N) :=
  match fuel with
  | O => Diverge
  | S fuel =>
      bind (source_at_end ops r) (fun stop =>
      if stop then Ok (r, [])
      else
        bind (data_read native ops order r w) (fun '(r, data) =>
        bind (take_all_values native ops order fuel r w) (fun '(r, l) => Ok (r, from_memory native data :: l))))
  end.

(** A file is opened (and its position set to the end, if appending), values are written
    through a data output stream, and stream and file are destroyed. *)
Definition write_data_file (pl : platform) (w : world) (q : N) (m : access_mode) (how : if_not_there) (cap : nat)
    (appending : bool) (native order : endian) (vs : list (nat * N)) : outcome world :=
  bind (new_file pl w q m how cap) (fun f =>
  bind (if appending then file_seek pl f 0 FromEnd else Ok f) (fun f =>
  bind (send_values native (file_sink pl) order f vs) (fun f =>
  bind (noexcept (sink_flush (file_sink pl) f)) (fun f => destroy pl f)))).

(** A file is opened, values of given sizes are read through a data input stream, and stream
    and file are destroyed. *)
Definition read_data_file (pl : platform) (w : world) (q : N) (m : access_mode) (cap : nat)
    (native order : endian) (ws : list nat) : outcome (world * list N) :=
  bind (new_file pl w q m Fail cap) (fun f =>
  bind (take_values native (file_source pl) order f ws) (fun '(f, l) =>
  bind (destroy pl f) (fun w => Ok (w, l)))).

(** The same, with values of one size until the end. *)
Definition read_whole_file (pl : platform) (w : world) (q : N) (m : access_mode) (cap : nat)
    (native order : endian) (fuel width : nat) : outcome (world * list N) :=
  bind (new_file pl w q m Fail cap) (fun f =>
  bind (take_all_values native (file_source pl) order fuel f width) (fun '(f, l) =>
  bind (destroy pl f) (fun w => Ok (w, l)))).

(* ------------------------------------------------------------------- tables *)

(** The fields of a record through a data I/O stream. *)
Fixpoint get_fields {R : Type} (native : endian) (ops : source R) (st : data_io R) (ws : list nat)
  : outcome (data_io R * list N) :=
  match ws with
  | [] => Ok (st, [])
  | w :: ws =>
      bind (get_value native ops st w) (fun '(st, data) =>
      bind (get_fields native ops st ws) (fun '(st, l) => Ok (st, from_memory native data :: l)))
  end.
Fixpoint put_fields {R : Type} (native : endian) (ops : sink R) (st : data_io R) (vs : list (nat * N))
  : outcome (data_io R) :=
  match vs with
  | [] => Ok st
  | (w, v) :: vs =>
      bind (put_value native ops st (to_memory native w v)) (fun st => put_fields native ops st vs)
  end.

(** One deed: the position is set through operator ->, and fields are read or written. *)
Definition do_deed (pl : platform) (native : endian) (ly : layout) (st : data_io file) (d : deed)
  : outcome (data_io file * yield) :=
  let size := record_size ly in
  let go n pr := through st (fun f => file_seek pl f n pr) in
  match d with
  | GetRecord i =>
      bind (go (Z.of_nat i * size) FromBegin) (fun st =>
      bind (get_fields native (file_source pl) st ly) (fun '(st, l) => Ok (st, ARecord l)))
  | GetField i j =>
      bind (go (Z.of_nat i * size + field_place ly j) FromBegin) (fun st =>
      bind (get_value native (file_source pl) st (nth j ly 0%nat)) (fun '(st, data) =>
      Ok (st, AValue (from_memory native data))))
  | SetRecord i r =>
      bind (go (Z.of_nat i * size) FromBegin) (fun st =>
      bind (put_fields native (file_sink pl) st (combine ly r)) (fun st => Ok (st, Nothing)))
  | SetField i j v =>
      bind (go (Z.of_nat i * size + field_place ly j) FromBegin) (fun st =>
      bind (put_value native (file_sink pl) st (to_memory native (nth j ly 0%nat) v)) (fun st => Ok (st, Nothing)))
  | AddRecord r =>
      bind (go 0 FromEnd) (fun st =>
      bind (put_fields native (file_sink pl) st (combine ly r)) (fun st => Ok (st, Nothing)))
  | CountRecords =>
      bind (go 0 FromEnd) (fun st =>
      bind (file_position pl (dio_res st)) (fun p => Ok (st, ACount (p / size))))
  | Save => bind (flush_io (file_sink pl) st) (fun st => Ok (st, Nothing))
  end.

Fixpoint do_deeds (pl : platform) (native : endian) (ly : layout) (st : data_io file) (ds : list deed)
  : outcome (data_io file * list yield) :=
  match ds with
  | [] => Ok (st, [])
  | d :: ds =>
      bind (do_deed pl native ly st d) (fun '(st, y) =>
      bind (do_deeds pl native ly st ds) (fun '(st, l) => Ok (st, y :: l)))
  end.

(** A file is opened for reading and writing, the deeds are done through one data I/O
    stream, and stream and file are destroyed. *)
Definition use_table (pl : platform) (w : world) (q : N) (how : if_not_there) (cap : nat) (native order : endian)
    (ly : layout) (ds : list deed) : outcome (world * list yield) :=
  bind (new_file pl w q ReadAndWrite how cap) (fun f =>
  bind (do_deeds pl native ly (new_data_io f order) ds) (fun '(st, l) =>
  bind (noexcept (flush_io (file_sink pl) st)) (fun st =>
  bind (destroy pl (dio_res st)) (fun w => Ok (w, l))))).

(** Values of w bytes taken and put through a data I/O stream, without seeks. *)
Fixpoint take_turns (pl : platform) (native : endian) (w : nat) (st : data_io file) (l : list turn)
  : outcome (data_io file * list N) :=
  match l with
  | [] => Ok (st, [])
  | Take :: l =>
      bind (get_value native (file_source pl) st w) (fun '(st, data) =>
      bind (take_turns pl native w st l) (fun '(st, taken) => Ok (st, from_memory native data :: taken)))
  | Give v :: l =>
      bind (put_value native (file_sink pl) st (to_memory native w v)) (fun st => take_turns pl native w st l)
  end.

Definition use_in_turn (pl : platform) (wd : world) (q : N) (cap : nat) (native order : endian) (w : nat) (l : list turn)
  : outcome (world * list N) :=
  bind (new_file pl wd q ReadAndWrite Fail cap) (fun f =>
  bind (take_turns pl native w (new_data_io f order) l) (fun '(st, taken) =>
  bind (noexcept (flush_io (file_sink pl) st)) (fun st =>
  bind (destroy pl (dio_res st)) (fun wd => Ok (wd, taken))))).
