(** Programs that read and write texts, as in the theorem statements. *)
From Coq Require Import NArith ZArith List Bool.
From Verif Require Import Base Integers UnicodeSpec UnicodeModel UnicodeText ResourceSpec ResourceModel ResourceText
  StreamSpec StreamModel StreamText FileSpec FileModel FileText TextFileSpec TextFileModel.
Import ListNotations.
Open Scope Z_scope.

(* ----------------------------------------------------------------- reading *)

(** One request; strings of kind k are read to. *)
Definition answer_request {R : Type} (native : endian) (ops : source R) (fuel : nat) (st : text_input R)
    (q : request) (k : ukind) : outcome (text_input R * piece) :=
  match q with
  | Character => bind (read_filtered_code_point native ops st) (fun '(st, c) => Ok (st, ACharacter c))
  | Line => bind (read_line native ops fuel k st) (fun '(st, a) => Ok (st, AText a))
  | Word => bind (read_word native ops fuel k st) (fun '(st, a) => Ok (st, AText a))
  | Rest => bind (read_all native ops fuel k st) (fun '(st, a) => Ok (st, AText a))
  | Integer t => bind (read_integer native ops fuel t st) (fun '(st, x) => Ok (st, AnInteger x))
  | Boolean => bind (read_bool native ops fuel st) (fun '(st, b) => Ok (st, ABoolean b))
  | AtEnd => bind (text_at_end ops st) (fun b => Ok (st, ABoolean b))
  end.

Fixpoint answer_requests {R : Type} (native : endian) (ops : source R) (fuel : nat) (st : text_input R)
    (qs : list (request * ukind)) : outcome (text_input R * list piece) :=
  match qs with
  | [] => Ok (st, [])
  | (q, k) :: qs =>
      bind (answer_request native ops fuel st q k) (fun '(st, a) =>
      bind (answer_requests native ops fuel st qs) (fun '(st, l) => Ok (st, a :: l)))
  end.

(** A piece as it arrives in a string of kind k. *)
Definition piece_in (k : ukind) (a : piece) : piece :=
  match a with AText l => AText (units k l) | _ => a end.

(** A piece that can arrive: the string can take the characters (C01), and a signed
    integer is not the least of its type (C17). *)
Definition can_arrive (q : request) (k : ukind) (a : piece) : Prop :=
  match a, q with
  | AText l, _ => Forall (storable k) l
  | AnInteger x, Integer t => standard t /\ (is_signed t = true -> x <> min_of t)
  | _, _ => True
  end.

(** The pieces of several requests. *)
Definition pieces_in (qs : list (request * ukind)) (answers : list piece) : list piece :=
  map (fun '((_, k), a) => piece_in k a) (combine qs answers).
Definition all_can_arrive (qs : list (request * ukind)) (answers : list piece) : Prop :=
  Forall (fun '((q, k), a) => can_arrive q k a) (combine qs answers).

(** Reads go through a buffer of at least one code unit, or none. *)
Definition wide_enough (cap : nat) (e : encoding) : Prop := roomy cap (unit_width e).

(* ----------------------------------------------------------------- writing *)

(** One entry.  Texts are given as strings of kind k. *)
Definition make_entry {R : Type} (native : endian) (cs : bool) (ops : sink R) (st : text_output R)
    (p : entry) (k : ukind) : outcome (text_output R) :=
  match p with
  | EnterCharacter c => write_code_point native ops st c
  | EnterText l => write_string native ops k st (units k l)
  | EnterInteger t x => write_integer native ops cs t st x
  | EnterBoolean b => write_bool native ops st b
  | EnterMark => write_bom native ops st
  | EnterNothing => text_flush ops st
  end.

Fixpoint make_entries {R : Type} (native : endian) (cs : bool) (ops : sink R) (st : text_output R)
    (ps : list (entry * ukind)) : outcome (text_output R) :=
  match ps with
  | [] => Ok st
  | (p, k) :: ps => bind (make_entry native cs ops st p k) (fun st => make_entries native cs ops st ps)
  end.

(** An entry the stream can write (C42, C45): characters it can encode, strings of a
    kind it can convert, no least value of a signed type. *)
Definition can_enter (native : byte_order) (e : encoding) (o : byte_order) (p : entry) (k : ukind) : Prop :=
  match p with
  | EnterCharacter c => StreamText.writable e c
  | EnterText l => Forall (printable native e o k) l
  | EnterInteger t x => standard t /\ in_range t x /\ (is_signed t = true -> x <> min_of t)
  | EnterBoolean _ | EnterMark | EnterNothing => True
  end.

(** No single entry is larger than what one call of the operating system transfers. *)
Definition small_entry (pl : platform) (e : encoding) (o : byte_order) (p : entry) : Prop :=
  forall s, entry_text p s -> len (text_bytes e o s) <= chunk_max pl.

(* -------------------------------------------------------------- text files *)

(** A file is opened (and its position set to the end, if appending), entries are made
    through a text output stream, and stream and file are destroyed. *)
Definition write_text_file (pl : platform) (w : world) (q : N) (m : access_mode) (how : if_not_there) (cap : nat)
    (appending : bool) (native : endian) (cs : bool) (e : encoding) (o : byte_order) (ps : list (entry * ukind))
  : outcome world :=
  bind (new_file pl w q m how cap) (fun f =>
  bind (if appending then file_seek pl f 0 FromEnd else Ok f) (fun f =>
  bind (make_entries native cs (file_sink pl) (TextOutput f (order_of o) (form_of e)) ps) (fun st =>
  bind (noexcept (text_flush (file_sink pl) st)) (fun st => destroy pl (out_res st))))).

(** A file is opened, requests are made through a text input stream (after reading a byte
    order mark, if marked), and stream and file are destroyed. *)
Definition read_text_file (pl : platform) (w : world) (q : N) (m : access_mode) (cap : nat)
    (marked : bool) (native : endian) (e : encoding) (o : byte_order) (fuel : nat) (qs : list (request * ukind))
  : outcome (world * list piece) :=
  bind (new_file pl w q m Fail cap) (fun f =>
  let st := TextInput f (order_of o) (form_of e) in
  bind (if marked then bind (read_bom native (file_source pl) st) (fun '(st, _) => Ok st) else Ok st) (fun st =>
  bind (answer_requests native (file_source pl) fuel st qs) (fun '(st, l) =>
  bind (destroy pl (in_res st)) (fun w => Ok (w, l))))).

(** The file is there with contents l, or is not there and will be created empty. *)
Definition will_open (w : world) (q : N) (how : if_not_there) (l : list N) : Prop :=
  disk w q = Some l \/ disk w q = None /\ how = Create /\ l = [].

(** The operating system lets the file be opened. *)
Definition opens (w : world) : Prop := match script w with Refuse :: _ => False | _ => True end.

(** A file is opened for reading and writing, and used through one text I/O stream: the
    byte order mark and everything after it is read, the position is set to the end,
    and entries are made. *)
Definition edit_text_file (pl : platform) (w : world) (q : N) (cap : nat) (native : endian) (cs : bool)
    (e : encoding) (o : byte_order) (fuel : nat) (k : ukind) (ps : list (entry * ukind))
  : outcome (world * piece) :=
  bind (new_file pl w q ReadAndWrite Fail cap) (fun f =>
  bind (as_input (new_text_io f (form_of e) (order_of o)) (read_bom native (file_source pl))) (fun '(st, _) =>
  bind (as_input st (fun i => answer_request native (file_source pl) fuel i Rest k)) (fun '(st, a) =>
  bind (file_seek pl (io_res st) 0 FromEnd) (fun f =>
  bind (as_output (TextIO f (io_in_order st) (io_in_form st) (io_out_order st) (io_out_form st))
          (fun out => make_entries native cs (file_sink pl) out ps)) (fun st =>
  bind (noexcept (as_output st (text_flush (file_sink pl)))) (fun st =>
  bind (destroy pl (io_res st)) (fun w => Ok (w, a)))))))).

(** while (!in.is_at_end()) { in >> c; out << c; } with the streams on two files.  w is
    the state of the operating system. *)
Fixpoint copy_characters (pl : platform) (native : endian) (fuel : nat) (w : world)
    (i : text_input file) (out : text_output file) : outcome (world * text_input file * text_output file) :=
  match fuel with
  | O => Diverge
  | S fuel =>
      let i := TextInput (in_world w (in_res i)) (in_order_ i) (in_form i) in
      bind (text_at_end (file_source pl) i) (fun stop =>
      if stop then Ok (w, i, out)
      else
        bind (read_filtered_code_point native (file_source pl) i) (fun '(i, c) =>
        bind (write_code_point native (file_sink pl) (with_res out (in_world (os (inner (res (in_res i)))) (out_res out))) c)
          (fun out => copy_characters pl native fuel (os (inner (res (out_res out)))) i out)))
  end.

(** The file q is copied to the file r, which is opened with if_not_there how, from one
    encoding and byte order to another.  The output stream is destroyed first, then the
    files. *)
Definition copy_text_file (pl : platform) (w : world) (q r : N) (how : if_not_there) (cap1 cap2 : nat)
    (native : endian) (e1 : encoding) (o1 : byte_order) (e2 : encoding) (o2 : byte_order) (fuel : nat)
  : outcome world :=
  bind (new_file pl w q ReadOnly Fail cap1) (fun f =>
  bind (new_file pl (os (inner (res f))) r WriteOnly how cap2) (fun g =>
  bind (copy_characters pl native fuel (os (inner (res g))) (TextInput f (order_of o1) (form_of e1))
          (TextOutput g (order_of o2) (form_of e2))) (fun '(w, i, out) =>
  bind (noexcept (text_flush (file_sink pl) (with_res out (in_world w (out_res out))))) (fun out =>
  bind (destroy pl (out_res out)) (fun w => destroy pl (in_world w (in_res i))))))).
