(** A text output stream and a text input stream on one container, or on one file. *)
From Coq Require Import NArith ZArith List Bool.
From Verif Require Import Base Integers UnicodeSpec UnicodeModel UnicodeText ResourceSpec ResourceModel ResourceText
  StreamSpec StreamModel StreamText SharedModel FileModel FileText FollowText TextFileSpec TextFileModel TextFileText.
Import ListNotations.
Open Scope Z_scope.

(** The input resource, as a stream uses it: input_resource.cpp 22-35 and
    transparent_container_input_resource.ipp 28-38; the container has the content it has
    at the time of the call. *)
Definition shared_source : source shared :=
  Source _ shared_read (fun s => Ok (is_at_end (look_at (reader s) (owned s)))).

(** The same when the output resource has been tied to it: input_resource.cpp 37-44.
    read() flushes the output resource (input_resource.cpp 27-29);
    transparent_container_input_resource.ipp 28-38, is_at_end(), does not. *)
Definition tied_source : source shared :=
  Source _ shared_read_tied (fun s => Ok (is_at_end (look_at (reader s) (owned s)))).

(** The output resource, as a stream uses it: output_resource.cpp 21-40. *)
Definition shared_sink : sink shared := Sink _ shared_write shared_flush.

(** In every round the entries are made through the output stream, the output stream is
    flushed (if flushing), and the requests are made through the input stream. *)
Fixpoint run_relay {R : Type} (native : endian) (cs : bool) (src : source R) (snk : sink R) (flushing : bool) (fuel : nat) (s : R)
    (inp : text_input R) (out : text_output R)
    (rounds : list (list (entry * ukind) * list (request * ukind))) : outcome (R * list (list piece)) :=
  match rounds with
  | [] => Ok (s, [])
  | (ps, qs) :: rounds =>
      bind (make_entries native cs snk (with_res out s) ps) (fun out =>
      bind (if flushing then text_flush snk out else Ok out) (fun out =>
      bind (answer_requests native src fuel (TextInput (out_res out) (in_order_ inp) (in_form inp)) qs) (fun '(inp, a) =>
      bind (run_relay native cs src snk flushing fuel (in_res inp) inp out rounds) (fun '(s, more) =>
      Ok (s, a :: more)))))
  end.

(** A container of bytes holds the text old.  An output resource and an input resource
    are made for it, with buffers of the given capacities, the output resource goes to the
    end, and a stream is put on each of them. *)
Definition relay (native : byte_order) (cs : bool) (src : source shared) (flushing : bool) (fuel : nat)
    (e : encoding) (o : byte_order) (wcap rcap : nat) (old : list N)
    (rounds : list (list (entry * ukind) * list (request * ukind))) : outcome (shared * list (list piece)) :=
  bind (shared_seek (share (text_bytes e o old) 1 wcap rcap) 0 FromEnd) (fun s =>
  run_relay (order_of native) cs src shared_sink flushing fuel s (TextInput s (order_of o) (form_of e))
    (TextOutput s (order_of o) (form_of e)) rounds).

(** Two file objects and the operating system. *)
Record duo : Type := Duo { system : world; first_file : file; second_file : file }.

(** The first object as a stream uses it to write, the second one as a stream uses it to
    read (TextFileModel.v): file.cpp 68-81, output_resource.cpp 33-40, input_resource.cpp
    22-35.  Each call finds the operating system as the last one left it. *)
Definition first_sink (pl : platform) : sink duo :=
  Sink _
    (fun d data => bind (sink_write (file_sink pl) (in_world (system d) (first_file d)) data) (fun '(f, k) =>
                   Ok (Duo (os (inner (res f))) f (second_file d), k)))
    (fun d => bind (sink_flush (file_sink pl) (in_world (system d) (first_file d))) (fun f =>
              Ok (Duo (os (inner (res f))) f (second_file d)))).
Definition second_source (pl : platform) : source duo :=
  Source _
    (fun d block n => bind (source_read (file_source pl) (in_world (system d) (second_file d)) block n) (fun '(g, block, k) =>
                      Ok (Duo (os (inner (res g))) (first_file d) g, block, k)))
    (fun d => source_at_end (file_source pl) (in_world (system d) (second_file d))).

(** One object is opened on the file q and set to its end, another one is opened on it to
    read, and a stream is put on each of them. *)
Definition follow_text (pl : platform) (w : world) (q : N) (mw mr : access_mode) (how : if_not_there) (wcap rcap : nat)
    (native : byte_order) (cs : bool) (fuel : nat) (e : encoding) (o : byte_order)
    (rounds : list (list (entry * ukind) * list (request * ukind))) : outcome (duo * list (list piece)) :=
  bind (open_both pl w q mw mr how wcap rcap) (fun '(f, g) =>
  let d := Duo (system_of g) f g in
  run_relay (order_of native) cs (second_source pl) (first_sink pl) true fuel d (TextInput d (order_of o) (form_of e))
    (TextOutput d (order_of o) (form_of e)) rounds).

(** The entries and requests alone. *)
Definition bare (rounds : list (list (entry * ukind) * list (request * ukind))) : list (list entry * list request) :=
  map (fun '(ps, qs) => (map fst ps, map fst qs)) rounds.

(** The pieces of all rounds as they arrive. *)
Definition all_pieces (rounds : list (list (entry * ukind) * list (request * ukind))) (answers : list (list piece))
  : list (list piece) :=
  map (fun '((_, qs), a) => pieces_in qs a) (combine rounds answers).

(** Every piece can arrive, and every entry can be made (see TextFileText.v). *)
Definition rounds_arrive (rounds : list (list (entry * ukind) * list (request * ukind))) (answers : list (list piece)) : Prop :=
  Forall (fun '((_, qs), a) => all_can_arrive qs a) (combine rounds answers).
Definition rounds_enter (native : byte_order) (e : encoding) (o : byte_order)
    (rounds : list (list (entry * ukind) * list (request * ukind))) : Prop :=
  Forall (fun r => Forall (fun '(p, k) => can_enter native e o p k) (fst r)) rounds.

(** No single entry is larger than what one call of the operating system transfers. *)
Definition rounds_small (pl : platform) (e : encoding) (o : byte_order)
    (rounds : list (list (entry * ukind) * list (request * ukind))) : Prop :=
  Forall (fun r => Forall (fun '(p, _) => small_entry pl e o p) (fst r)) rounds.

(** In every round a single character is asked for first, if anything is. *)
Definition character_first (rounds : list (list (entry * ukind) * list (request * ukind))) : Prop :=
  Forall (fun r => match map fst (snd r) with [] => True | q :: _ => q = Character end) rounds.
