(** A reader of a container that does not wait for the writer. *)
From Coq Require Import NArith ZArith List Bool.
From Verif Require Import Base Integers UnicodeSpec UnicodeModel UnicodeText ResourceSpec ResourceModel ResourceText
  StreamSpec StreamModel StreamText SharedModel TextFileSpec TextFileModel TextFileText RecoverSpec RecoverModel
  RelayText EarlySpec.
Import ListNotations.
Open Scope Z_scope.

(** What the program does: entries are made through the output stream, it is flushed, or a
    character is read through the input stream (operator >>) in a try block. *)
Inductive action : Type := Enters (ps : list (entry * ukind)) | FlushesOutput | TriesCharacter.

(** The program runs: text_output_stream.ipp (operator <<), output_stream.ipp (flush),
    text_input_stream.ipp 400-410 (operator >> for char32_t) with the stream kept as
    the exception leaves it (RecoverModel.v). *)
Fixpoint run_early (native : endian) (cs : bool) (s : shared) (inp : text_input shared) (out : text_output shared)
    (actions : list action) : outcome (shared * list event) :=
  match actions with
  | [] => Ok (s, [])
  | Enters ps :: actions =>
      bind (make_entries native cs shared_sink (with_res out s) ps) (fun out =>
      run_early native cs (out_res out) inp out actions)
  | FlushesOutput :: actions =>
      bind (text_flush shared_sink (with_res out s)) (fun out =>
      run_early native cs (out_res out) inp out actions)
  | TriesCharacter :: actions =>
      match kept_filtered native shared_source (TextInput s (in_order_ inp) (in_form inp)) with
      | (inp, Ok c) => bind (run_early native cs (in_res inp) inp out actions) (fun '(s, l) => Ok (s, Got c :: l))
      | (inp, Throw x) => bind (run_early native cs (in_res inp) inp out actions) (fun '(s, l) => Ok (s, Failed x :: l))
      | (_, UB u) => UB u
      | (_, Terminate) => Terminate
      | (_, Diverge) => Diverge
      end
  end.

(** A container of bytes holds the text old.  An output resource and an input resource
    are made for it, with buffers of the given capacities, the output resource goes to the
    end, a stream is put on each of them, and the program runs. *)
Definition early (native : byte_order) (cs : bool) (e : encoding) (o : byte_order) (wcap rcap : nat) (old : list N)
    (actions : list action) : outcome (shared * list event) :=
  bind (shared_seek (share (text_bytes e o old) 1 wcap rcap) 0 FromEnd) (fun s =>
  run_early (order_of native) cs s (TextInput s (order_of o) (form_of e)) (TextOutput s (order_of o) (form_of e)) actions).

(** The entries of the program have the texts of the deeds. *)
Inductive says : action -> deed -> Prop :=
| SaysText ps l : entries_text (map fst ps) l -> says (Enters ps) (Says l)
| SaysFlush : says FlushesOutput Flushes
| SaysTry : says TriesCharacter Tries.

Definition can_say (native : byte_order) (e : encoding) (o : byte_order) (a : action) : Prop :=
  match a with Enters ps => Forall (fun '(p, k) => can_enter native e o p k) ps | _ => True end.

(** All that is said. *)
Definition said (deeds : list deed) : list N := flat_map (fun d => match d with Says l => l | _ => [] end) deeds.

(** Entries the stream passes to its resource in one piece: a string whose units are
    copied, and a character, unless it needs two units in UTF-16 and the byte order is not
    that of the machine (text_output_stream.ipp 90-100 then writes them one by one). *)
Definition in_one_piece (native : byte_order) (e : encoding) (o : byte_order) (p : entry) (k : ukind) : Prop :=
  match p with
  | EnterCharacter c => e = UTF16 -> o = native \/ bmp c
  | EnterText _ => copied native e o k = true
  | _ => False
  end.
Definition says_in_pieces (native : byte_order) (e : encoding) (o : byte_order) (a : action) : Prop :=
  match a with Enters ps => Forall (fun '(p, k) => in_one_piece native e o p k) ps | _ => True end.
