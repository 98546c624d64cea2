(** A reader of a text file that does not wait for the writer. *)
From Coq Require Import NArith ZArith List Bool.
From Verif Require Import Base Integers UnicodeSpec UnicodeModel UnicodeText ResourceSpec ResourceModel ResourceText
  StreamSpec StreamModel StreamText FileModel FileText TextFileSpec TextFileModel TextFileText RecoverSpec RecoverModel
  FollowText RelayText EarlySpec EarlyText.
Import ListNotations.
Open Scope Z_scope.

(** The program of EarlyText.v with any resources: text_output_stream.ipp (operator <<),
    output_stream.ipp (flush), text_input_stream.ipp 400-410 (operator >> for char32_t) with
    the stream kept as the exception leaves it (RecoverModel.v). *)
Fixpoint run_late {R : Type} (native : endian) (cs : bool) (src : source R) (snk : sink R) (s : R) (inp : text_input R)
    (out : text_output R) (actions : list action) : outcome (R * list event) :=
  match actions with
  | [] => Ok (s, [])
  | Enters ps :: actions =>
      bind (make_entries native cs snk (with_res out s) ps) (fun out =>
      run_late native cs src snk (out_res out) inp out actions)
  | FlushesOutput :: actions =>
      bind (text_flush snk (with_res out s)) (fun out =>
      run_late native cs src snk (out_res out) inp out actions)
  | TriesCharacter :: actions =>
      match kept_filtered native src (TextInput s (in_order_ inp) (in_form inp)) with
      | (inp, Ok c) => bind (run_late native cs src snk (in_res inp) inp out actions) (fun '(s, l) => Ok (s, Got c :: l))
      | (inp, Throw x) => bind (run_late native cs src snk (in_res inp) inp out actions) (fun '(s, l) => Ok (s, Failed x :: l))
      | (_, UB u) => UB u
      | (_, Terminate) => Terminate
      | (_, Diverge) => Diverge
      end
  end.

(** One file object is opened on the file q and set to its end, another one is opened on it
    to read, a stream is put on each of them (RelayText.v, file.cpp 53-81), and the program
    runs.  No code of /repo. *)
Definition late (pl : platform) (w : world) (q : N) (mw mr : access_mode) (how : if_not_there) (wcap rcap : nat)
    (native : byte_order) (cs : bool) (e : encoding) (o : byte_order) (actions : list action) : outcome (duo * list event) :=
  bind (open_both pl w q mw mr how wcap rcap) (fun '(f, g) =>
  let d := Duo (system_of g) f g in
  run_late (order_of native) cs (second_source pl) (first_sink pl) d (TextInput d (order_of o) (form_of e))
    (TextOutput d (order_of o) (form_of e)) actions).

(** No entry is larger than one transfer. *)
Definition says_little (pl : platform) (e : encoding) (o : byte_order) (a : action) : Prop :=
  match a with Enters ps => Forall (fun '(p, _) => small_entry pl e o p) ps | _ => True end.

(** The file holds whole characters, the first ones of l. *)
Definition whole_characters (e : encoding) (o : byte_order) (l : list N) (bytes : option (list N)) : Prop :=
  exists k, bytes = Some (text_bytes e o (firstn k l)).
