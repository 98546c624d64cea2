(** Programs that use the standard streams, as in the theorem statements. *)
From Coq Require Import NArith ZArith List Bool.
From Verif Require Import Base Integers UnicodeSpec UnicodeModel UnicodeText StreamSpec ResourceModel StreamModel
  StreamText StdioSpec StdioModel.
Import ListNotations.
Open Scope Z_scope.

(** The bytes that come together are whole code units. *)
Definition unit_of (pl : platform) : Z := match pl with UnixLike => 1 | Windows => 2 end.
Definition console_encoding (pl : platform) : encoding := match pl with UnixLike => UTF8 | Windows => UTF16 end.

(** A console on which nothing happened yet and that takes everything the program
    sends. *)
Definition patient_console (l : list arrival) : console := Console l [] [].

(* ------------------------------------------------------------------- bytes *)

(** Calls on the resources; the bytes every read gave. *)
Fixpoint run_calls (pl : platform) (s : stdio) (l : list io_call) : outcome (stdio * list (list N)) :=
  match l with
  | [] => Ok (s, [])
  | Put ch d :: l => bind (out_write pl ch s d) (fun '(s, _) => run_calls pl s l)
  | Finish ch :: l => bind (out_flush pl ch s) (fun s => run_calls pl s l)
  | Get block n :: l =>
      bind (uin_read pl s block n) (fun '(s, block, k) =>
      bind (run_calls pl s l) (fun '(s, rs) => Ok (s, firstn (Z.to_nat k) block :: rs)))
  end.

(** What the caller must see to: blocks are as large as the number of bytes asked
    for, and sizes are below 2^32. *)
Definition calls_fit (pl : platform) (l : list io_call) : Prop :=
  Forall (fun x => match x with
                   | Put _ d => pl = Windows -> Z.of_nat (length d) < 2 ^ 32
                   | Finish _ => True
                   | Get block n => 0 <= n <= Z.of_nat (length block) /\ n < 2 ^ 32
                   end) l.

(* -------------------------------------------------------------------- text *)

(** [Say ch k l]: uout << s or uerr << s with the string s of kind k for the text l.
    [Ask q k]: uin >> c for a char32_t, uin.read_line(s), uin >> s for a string of kind k. *)
Inductive turn : Type :=
| Say (ch : channel) (k : ukind) (l : list N)
| Flush (ch : channel)
| Ask (q : question) (k : ukind).

Definition said (ch : channel) (l : list turn) : list N :=
  flat_map (fun t => match t with Say ch' _ x => if same_channel ch ch' then x else [] | _ => [] end) l.

(** The answer to a question: code units of kind k, or the one code point. *)
Definition ask (pl : platform) (native : endian) (fuel : nat) (q : question) (k : ukind) (s : stdio)
  : outcome (stdio * list N) :=
  let st := uin pl native s in
  bind (match q with
        | Character => bind (read_filtered_code_point native (uin_source pl) st) (fun '(st, c) => Ok (st, [c]))
        | Line => read_line native (uin_source pl) fuel k st
        | Word => read_word native (uin_source pl) fuel k st
        end) (fun '(st, a) => Ok (in_res st, a)).

Definition say (pl : platform) (native : endian) (ch : channel) (k : ukind) (l : list N) (s : stdio) : outcome stdio :=
  bind (write_string native (out_sink pl ch) k (uout_or_uerr native s) (units k l)) (fun st => Ok (out_res st)).

(** A program; the answers to its questions. *)
Fixpoint run_turns (pl : platform) (native : endian) (fuel : nat) (s : stdio) (l : list turn)
  : outcome (stdio * list (list N)) :=
  match l with
  | [] => Ok (s, [])
  | Say ch k x :: l => bind (say pl native ch k x s) (fun s => run_turns pl native fuel s l)
  | Flush ch :: l => bind (out_flush pl ch s) (fun s => run_turns pl native fuel s l)
  | Ask q k :: l =>
      bind (ask pl native fuel q k s) (fun '(s, a) =>
      bind (run_turns pl native fuel s l) (fun '(s, rs) => Ok (s, a :: rs)))
  end.

(** [dialogue t l rs r]: the questions of the program t find the answers rs in the typed
    text l, of which r is left in the end. *)
Inductive dialogue : list turn -> list N -> list (list N) -> list N -> Prop :=
| NoTurns l : dialogue [] l [] l
| AfterSay ch k x t l rs r : dialogue t l rs r -> dialogue (Say ch k x :: t) l rs r
| AfterFlush ch t l rs r : dialogue t l rs r -> dialogue (Flush ch :: t) l rs r
| AfterAsk q k t l a l' rs r : takes q l a l' -> dialogue t l' rs r -> dialogue (Ask q k :: t) l (a :: rs) r.

(** The answers as the program gets them. *)
Definition kinds_asked (t : list turn) : list (question * ukind) :=
  flat_map (fun x => match x with Ask q k => [(q, k)] | _ => [] end) t.
Definition as_given (t : list turn) (rs : list (list N)) : list (list N) :=
  map (fun '((q, k), a) => match q with Character => a | _ => units k a end) (combine (kinds_asked t) rs).

(** The strings can be written (C42; on Windows in one piece), and the strings asked
    for can take the answers (C01). *)
Definition can_say (pl : platform) (native : byte_order) (t : list turn) : Prop :=
  Forall (fun x => match x with
                   | Say _ k l => Forall (printable native UTF8 native k) l /\
                       (pl = Windows -> Z.of_nat (length (text_bytes UTF8 native l)) < 2 ^ 32)
                   | _ => True
                   end) t.
Definition can_take (t : list turn) (rs : list (list N)) : Prop :=
  Forall (fun '((q, k), a) => match q with Character => True | _ => Forall (storable k) a end)
    (combine (kinds_asked t) rs).

(** Capacities the configuration may give: below 2^32 bytes.  To read text on Windows, the
    input buffer must have room for a code unit. *)
Definition capacities_fit (cap_in cap_out cap_err : nat) : Prop :=
  Z.of_nat cap_in < 2 ^ 32 /\ Z.of_nat cap_out < 2 ^ 32 /\ Z.of_nat cap_err < 2 ^ 32.
Definition unit_fits (pl : platform) (cap_in : nat) : Prop := pl = Windows -> 2 <= Z.of_nat cap_in.
