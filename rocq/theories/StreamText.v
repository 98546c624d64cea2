(** Streams on container resources, driven as in the theorem statements. *)
From Coq Require Import NArith ZArith List Bool.
From Verif Require Import Base Integers UnicodeSpec UnicodeModel UnicodeText StreamSpec ResourceModel StreamModel.
Import ListNotations.
Open Scope Z_scope.

Definition order_of (o : byte_order) : endian :=
  match o with LittleEndian => Little | BigEndian => Big end.
Definition form_of (e : encoding) : encoding_form :=
  match e with UTF8 => utf8 | UTF16 => utf16 | UTF32 => utf32 end.

(** A capacity for which reads of n bytes work (C33): none, or at least n. *)
Definition roomy (cap : nat) (n : nat) : Prop := cap = 0%nat \/ (n <= cap)%nat.

(* ------------------------------------------------------------ data streams *)

(** Objects of given widths with given unsigned values written one after the other
    with <<, then flush. *)
Fixpoint write_values (native order : endian) (r : resource container) (vs : list (nat * N))
  : outcome (resource container) :=
  match vs with
  | [] => sink_flush container_sink r
  | (w, v) :: vs =>
      bind (data_write native container_sink order r (to_memory native w v)) (fun r =>
      write_values native order r vs)
  end.

(** Objects of given widths read one after the other with >>: their values. *)
Fixpoint read_values (native order : endian) (r : resource container) (ws : list nat)
  : outcome (resource container * list N) :=
  match ws with
  | [] => Ok (r, [])
  | w :: ws =>
      bind (data_read native container_source order r w) (fun '(r, data) =>
      bind (read_values native order r ws) (fun '(r, l) => Ok (r, from_memory native data :: l)))
  end.

(* ------------------------------------------------------------ text streams *)

(** A text output stream on an empty byte container, and a text input stream on a
    container with the given bytes. *)
Definition open_output (cap : nat) (e : encoding) (o : byte_order) : text_output (resource container) :=
  TextOutput (new_resource [] 1 cap) (order_of o) (form_of e).
Definition open_input (bytes : list N) (cap : nat) (e : encoding) (o : byte_order)
  : text_input (resource container) :=
  TextInput (new_resource bytes 1 cap) (order_of o) (form_of e).

(** What is in the container once the stream is gone. *)
Definition finished (x : outcome (text_output (resource container))) : outcome (list N) :=
  bind x (fun st => bind (text_flush container_sink st) (fun st => Ok (content (inner (out_res st))))).

(** n times >> to a char32_t. *)
Fixpoint read_code_points (native : endian) (n : nat) (st : text_input (resource container))
  : outcome (text_input (resource container) * list N) :=
  match n with
  | O => Ok (st, [])
  | S n =>
      bind (read_filtered_code_point native container_source st) (fun '(st, c) =>
      bind (read_code_points native n st) (fun '(st, l) => Ok (st, c :: l)))
  end.

(** read_line until is_at_end(); fuel also bounds the length of a line. *)
Fixpoint read_lines (native : endian) (fuel : nat) (k : ukind) (st : text_input (resource container))
  : outcome (list (list N)) :=
  match fuel with
  | O => Diverge
  | S fuel' =>
      bind (text_at_end container_source st) (fun e =>
      if e then Ok []
      else
        bind (read_line native container_source fuel k st) (fun '(st, a) =>
        bind (read_lines native fuel' k st) (fun l => Ok (a :: l))))
  end.

(** n times >> to a string. *)
Fixpoint read_words (native : endian) (fuel n : nat) (k : ukind) (st : text_input (resource container))
  : outcome (text_input (resource container) * list (list N)) :=
  match n with
  | O => Ok (st, [])
  | S n =>
      bind (read_word native container_source fuel k st) (fun '(st, a) =>
      bind (read_words native fuel n k st) (fun '(st, l) => Ok (st, a :: l)))
  end.

(** Integers and bools. *)
Inductive item : Type :=
| Int (t : int_type) (x : Z)
| Bool (b : bool).

(** Each item written with << and followed by a space. *)
Fixpoint write_items (native : endian) (cs : bool) (st : text_output (resource container)) (l : list item)
  : outcome (text_output (resource container)) :=
  match l with
  | [] => Ok st
  | i :: l =>
      bind (match i with
            | Int t x => write_integer native container_sink cs t st x
            | Bool b => write_bool native container_sink st b
            end) (fun st =>
      bind (write_char native container_sink cs st 32) (fun st => write_items native cs st l))
  end.

(** Items of the same types read with >>. *)
Fixpoint read_items (native : endian) (fuel : nat) (st : text_input (resource container)) (l : list item)
  : outcome (list item) :=
  match l with
  | [] => Ok []
  | i :: l =>
      bind (match i with
            | Int t _ => bind (read_integer native container_source fuel t st) (fun '(st, x) => Ok (st, Int t x))
            | Bool _ => bind (read_bool native container_source fuel st) (fun '(st, b) => Ok (st, Bool b))
            end) (fun '(st, i) =>
      bind (read_items native fuel st l) (fun l => Ok (i :: l)))
  end.

(* --------------------------------------------------- which texts are covered *)

(** A code point a stream in encoding e can write. *)
Definition writable (e : encoding) (c : N) : Prop :=
  scalar c /\ (e = UTF8 -> ~ (0xD800 <= c mod 0x10000 <= 0xDFFF))%N.

(** A code point a string of kind k can take (C01). *)
Definition storable (k : ukind) (c : N) : Prop :=
  holds k c /\ (k = K8 -> ~ (0xD800 <= c mod 0x10000 <= 0xDFFF))%N.

(** When the units of the string are copied as they are. *)
Definition copied (native : byte_order) (e : encoding) (o : byte_order) (k : ukind) : bool :=
  match e, k with
  | UTF8, K8 => true
  | UTF16, (K16 | KW2) | UTF32, (K32 | KW4) => endian_eqb (order_of o) (order_of native)
  | _, _ => false
  end.

(** A code point of a string of kind k that a stream writes correctly.  Plain chars:
    ASCII only.  Otherwise, unless the units are copied, it must be writable and,
    for UTF-16 strings, need only one unit (C07). *)
Definition printable (native : byte_order) (e : encoding) (o : byte_order) (k : ukind) (c : N) : Prop :=
  match k with
  | KChar _ => (c < 128)%N
  | _ => scalar c /\ (copied native e o k = false -> writable e c /\ single_unit k c)
  end.

(** What the stream makes of carriage returns: a CR that is not the last
    character disappears, and the next character is taken as it is. *)
Fixpoint filtered (l : list N) : list N :=
  match l with
  | [] => []
  | c :: r =>
      if (c =? 13)%N then match r with [] => [c] | d :: r => d :: filtered r end
      else c :: filtered r
  end.

(** Split at the first line feed. *)
Fixpoint upto_lf (l : list N) : list N * list N :=
  match l with
  | [] => ([], [])
  | c :: r => if (c =? 10)%N then ([], r) else let '(a, b) := upto_lf r in (c :: a, b)
  end.

(** Lines of a text split at line feeds only. *)
Inductive lf_lines : list N -> list (list N) -> Prop :=
| LfNone : lf_lines [] []
| LfMore m a b ls : m <> [] -> upto_lf m = (a, b) -> lf_lines b ls -> lf_lines m (a :: ls).


(* ------------------------------------------------------------ arbitrary bytes *)

(** The bytes start with an encoding of c (possibly overlong, see C12), and the rest
    follows it. *)
Definition starts_with (e : encoding) (o : byte_order) (bytes : list N) (c : N) (rest : list N) : Prop :=
  exists us, loose e us c /\ Forall (fun u => (u < 256 ^ N.of_nat (unit_width e))%N) us /\
    bytes = flat_map (in_order o (unit_width e)) us ++ rest.

(** A result or a documented exception. *)
Definition settles {A : Type} (x : outcome A) : Prop :=
  match x with
  | Ok _ => True
  | Throw e => e = ReadPastEnd \/ e = InvalidUnicodeEncoding \/ e = InvalidCodePoint
  | _ => False
  end.
