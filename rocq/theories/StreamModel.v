(** Model of the streams: /repo/api/src/cmp/io/general.cpp, general.ipp,
    input_stream.ipp, output_stream.ipp, data_input_stream.ipp,
    data_output_stream.ipp, text_input_stream.ipp, text_output_stream.ipp.

    The machine's byte order (std::endian::native) is a parameter.  Functions that
    change a stream return its new state; on an exception the state is not
    returned (simplification). *)
From Coq Require Import NArith ZArith List Bool.
From Verif Require Import Base Integers UnicodeModel NumberModel ResourceModel.
Import ListNotations.
Open Scope Z_scope.

(* -------------------------------------------------------------- byte order *)

(** std::endian.  Of the C++ library; used in input_stream.hpp 212, output_stream.hpp 241. *)
Inductive endian : Type := Little | Big.

(** == and != of std::endian, used in data_input_stream.ipp, data_output_stream.ipp,
    text_input_stream.ipp and text_output_stream.ipp (all of /repo/api/src/cmp/io) *)
Definition endian_eqb (a b : endian) : bool :=
  match a, b with Little, Little | Big, Big => true | _, _ => false end.

(** io/general.ipp 10-20 *)
Definition get_opposite_endianness (e : endian) : endian :=
  if endian_eqb e Little then Big else Little.

(** io/general.cpp 19-21: begin and end are offsets into the block *)
Fixpoint invert_loop (fuel : nat) (m : list N) (b e : Z) : outcome (list N) :=
  match fuel with
  | O => Diverge
  | S fuel =>
      if b <? e then
        bind (slice m b 1) (fun x =>
        bind (slice m e 1) (fun y =>
        bind (blit m b y) (fun m =>
        bind (blit m e x) (fun m => invert_loop fuel m (b + 1) (e - 1)))))
      else Ok m
  end.

(** io/general.cpp 10-22: for no bytes, data + 0 - 1 points before the block *)
Definition invert_endianness (m : list N) (n : Z) : outcome (list N) :=
  if n =? 0 then UB PointerArithmetic else invert_loop (S (Z.to_nat n)) m 0 (n - 1).

(** std::memcpy from an object of w bytes holding the unsigned value v, and to one.  Used in
    text_input_stream.ipp 157, 172; the bytes of a value from the least significant one on. *)
Fixpoint low_bytes (w : nat) (v : N) : list N :=
  match w with
  | O => []
  | S w => (v mod 256)%N :: low_bytes w (v / 256)%N
  end.
(** The memory of an unsigned value on a machine of the given byte order; used in
    data_output_stream.ipp and text_output_stream.ipp of /repo *)
Definition to_memory (native : endian) (w : nat) (v : N) : list N :=
  match native with Little => low_bytes w v | Big => rev (low_bytes w v) end.
(** The inverse of low_bytes; used in text_input_stream.ipp 157, 172 *)
Fixpoint from_low_bytes (l : list N) : N :=
  match l with
  | [] => 0%N
  | b :: l => (b + 256 * from_low_bytes l)%N
  end.
(** The value in memory on a machine of the given byte order; text_input_stream.ipp 157, 172 *)
Definition from_memory (native : endian) (l : list N) : N :=
  match native with Little => from_low_bytes l | Big => from_low_bytes (rev l) end.

(* --------------------------------------------------- resources of a stream *)

(** What an input stream uses of its resource: read(data, n) with the block after
    the call and the reported number of bytes; is_at_end().  input_stream.hpp 211, input_stream.ipp
    70-94. *)
Record source (R : Type) : Type := Source {
  source_read : R -> list N -> Z -> outcome (R * list N * Z);
  source_at_end : R -> outcome bool }.
Arguments source_read {R} _.
Arguments source_at_end {R} _.

(** What an output stream uses of its resource: write(data, n); flush().  output_stream.hpp 240,
    output_stream.ipp 89-121. *)
Record sink (R : Type) : Type := Sink {
  sink_write : R -> list N -> outcome (R * Z);
  sink_flush : R -> outcome R }.
Arguments sink_write {R} _.
Arguments sink_flush {R} _.

(** The container resources of ResourceModel.  input_resource.cpp 22-35, ctr_essence.ipp 54-67 as
    what a stream uses. *)
Definition container_source : source (resource container) :=
  Source _ (read container_ops) (fun r => Ok (is_at_end r)).
(** output_resource.cpp 21-40 as what a stream uses *)
Definition container_sink : sink (resource container) :=
  Sink _ (write container_ops) (flush container_ops).

(** input_stream.ipp 81-94: the whole block asked for is inverted *)
Definition stream_read {R : Type} (native : endian) (ops : source R) (order : endian) (r : R)
    (block : list N) (n : Z) : outcome (R * list N * Z) :=
  bind (source_read ops r block n) (fun '(r, block, k) =>
  bind (if negb (endian_eqb order native) then invert_endianness block n else Ok block) (fun block =>
  Ok (r, block, k))).

(** output_stream.ipp 89-99 *)
Definition stream_write {R : Type} (ops : sink R) (r : R) (data : list N) : outcome R :=
  bind (sink_write ops r data) (fun '(r, _) => Ok r).

(** output_stream.ipp 101-112 *)
Definition reverse_write {R : Type} (ops : sink R) (r : R) (data : list N) : outcome R :=
  bind (invert_endianness data (size_of data)) (fun data => stream_write ops r data).

(* ------------------------------------------------------------ data streams *)

(** data_input_stream.ipp 26-74: the bytes copied to the target object of w bytes *)
Definition data_read {R : Type} (native : endian) (ops : source R) (order : endian) (r : R) (w : nat)
  : outcome (R * list N) :=
  bind (stream_read native ops order r (repeat 0%N w) (Z.of_nat w)) (fun '(r, data, k) =>
  if k <? Z.of_nat w then Throw ReadPastEnd
  else
    bind (if negb (endian_eqb order native) then invert_endianness data (Z.of_nat w) else Ok data) (fun data =>
    Ok (r, data))).

(** data_output_stream.ipp 26-66, from the bytes of the source object *)
Definition data_write {R : Type} (native : endian) (ops : sink R) (order : endian) (r : R) (object : list N)
  : outcome R :=
  if endian_eqb order native then stream_write ops r object else reverse_write ops r object.

(* ------------------------------------------------------- text input stream *)

(** include/cmp/unicode: enum encoding_form.  io/general.hpp 20-24. *)
Inductive encoding_form : Type := utf8 | utf16 | utf32.

(** text_input_stream.hpp 243, input_stream.hpp 211-212: the data members *)
Record text_input (R : Type) : Type := TextInput {
  in_res : R; in_order_ : endian; in_form : encoding_form }.
Arguments TextInput {R} _ _ _.
Arguments in_res {R} _.
Arguments in_order_ {R} _.
Arguments in_form {R} _.

Section TextInputStream.
Context {R : Type} (native : endian) (ops : source R).

(** input_stream.ipp 70-80 *)
Definition text_at_end (st : text_input R) : outcome bool := source_at_end ops (in_res st).

(** this->read(data, n) on a text stream, to a local array of n bytes.  input_stream.ipp 82-94. *)
Definition text_read (st : text_input R) (n : nat) : outcome (text_input R * list N * Z) :=
  bind (stream_read native ops (in_order_ st) (in_res st) (repeat 0%N n) (Z.of_nat n)) (fun '(r, data, k) =>
  Ok (TextInput r (in_order_ st) (in_form st), data, k)).

(** text_input_stream.ipp 131-174: read_utf8/16/32_code_unit, for units of w bytes;
    None is the result false *)
Definition read_code_unit (w : nat) (st : text_input R) : outcome (text_input R * option N) :=
  bind (text_read st w) (fun '(st, data, k) =>
  Ok (st, if k <? Z.of_nat w then None else Some (from_memory native data))).

(** text_input_stream.ipp 176-197, with n = sequence_length - 1 units to come *)
Fixpoint finish_utf8_sequence (n : nat) (result : N) (st : text_input R) : outcome (text_input R * N) :=
  match n with
  | O => Ok (st, result)
  | S n =>
      bind (read_code_unit 1 st) (fun '(st, u) =>
      match u with
      | None => Throw ReadPastEnd
      | Some u =>
          if negb (is_trailing_byte u) then Throw InvalidUnicodeEncoding
          else finish_utf8_sequence n (N.lor (N.shiftl result 6) (N.land u 63)) st
      end)
  end.

(** text_input_stream.ipp 199-219 *)
Definition finish_utf16_sequence (n : nat) (initial : N) (st : text_input R) : outcome (text_input R * N) :=
  if Nat.eqb n 2 then
    bind (read_code_unit 2 st) (fun '(st, u) =>
    match u with
    | None => Throw ReadPastEnd
    | Some u =>
        if negb (is_trailing_surrogate u) then Throw InvalidUnicodeEncoding
        else Ok (st, (initial + (u - 0xDC00) + 0x10000)%N)
    end)
  else Ok (st, initial).

(** text_input_stream.ipp 221-235 *)
Definition read_utf8_code_point (st : text_input R) : outcome (text_input R * N) :=
  bind (read_code_unit 1 st) (fun '(st, u) =>
  match u with
  | None => Throw ReadPastEnd
  | Some u => bind (initialize_utf8_sequence u) (fun '(n, v) => finish_utf8_sequence (n - 1) v st)
  end).

(** text_input_stream.ipp 237-251 *)
Definition read_utf16_code_point (st : text_input R) : outcome (text_input R * N) :=
  bind (read_code_unit 2 st) (fun '(st, u) =>
  match u with
  | None => Throw ReadPastEnd
  | Some u => bind (initialize_utf16_sequence u) (fun '(n, v) => finish_utf16_sequence n v st)
  end).

(** text_input_stream.ipp 253-264 *)
Definition read_utf32_code_point (st : text_input R) : outcome (text_input R * N) :=
  bind (read_code_unit 4 st) (fun '(st, u) =>
  match u with
  | None => Throw ReadPastEnd
  | Some u => Ok (st, u)
  end).

(** text_input_stream.ipp 266-280 *)
Definition read_code_point (st : text_input R) : outcome (text_input R * N) :=
  match in_form st with
  | utf8 => read_utf8_code_point st
  | utf16 => read_utf16_code_point st
  | utf32 => read_utf32_code_point st
  end.

(** text_input_stream.ipp 282-293; also operator >> for char32_t, 400-410 *)
Definition read_filtered_code_point (st : text_input R) : outcome (text_input R * N) :=
  bind (read_code_point st) (fun '(st, c) =>
  if (c =? 13)%N then
    bind (text_at_end st) (fun e => if negb e then read_code_point st else Ok (st, c))
  else Ok (st, c)).

(** std::byte operator <<: the result is a std::byte again.  Used in text_input_stream.ipp 325-391. *)
Definition byte_shl (b : N) (n : N) : N := (N.shiftl b n mod 256)%N.

(** one byte read into a std::byte variable.  Used in text_input_stream.ipp 296-395. *)
Definition read_byte (st : text_input R) : outcome (text_input R * N) :=
  bind (text_read st 1) (fun '(st, data, k) =>
  if k <? 1 then Throw ReadPastEnd else Ok (st, nth 0 data 0%N)).

(** input_stream.ipp 58-67 *)
Definition set_endianness (st : text_input R) (e : endian) : text_input R :=
  TextInput (in_res st) e (in_form st).

(** text_input_stream.ipp 295-339 *)
Definition read_utf16_bom (st : text_input R) : outcome (text_input R * N) :=
  bind (read_byte st) (fun '(st, a) =>
  bind (read_byte st) (fun '(st, b) =>
  if ((a =? 0xFE) && (b =? 0xFF))%N then Ok (set_endianness st Big, bom)
  else if ((a =? 0xFF) && (b =? 0xFE))%N then Ok (set_endianness st Little, bom)
  else
    let code_unit :=
      if endian_eqb (in_order_ st) Big then N.lor (byte_shl a 8) b else N.lor (byte_shl b 8) a in
    bind (initialize_utf16_sequence code_unit) (fun '(n, v) => finish_utf16_sequence n v st))).

(** text_input_stream.ipp 341-396 *)
Definition read_utf32_bom (st : text_input R) : outcome (text_input R * N) :=
  bind (read_byte st) (fun '(st, a) =>
  bind (read_byte st) (fun '(st, b) =>
  bind (read_byte st) (fun '(st, c) =>
  bind (read_byte st) (fun '(st, d) =>
  if ((a =? 0) && (b =? 0) && (c =? 0xFE) && (d =? 0xFF))%N then Ok (set_endianness st Big, bom)
  else if ((a =? 0xFF) && (b =? 0xFE) && (c =? 0) && (d =? 0))%N then Ok (set_endianness st Little, bom)
  else
    Ok (st,
      if endian_eqb (in_order_ st) Big
      then N.lor (N.lor (N.lor (byte_shl a 24) (byte_shl b 16)) (byte_shl c 8)) d
      else N.lor (N.lor (N.lor (byte_shl d 24) (byte_shl c 16)) (byte_shl b 8)) a))))).

(** text_input_stream.ipp 50-64 *)
Definition read_bom (st : text_input R) : outcome (text_input R * N) :=
  match in_form st with
  | utf8 => read_code_point st
  | utf16 => read_utf16_bom st
  | utf32 => read_utf32_bom st
  end.

(** append_code_point(target, c) for a target string of kind k.  Used in text_input_stream.ipp
    70-130, 400-470; algorithms.ipp 188-197. *)
Definition append_to (k : ukind) (target : list N) (c : N) : outcome (list N) :=
  let '(target, r) := append_code_point k target c in bind r (fun _ => Ok target).

(** text_input_stream.ipp 66-84 *)
Fixpoint append_line (fuel : nat) (k : ukind) (target : list N) (st : text_input R)
  : outcome (text_input R * list N) :=
  match fuel with
  | O => Diverge
  | S fuel =>
      bind (text_at_end st) (fun e =>
      if e then Ok (st, target)
      else
        bind (read_filtered_code_point st) (fun '(st, c) =>
        if (c =? 10)%N then Ok (st, target)
        else bind (append_to k target c) (fun target => append_line fuel k target st)))
  end.

(** text_input_stream.ipp 86-98 *)
Definition read_line (fuel : nat) (k : ukind) (st : text_input R) : outcome (text_input R * list N) :=
  append_line fuel k [] st.

(** text_input_stream.ipp 100-113 *)
Fixpoint append_all (fuel : nat) (k : ukind) (target : list N) (st : text_input R)
  : outcome (text_input R * list N) :=
  match fuel with
  | O => Diverge
  | S fuel =>
      bind (text_at_end st) (fun e =>
      if e then Ok (st, target)
      else
        bind (read_filtered_code_point st) (fun '(st, c) =>
        bind (append_to k target c) (fun target => append_all fuel k target st)))
  end.

(** text_input_stream.ipp 115-127 *)
Definition read_all (fuel : nat) (k : ukind) (st : text_input R) : outcome (text_input R * list N) :=
  append_all fuel k [] st.

(** text_input_stream.ipp 436-449 *)
Fixpoint skip_whitespace (fuel : nat) (k : ukind) (st : text_input R) : outcome (text_input R * list N) :=
  match fuel with
  | O => Diverge
  | S fuel =>
      bind (text_at_end st) (fun e =>
      if e then Ok (st, [])
      else
        bind (read_filtered_code_point st) (fun '(st, c) =>
        if negb (is_whitespace c) then bind (append_to k [] c) (fun target => Ok (st, target))
        else skip_whitespace fuel k st))
  end.

(** text_input_stream.ipp 451-465 *)
Fixpoint take_word (fuel : nat) (k : ukind) (target : list N) (st : text_input R)
  : outcome (text_input R * list N) :=
  match fuel with
  | O => Diverge
  | S fuel =>
      bind (text_at_end st) (fun e =>
      if e then Ok (st, target)
      else
        bind (read_filtered_code_point st) (fun '(st, c) =>
        if is_whitespace c then Ok (st, target)
        else bind (append_to k target c) (fun target => take_word fuel k target st)))
  end.

(** text_input_stream.ipp 412-468 *)
Definition read_word (fuel : nat) (k : ukind) (st : text_input R) : outcome (text_input R * list N) :=
  bind (skip_whitespace fuel k st) (fun '(st, target) => take_word fuel k target st).

(** text_input_stream.ipp 470-482 *)
Definition read_bool (fuel : nat) (st : text_input R) : outcome (text_input R * bool) :=
  bind (read_word fuel K8 st) (fun '(st, input) =>
  bind (parse_bool K8 input default_bool_format) (fun b => Ok (st, b))).

(** text_input_stream.ipp 484-497 *)
Definition read_integer (fuel : nat) (t : int_type) (st : text_input R) : outcome (text_input R * Z) :=
  bind (read_word fuel K8 st) (fun '(st, input) =>
  bind (parse_integer K8 t input default_integer_format) (fun x => Ok (st, x))).

End TextInputStream.

(* ------------------------------------------------------ text output stream *)

(** text_output_stream.hpp 238, output_stream.hpp 240-241: the data members *)
Record text_output (R : Type) : Type := TextOutput {
  out_res : R; out_order : endian; out_form : encoding_form }.
Arguments TextOutput {R} _ _ _.
Arguments out_res {R} _.
Arguments out_order {R} _.
Arguments out_form {R} _.

Section TextOutputStream.
Context {R : Type} (native : endian) (ops : sink R).

(** No code of /repo: the resource of the stream after a call on it *)
Definition with_res (st : text_output R) (r : R) : text_output R :=
  TextOutput r (out_order st) (out_form st).

(** output_stream.ipp 90-101 *)
Definition text_write (st : text_output R) (data : list N) : outcome (text_output R) :=
  bind (stream_write ops (out_res st) data) (fun r => Ok (with_res st r)).
(** output_stream.ipp 102-114 *)
Definition text_reverse_write (st : text_output R) (data : list N) : outcome (text_output R) :=
  bind (reverse_write ops (out_res st) data) (fun r => Ok (with_res st r)).

(** the bytes of an array of code units of w bytes.  The arrays written in text_output_stream.ipp
    185-400. *)
Definition units_memory (w : nat) (l : list N) : list N := flat_map (to_memory native w) l.

(** text_output_stream.ipp 61-74 *)
Definition write_code_point_in_utf8 (st : text_output R) (c : N) : outcome (text_output R) :=
  bind (append_to K8 [] c) (fun data => text_write st data).

(** text_output_stream.ipp 76-102 *)
Definition write_code_point_in_utf16 (st : text_output R) (c : N) : outcome (text_output R) :=
  bind (append_to K16 [] c) (fun data =>
  if endian_eqb (out_order st) native then text_write st (units_memory 2 data)
  else
    bind (text_reverse_write st (to_memory native 2 (nth 0 data 0%N))) (fun st =>
    if Nat.ltb 1 (length data) then text_reverse_write st (to_memory native 2 (nth 1 data 0%N))
    else Ok st)).

(** text_output_stream.ipp 104-122 *)
Definition write_code_point_in_utf32 (st : text_output R) (c : N) : outcome (text_output R) :=
  if endian_eqb (out_order st) native then text_write st (to_memory native 4 c)
  else text_reverse_write st (to_memory native 4 c).

(** text_output_stream.ipp 124-142 *)
Definition write_code_point (st : text_output R) (c : N) : outcome (text_output R) :=
  match out_form st with
  | utf8 => write_code_point_in_utf8 st c
  | utf16 => write_code_point_in_utf16 st c
  | utf32 => write_code_point_in_utf32 st c
  end.

(** text_output_stream.ipp 50-57 *)
Definition write_bom (st : text_output R) : outcome (text_output R) := write_code_point st bom.

(** text_output_stream.ipp 146-156: a char, sign-extended if char is signed *)
Definition write_char (is_signed : bool) (st : text_output R) (c : N) : outcome (text_output R) :=
  write_code_point st (widen (KChar is_signed) c).

Fixpoint write_each (f : text_output R -> N -> outcome (text_output R)) (st : text_output R) (l : list N)
  : outcome (text_output R) :=
  match l with
  | [] => Ok st
  | c :: l => bind (f st c) (fun st => write_each f st l)
  end.

(** for (char32_t c : by_code_point{source}) f(c).  Used in text_output_stream.ipp 185-400. *)
Definition write_by_code_point (f : text_output R -> N -> outcome (text_output R)) (k : ukind)
    (st : text_output R) (s : list N) : outcome (text_output R) :=
  let '(l, r) := visit k s in
  bind (write_each f st l) (fun st => bind r (fun _ => Ok st)).

(** operator << for string views of every kind: text_output_stream.ipp 181-208
    (string_view), 221-248 (u8string_view), 261-294 (u16string_view), 307-340
    (u32string_view), 353-405 (wstring_view) *)
Definition write_string (k : ukind) (st : text_output R) (s : list N) : outcome (text_output R) :=
  match out_form st with
  | utf8 =>
      match k with
      | KChar _ | K8 => text_write st s
      | _ => write_by_code_point write_code_point_in_utf8 k st s
      end
  | utf16 =>
      match k with
      | KChar _ => write_each write_code_point_in_utf16 st (map (widen k) s)
      | K16 | KW2 =>
          if endian_eqb (out_order st) native then text_write st (units_memory 2 s)
          else write_by_code_point write_code_point_in_utf16 k st s
      | _ => write_by_code_point write_code_point_in_utf16 k st s
      end
  | utf32 =>
      match k with
      | KChar _ => write_each write_code_point_in_utf32 st (map (widen k) s)
      | K32 | KW4 =>
          if endian_eqb (out_order st) native then text_write st (units_memory 4 s)
          else write_by_code_point write_code_point_in_utf32 k st s
      | _ => write_by_code_point write_code_point_in_utf32 k st s
      end
  end.

(** the string type chosen in operator << for numbers.  text_output_stream.ipp 405-480. *)
Definition own_kind (f : encoding_form) : ukind :=
  match f with utf8 => K8 | utf16 => K16 | utf32 => K32 end.

(** text_output_stream.ipp 407-427 *)
Definition write_bool (st : text_output R) (b : bool) : outcome (text_output R) :=
  let k := own_kind (out_form st) in
  bind (format_bool k b default_bool_format) (fun s => write_string k st s).

(** text_output_stream.ipp 429-450; char_signed: whether plain char is signed *)
Definition write_integer (char_signed : bool) (t : int_type) (st : text_output R) (x : Z)
  : outcome (text_output R) :=
  let k := own_kind (out_form st) in
  bind (format_integer k char_signed t x default_integer_format) (fun s => write_string k st s).

(** output_stream.ipp 114-121, 137-147; the destructor, 25-31 *)
Definition text_flush (st : text_output R) : outcome (text_output R) :=
  bind (sink_flush ops (out_res st)) (fun r => Ok (with_res st r)).

End TextOutputStream.
