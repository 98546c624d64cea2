(** Text input streams whose state is kept when an exception is thrown.

    StreamModel.v gives no stream after an exception.  Here every function returns the
    stream as the exception leaves it, so that a program may catch the exception and
    read on. *)
From Coq Require Import NArith ZArith List Bool.
From Verif Require Import Base UnicodeModel StreamModel RecoverSpec.
Import ListNotations.
Open Scope Z_scope.

Section Keeping.
Context {R : Type} (native : endian) (ops : source R).

(** text_input_stream.ipp 131-174.  An exception of the resource itself would leave the
    stream as it was (simplification); the container resources throw none here. *)
Definition take_unit (w : nat) (st : text_input R) : text_input R * outcome (option N) :=
  match read_code_unit native ops w st with
  | Ok (st', u) => (st', Ok u)
  | Throw x => (st, Throw x)
  | UB u => (st, UB u)
  | Terminate => (st, Terminate)
  | Diverge => (st, Diverge)
  end.

(** text_input_stream.ipp 176-197, with n = sequence_length - 1 units to come *)
Fixpoint kept_finish_utf8 (n : nat) (result : N) (st : text_input R) : text_input R * outcome N :=
  match n with
  | O => (st, Ok result)
  | S n =>
      then_ (take_unit 1 st) (fun st u =>
      match u with
      | None => (st, Throw ReadPastEnd)
      | Some u =>
          if negb (is_trailing_byte u) then (st, Throw InvalidUnicodeEncoding)
          else kept_finish_utf8 n (N.lor (N.shiftl result 6) (N.land u 63)) st
      end)
  end.

(** text_input_stream.ipp 199-219 *)
Definition kept_finish_utf16 (n : nat) (initial : N) (st : text_input R) : text_input R * outcome N :=
  if Nat.eqb n 2 then
    then_ (take_unit 2 st) (fun st u =>
    match u with
    | None => (st, Throw ReadPastEnd)
    | Some u =>
        if negb (is_trailing_surrogate u) then (st, Throw InvalidUnicodeEncoding)
        else (st, Ok (initial + (u - 0xDC00) + 0x10000)%N)
    end)
  else (st, Ok initial).

(** text_input_stream.ipp 221-235 *)
Definition kept_utf8_code_point (st : text_input R) : text_input R * outcome N :=
  then_ (take_unit 1 st) (fun st u =>
  match u with
  | None => (st, Throw ReadPastEnd)
  | Some u => then_ (st, initialize_utf8_sequence u) (fun st '(n, v) => kept_finish_utf8 (n - 1) v st)
  end).

(** text_input_stream.ipp 237-251 *)
Definition kept_utf16_code_point (st : text_input R) : text_input R * outcome N :=
  then_ (take_unit 2 st) (fun st u =>
  match u with
  | None => (st, Throw ReadPastEnd)
  | Some u => then_ (st, initialize_utf16_sequence u) (fun st '(n, v) => kept_finish_utf16 n v st)
  end).

(** text_input_stream.ipp 253-264 *)
Definition kept_utf32_code_point (st : text_input R) : text_input R * outcome N :=
  then_ (take_unit 4 st) (fun st u =>
  match u with
  | None => (st, Throw ReadPastEnd)
  | Some u => (st, Ok u)
  end).

(** text_input_stream.ipp 266-280 *)
Definition kept_code_point (st : text_input R) : text_input R * outcome N :=
  match in_form st with
  | utf8 => kept_utf8_code_point st
  | utf16 => kept_utf16_code_point st
  | utf32 => kept_utf32_code_point st
  end.

(** text_input_stream.ipp 282-293; operator >> for char32_t, 400-410 *)
Definition kept_filtered (st : text_input R) : text_input R * outcome N :=
  then_ (kept_code_point st) (fun st c =>
  if (c =? 13)%N then
    then_ (st, text_at_end ops st) (fun st e => if negb e then kept_code_point st else (st, Ok c))
  else (st, Ok c)).

(** text_input_stream.ipp 100-113, with the target string as it is after the call *)
Fixpoint kept_append_all (fuel : nat) (k : ukind) (st : text_input R) (target : list N)
  : (text_input R * list N) * outcome unit :=
  match fuel with
  | O => ((st, target), Diverge)
  | S fuel =>
      match text_at_end ops st with
      | Ok true => ((st, target), Ok tt)
      | Ok false =>
          match kept_filtered st with
          | (st, Ok c) =>
              let '(target, r) := append_code_point k target c in
              match r with
              | Ok _ => kept_append_all fuel k st target
              | Throw x => ((st, target), Throw x)
              | UB u => ((st, target), UB u)
              | Terminate => ((st, target), Terminate)
              | Diverge => ((st, target), Diverge)
              end
          | (st, Throw x) => ((st, target), Throw x)
          | (st, UB u) => ((st, target), UB u)
          | (st, Terminate) => ((st, target), Terminate)
          | (st, Diverge) => ((st, target), Diverge)
          end
      | Throw x => ((st, target), Throw x)
      | UB u => ((st, target), UB u)
      | Terminate => ((st, target), Terminate)
      | Diverge => ((st, target), Diverge)
      end
  end.

(** A program that uses text_input_stream.ipp 400-410 and input_stream.ipp 70-80:
    while (!stream.is_at_end()) try { stream >> c; note c } catch (exception) { note it } *)
Fixpoint read_on (fuel : nat) (st : text_input R) : outcome (list event) :=
  match fuel with
  | O => Diverge
  | S fuel =>
      bind (text_at_end ops st) (fun e =>
      if e then Ok []
      else
        match kept_filtered st with
        | (st, Ok c) => bind (read_on fuel st) (fun l => Ok (Got c :: l))
        | (st, Throw x) => bind (read_on fuel st) (fun l => Ok (Failed x :: l))
        | (_, UB u) => UB u
        | (_, Terminate) => Terminate
        | (_, Diverge) => Diverge
        end)
  end.

(** A program that uses text_input_stream.ipp 100-113 and input_stream.ipp 70-80:
    while (!stream.is_at_end()) try { stream.append_all(target) } catch (exception) {} *)
Fixpoint salvage (fuel : nat) (k : ukind) (st : text_input R) (target : list N) : outcome (list N) :=
  match fuel with
  | O => Diverge
  | S fuel' =>
      bind (text_at_end ops st) (fun e =>
      if e then Ok target
      else
        match kept_append_all fuel k st target with
        | ((st, target), Ok _) => salvage fuel' k st target
        | ((st, target), Throw _) => salvage fuel' k st target
        | (_, UB u) => UB u
        | (_, Terminate) => Terminate
        | (_, Diverge) => Diverge
        end)
  end.

End Keeping.
