(** Model of /repo/api/src/cmp/unicode: examiners.ipp, impl/impl.cpp,
    by_code_point.cpp and algorithms.ipp.

    Code units, bytes and code points are [N]; strings are [list N]; a
    by_code_point::const_iterator is an index into the string (its
    m_end_iterator is always the length of the string).  An index outside
    [0, length] is never produced: moving an iterator there is the outcome
    [UB PointerArithmetic]. *)
From Coq Require Import NArith ZArith List Bool.
From Verif Require Import Base.
Import ListNotations.
Open Scope N_scope.

(* ------------------------------------------------------------- examiners *)

(** include/cmp/unicode/constants.hpp: maximum_code_point,
    maximum_bmp_code_point and the four surrogate bounds. *)
Definition maximum_code_point : N := 0x10FFFF.
Definition maximum_bmp_code_point : N := 0xFFFF.
Definition leading_surrogate_minimum_value : N := 0xD800.
Definition leading_surrogate_maximum_value : N := 0xDBFF.
Definition trailing_surrogate_minimum_value : N := 0xDC00.
Definition trailing_surrogate_maximum_value : N := 0xDFFF.
(** include/cmp/unicode/constants.hpp: bom. *)
Definition bom : N := 0xFEFF.

(** Conversion to char8_t / char16_t / char32_t: reduction modulo 2^n. *)
Definition to_char8 (x : N) : N := x mod 0x100.
Definition to_char16 (x : N) : N := x mod 0x10000.
Definition to_char32 (x : N) : N := x mod 0x100000000.

(** examiners.ipp 10-18 *)
Definition fits_in_7_bits (c : N) : bool := c <=? 127.
(** examiners.ipp 20-28 *)
Definition is_standalone_byte (u : N) : bool := fits_in_7_bits u.
(** examiners.ipp 30-40 *)
Definition is_leading_byte (u : N) : bool :=
  (N.shiftr u 5 =? 6) || (N.shiftr u 4 =? 14) || (N.shiftr u 3 =? 30).
(** examiners.ipp 42-50 *)
Definition is_trailing_byte (u : N) : bool := N.shiftr u 6 =? 2.
(** examiners.ipp 52-61; the parameter has type char16_t, so a wider argument is
    truncated at the call. *)
Definition is_leading_surrogate (u : N) : bool :=
  (leading_surrogate_minimum_value <=? to_char16 u) &&
  (to_char16 u <=? leading_surrogate_maximum_value).
(** examiners.ipp 63-72 *)
Definition is_trailing_surrogate (u : N) : bool :=
  (trailing_surrogate_minimum_value <=? to_char16 u) &&
  (to_char16 u <=? trailing_surrogate_maximum_value).
(** examiners.ipp 74-83 *)
Definition is_surrogate (u : N) : bool :=
  (leading_surrogate_minimum_value <=? to_char16 u) &&
  (to_char16 u <=? trailing_surrogate_maximum_value).
(** examiners.ipp 85-94; the char32_t argument is passed to is_surrogate, whose
    parameter is a char16_t. *)
Definition is_code_point_valid (c : N) : bool :=
  (c <=? maximum_code_point) && negb (is_surrogate c).
(** examiners.ipp 96-128 *)
Definition is_whitespace (c : N) : bool :=
  (c =? 9) || (c =? 10) || (c =? 11) || (c =? 12) || (c =? 13) || (c =? 32) ||
  (c =? 133) || (c =? 160) || (c =? 5760) || (c =? 8192) || (c =? 8193) ||
  (c =? 8194) || (c =? 8195) || (c =? 8196) || (c =? 8197) || (c =? 8198) ||
  (c =? 8199) || (c =? 8200) || (c =? 8201) || (c =? 8202) || (c =? 8232) ||
  (c =? 8233) || (c =? 8239) || (c =? 8287) || (c =? 12288).

(** std::tolower(static_cast<int>(c)) as called in examiners.ipp 140-144, in the
    "C" locale (simplification: other locales not modelled).  The C standard
    requires the argument to be an unsigned char value or EOF (-1). *)
Definition tolower (c : N) : outcome N :=
  if c <=? 255 then Ok (if (65 <=? c) && (c <=? 90) then c + 32 else c)
  else if c =? 0xFFFFFFFF then Ok c
  else UB CtypeDomain.

(** examiners.ipp 130-152.  [('0' + radix)] and [('a' + radix - 10)] are unsigned
    int computations; no wrap for the radixes of interest, but reduced mod 2^32
    to stay exact. *)
Definition is_radix_digit (c radix : N) : outcome bool :=
  if radix <? 10 then Ok ((48 <=? c) && (c <? 48 + radix))
  else
    bind (tolower c) (fun lc =>
      Ok (((48 <=? c) && (c <=? 57)) ||
          ((97 <=? lc) && (lc <? to_char32 (97 + radix - 10))))).

(* ------------------------------------------------------------ impl.cpp *)

(** impl/impl.cpp 12-32: sequence length and initial value. *)
Definition initialize_utf8_sequence (u : N) : outcome (nat * N) :=
  if is_standalone_byte u then Ok (1%nat, u)
  else if N.shiftr u 5 =? 6 then Ok (2%nat, N.land u 31)
  else if N.shiftr u 4 =? 14 then Ok (3%nat, N.land u 15)
  else if N.shiftr u 3 =? 30 then Ok (4%nat, N.land u 7)
  else Throw InvalidUnicodeEncoding.

(** impl/impl.cpp 34-49 *)
Definition initialize_utf16_sequence (u : N) : outcome (nat * N) :=
  if is_leading_surrogate u then
    Ok (2%nat, N.shiftl (u - leading_surrogate_minimum_value) 10)
  else if is_trailing_surrogate u then Throw InvalidUnicodeEncoding
  else Ok (1%nat, u).

(* ------------------------------------------------------ by_code_point *)

(** The specialisations of by_code_point: char (by_code_point.cpp 8-226; plain
    char may be signed or unsigned), char8_t (228-612), char16_t (614-977),
    char32_t (979-1197), wchar_t of two or four bytes (1199-1583). *)
Inductive ukind : Type :=
| KChar (is_signed : bool)
| K8
| K16
| K32
| KW2
| KW4.

(** The three decoders behind the six kinds.  by_code_point.cpp 8-226, 228-612, 613-978, 979-1199,
    1200-1585. *)
Inductive uclass : Type := Plain | Multi8 | Multi16.
(** Which of the three decodes a kind: by_code_point.cpp 8-1585 *)
Definition class_of (k : ukind) : uclass :=
  match k with
  | KChar _ | K32 | KW4 => Plain
  | K8 => Multi8
  | K16 | KW2 => Multi16
  end.

(** Conversion of one unit of a plain kind to char32_t: a negative signed char is
    sign-extended (by_code_point.cpp 24-32; reference is const char&). *)
Definition widen (k : ukind) (u : N) : N :=
  match k with
  | KChar true => if u <? 128 then u else u + 0xFFFFFF00
  | _ => u
  end.

(** by_code_point.cpp 262-288 (reference::finish_sequence for char8_t), called
    with [n] = sequence_length - 1 remaining units.  (result << 6) never exceeds
    21 bits, so the reduction modulo 2^32 is omitted. *)
Fixpoint ref_finish8 (n : nat) (result : N) (s : list N) (i : nat) : outcome N :=
  match n with
  | O => Ok result
  | S n' =>
    if Nat.eqb (i + 1) (length s) then Throw IteratedPastEnd
    else match nth_error s (i + 1) with
         | None => UB OutOfBoundsRead
         | Some u =>
           if negb (is_trailing_byte u) then Throw InvalidUnicodeEncoding
           else ref_finish8 n' (N.lor (N.shiftl result 6) (N.land u 63)) s (i + 1)
         end
  end.

(** by_code_point.cpp 244-258 *)
Definition ref_decode8 (s : list N) (i : nat) : outcome N :=
  match nth_error s i with
  | None => UB OutOfBoundsRead
  | Some u =>
    bind (initialize_utf8_sequence u) (fun '(n, v) =>
      ref_finish8 (n - 1) v s i)
  end.

(** by_code_point.cpp 647-668 (char16_t) and 1237-1258 (wchar_t of two bytes) *)
Definition ref_finish16 (n : nat) (v : N) (s : list N) (i : nat) : outcome N :=
  if Nat.eqb n 2 then
    if Nat.eqb (i + 1) (length s) then Throw IteratedPastEnd
    else match nth_error s (i + 1) with
         | None => UB OutOfBoundsRead
         | Some u =>
           if negb (is_trailing_surrogate u) then Throw InvalidUnicodeEncoding
           else Ok (v + (u - 0xDC00) + 0x10000)
         end
  else Ok v.

(** by_code_point.cpp 629-643 and 1215-1233 *)
Definition ref_decode16 (s : list N) (i : nat) : outcome N :=
  match nth_error s i with
  | None => UB OutOfBoundsRead
  | Some u =>
    bind (initialize_utf16_sequence u) (fun '(n, v) => ref_finish16 n v s i)
  end.

(** operator * followed by the conversion to char32_t: by_code_point.cpp 24-32
    (char), 306-314 (char8_t), 686-694 (char16_t), 995-1003 (char32_t), 1276-1284
    (wchar_t). *)
Definition deref (k : ukind) (s : list N) (i : nat) : outcome N :=
  if Nat.eqb i (length s) then Throw IteratedPastEnd
  else match class_of k with
       | Plain => match nth_error s i with
                  | None => UB OutOfBoundsRead
                  | Some u => Ok (widen k u)
                  end
       | Multi8 => ref_decode8 s i
       | Multi16 => ref_decode16 s i
       end.

(** ++m_current_iterator on the underlying pointer.  Used in by_code_point.cpp 34-48 and the like. *)
Definition ptr_inc (s : list N) (i : nat) : nat * outcome unit :=
  if Nat.ltb i (length s) then (S i, Ok tt) else (i, UB PointerArithmetic).

(** --m_current_iterator on the underlying pointer.  Used in by_code_point.cpp 58-75 and the like. *)
Definition ptr_dec (i : nat) : nat * outcome unit :=
  match i with O => (O, UB PointerArithmetic) | S i' => (i', Ok tt) end.

(** by_code_point.cpp 483-509 (finish_sequence taking the iterator by reference,
    used by advance): note that it tests i == end and then reads *(i + 1).
    The code point computed by it is discarded by advance and not modelled.
    [n] = remaining units.  Returns the iterator as left behind. *)
Fixpoint adv_finish8 (n : nat) (s : list N) (i : nat) : nat * outcome unit :=
  match n with
  | O => ptr_inc s i
  | S n' =>
    if Nat.eqb i (length s) then (i, Throw IteratedPastEnd)
    else match nth_error s (i + 1) with
         | None => (i, UB OutOfBoundsRead)
         | Some u =>
           if negb (is_trailing_byte u) then (i, Throw InvalidUnicodeEncoding)
           else then_ (ptr_inc s i) (fun i' _ => adv_finish8 n' s i')
         end
  end.

(** by_code_point.cpp 511-524 *)
Definition advance8 (s : list N) (i : nat) : nat * outcome unit :=
  match nth_error s i with
  | None => (i, UB OutOfBoundsRead)
  | Some u =>
    match initialize_utf8_sequence u with
    | Ok (n, _) => adv_finish8 (n - 1) s i
    | Throw e => (i, Throw e)
    | UB x => (i, UB x)
    | Terminate => (i, Terminate)
    | Diverge => (i, Diverge)
    end
  end.

(** by_code_point.cpp 858-878 and 1448-1468: for a pair there is only one ++i. *)
Definition adv_finish16 (n : nat) (s : list N) (i : nat) : nat * outcome unit :=
  if Nat.eqb n 2 then
    if Nat.eqb i (length s) then (i, Throw IteratedPastEnd)
    else match nth_error s (i + 1) with
         | None => (i, UB OutOfBoundsRead)
         | Some u =>
           if negb (is_trailing_surrogate u) then (i, Throw InvalidUnicodeEncoding)
           else ptr_inc s i
         end
  else ptr_inc s i.

(** by_code_point.cpp 880-893 and 1470-1487 *)
Definition advance16 (s : list N) (i : nat) : nat * outcome unit :=
  match nth_error s i with
  | None => (i, UB OutOfBoundsRead)
  | Some u =>
    match initialize_utf16_sequence u with
    | Ok (n, _) => adv_finish16 n s i
    | Throw e => (i, Throw e)
    | UB x => (i, UB x)
    | Terminate => (i, Terminate)
    | Diverge => (i, Diverge)
    end
  end.

(** operator ++: by_code_point.cpp 34-48, 316-330, 696-710, 1005-1019, 1286-1300 *)
Definition advance (k : ukind) (s : list N) (i : nat) : nat * outcome unit :=
  match class_of k with
  | Plain => ptr_inc s i
  | Multi8 => advance8 s i
  | Multi16 => advance16 s i
  end.

(** by_code_point.cpp 541-544: while (is_trailing_byte(code_unit)) *)
Fixpoint retreat8_loop (s : list N) (u : N) (i : nat) : nat * outcome unit :=
  if is_trailing_byte u then
    match i with
    | O => (O, UB PointerArithmetic)
    | S i' => match nth_error s i' with
              | None => (i', UB OutOfBoundsRead)
              | Some u' => retreat8_loop s u' i'
              end
    end
  else (i, Ok tt).

(** by_code_point.cpp 535-545 *)
Definition retreat8 (s : list N) (i : nat) : nat * outcome unit :=
  then_ (ptr_dec i) (fun i' _ =>
    match nth_error s i' with
    | None => (i', UB OutOfBoundsRead)
    | Some u => if is_standalone_byte u then (i', Ok tt)
                else retreat8_loop s u i'
    end).

(** by_code_point.cpp 904-911 and 1502-1513 *)
Definition retreat16 (s : list N) (i : nat) : nat * outcome unit :=
  then_ (ptr_dec i) (fun i' _ =>
    match nth_error s i' with
    | None => (i', UB OutOfBoundsRead)
    | Some u => if is_trailing_surrogate u then ptr_dec i' else (i', Ok tt)
    end).

(** operator --: by_code_point.cpp 58-75, 340-357, 720-737, 1029-1046, 1310-1327 *)
Definition retreat (k : ukind) (s : list N) (i : nat) : nat * outcome unit :=
  match class_of k with
  | Plain => ptr_dec i
  | Multi8 => retreat8 s i
  | Multi16 => retreat16 s i
  end.

(** [n] calls of [step] (the body of while (offset-- > 0)). *)
Fixpoint repeat_step (step : nat -> nat * outcome unit) (n : nat) (i : nat)
  : nat * outcome unit :=
  match n with
  | O => (i, Ok tt)
  | S n' => then_ (step i) (fun i' _ => repeat_step step n' i')
  end.

(** while (offset-- > 0) step(): by_code_point.cpp 526-533 and the like.  A
    non-positive offset does nothing, except that decrementing the most negative
    ptrdiff_t overflows. *)
Definition count_down (step : nat -> nat * outcome unit) (offset : Z) (i : nat)
  : nat * outcome unit :=
  if (offset =? - 2 ^ 63)%Z then (i, UB SignedOverflow)
  else repeat_step step (Z.to_nat offset) i.

(** pointer += offset.  Used in by_code_point.cpp 50-56 and the like. *)
Definition ptr_add (s : list N) (offset : Z) (i : nat) : nat * outcome unit :=
  let j := (Z.of_nat i + offset)%Z in
  if ((0 <=? j) && (j <=? Z.of_nat (length s)))%Z%bool then (Z.to_nat j, Ok tt)
  else (i, UB PointerArithmetic).

(** operator +=: by_code_point.cpp 50-56, 332-338 with 526-533, 712-718 with
    895-902, 1021-1027, 1302-1308 with 1489-1500 *)
Definition advance_by (k : ukind) (s : list N) (offset : Z) (i : nat)
  : nat * outcome unit :=
  match class_of k with
  | Plain => ptr_add s offset i
  | Multi8 => count_down (advance8 s) offset i
  | Multi16 => count_down (advance16 s) offset i
  end.

(** The body of operator -= : by_code_point.cpp 77-85, 359-367 with 547-554,
    739-747 with 913-920 (which calls advance()), 1048-1056, 1329-1337 with
    1515-1526 (which calls advance()). *)
Definition retreat_by (k : ukind) (s : list N) (offset : Z) (i : nat)
  : nat * outcome unit :=
  match class_of k with
  | Plain => ptr_add s (- offset) i
  | Multi8 => count_down (retreat8 s) offset i
  | Multi16 => count_down (advance16 s) offset i
  end.

(** operator -= is noexcept.  by_code_point.cpp 77-85, 359-367 and the like. *)
Definition minus_assign (k : ukind) (s : list N) (offset : Z) (i : nat)
  : nat * outcome unit :=
  let '(j, r) := retreat_by k s offset i in (j, noexcept r).

(** operator +(iterator, offset) is noexcept and works on a copy:
    by_code_point.cpp 87-115, 369-397, 749-777, 1058-1086, 1339-1367. *)
Definition plus_offset (k : ukind) (s : list N) (offset : Z) (i : nat)
  : nat * outcome unit :=
  let '(j, r) := advance_by k s offset i in (j, noexcept r).

(** for (char32_t c : by_code_point{s}) ...: the code points visited from [i] on
    and how the loop ended.  Fuel: at most one step per unit is needed.  The loops of algorithms.ipp
    219-222, text_output_stream.ipp 185-400 and of users. *)
Fixpoint visit_from (fuel : nat) (k : ukind) (s : list N) (i : nat)
  : list N * outcome unit :=
  match fuel with
  | O => ([], Diverge)
  | S fuel' =>
    if Nat.eqb i (length s) then ([], Ok tt)
    else match deref k s i with
         | Ok c =>
           match advance k s i with
           | (i', Ok _) =>
             let '(l, r) := visit_from fuel' k s i' in (c :: l, r)
           | (_, Throw e) => ([c], Throw e)
           | (_, UB x) => ([c], UB x)
           | (_, Terminate) => ([c], Terminate)
           | (_, Diverge) => ([c], Diverge)
           end
         | Throw e => ([], Throw e)
         | UB x => ([], UB x)
         | Terminate => ([], Terminate)
         | Diverge => ([], Diverge)
         end
  end.
(** begin() .. end(): by_code_point.cpp 571-583 and the like *)
Definition visit (k : ukind) (s : list N) : list N * outcome unit :=
  visit_from (S (length s)) k s 0.

(** *r for a std::reverse_iterator r over a const_iterator: copy, --, *.
    operator -- is noexcept.  std::reverse_iterator is not in /repo; by_code_point.cpp 599-611
    returns it. *)
Definition rderef (k : ukind) (s : list N) (i : nat) : outcome N :=
  match retreat k s i with
  | (j, Ok _) => deref k s j
  | (_, r) => bind (noexcept r) (fun _ => Diverge)
  end.

(** for (auto r = crbegin(); r != crend(); ++r) visit *r.  The loops of parsers.ipp 52-93 and of
    users. *)
Fixpoint rvisit_from (fuel : nat) (k : ukind) (s : list N) (i : nat)
  : list N * outcome unit :=
  match fuel with
  | O => ([], Diverge)
  | S fuel' =>
    if Nat.eqb i 0 then ([], Ok tt)
    else match rderef k s i with
         | Ok c =>
           match retreat k s i with
           | (i', Ok _) =>
             let '(l, r) := rvisit_from fuel' k s i' in (c :: l, r)
           | (_, r) => ([c], bind (noexcept r) (fun _ => Diverge))
           end
         | Throw e => ([], Throw e)
         | UB x => ([], UB x)
         | Terminate => ([], Terminate)
         | Diverge => ([], Diverge)
         end
  end.
(** crbegin() .. crend(): by_code_point.cpp 599-611 and the like *)
Definition rvisit (k : ukind) (s : list N) : list N * outcome unit :=
  rvisit_from (S (length s)) k s (length s).

(* --------------------------------------------------------- algorithms.ipp *)

(** *(it++): the iterator is advanced, then the old position is read.  by_code_point.cpp 34-48 and
    the like: operator ++(int). *)
Definition post_inc (k : ukind) (s : list N) (i : nat) : outcome (N * nat) :=
  match advance k s i with
  | (i', Ok _) => bind (deref k s i) (fun c => Ok (c, i'))
  | (_, r) => bind r (fun _ => Diverge)
  end.

(** algorithms.ipp 14-34, the body of starts_with.  C++ leaves the order of the
    two operands of == open; the left one is evaluated first here. *)
Fixpoint starts_with_from (fuel : nat) (k1 : ukind) (s : list N) (k2 : ukind)
  (t : list N) (i j : nat) : outcome bool :=
  match fuel with
  | O => Diverge
  | S fuel' =>
    if Nat.eqb j (length t) then Ok true
    else if Nat.eqb i (length s) then Ok false
    else bind (post_inc k1 s i) (fun '(a, i') =>
         bind (post_inc k2 t j) (fun '(b, j') =>
           if a =? b then starts_with_from fuel' k1 s k2 t i' j'
           else Ok false))
  end.
(** algorithms.ipp 10-34; noexcept *)
Definition starts_with (k1 : ukind) (s : list N) (k2 : ukind) (t : list N)
  : outcome bool :=
  noexcept (starts_with_from (S (length s)) k1 s k2 t 0 0).

(** *(r++) for reverse iterators.  std::reverse_iterator is not in /repo; by_code_point.cpp 599-611
    returns it. *)
Definition rpost_inc (k : ukind) (s : list N) (i : nat) : outcome (N * nat) :=
  match retreat k s i with
  | (i', Ok _) => bind (rderef k s i) (fun c => Ok (c, i'))
  | (_, r) => bind (noexcept r) (fun _ => Diverge)
  end.

(** algorithms.ipp 40-60, the body of ends_with *)
Fixpoint ends_with_from (fuel : nat) (k1 : ukind) (s : list N) (k2 : ukind)
  (t : list N) (i j : nat) : outcome bool :=
  match fuel with
  | O => Diverge
  | S fuel' =>
    if Nat.eqb j 0 then Ok true
    else if Nat.eqb i 0 then Ok false
    else bind (rpost_inc k1 s i) (fun '(a, i') =>
         bind (rpost_inc k2 t j) (fun '(b, j') =>
           if a =? b then ends_with_from fuel' k1 s k2 t i' j'
           else Ok false))
  end.
(** algorithms.ipp 36-60; noexcept *)
Definition ends_with (k1 : ukind) (s : list N) (k2 : ukind) (t : list N)
  : outcome bool :=
  noexcept (ends_with_from (S (length s)) k1 s k2 t (length s) (length t)).

(** s.insert(index, 1, unit): throws std::out_of_range when index > size. *)
Definition str_insert (s : list N) (index : nat) (u : N) : list N * outcome unit :=
  if Nat.ltb (length s) index then (s, Throw OutOfRange)
  else (firstn index s ++ u :: skipn index s, Ok tt).

(** algorithms.ipp 69-183: the string after the call and how it ended. *)
Definition insert_code_point (k : ukind) (s : list N) (cp : N) (index : nat)
  : list N * outcome unit :=
  match k with
  | KChar _ => str_insert s index (to_char8 cp)
  | K8 =>
    if negb (is_code_point_valid cp) then (s, Throw InvalidCodePoint)
    else if fits_in_7_bits cp then str_insert s index (to_char8 cp)
    else if cp <=? 0x7FF then
      then_ (str_insert s index (to_char8 (N.lor (N.shiftr cp 6) 192)))
        (fun s _ => str_insert s (index + 1) (to_char8 (N.lor (N.land cp 63) 128)))
    else if cp <=? 0xFFFF then
      then_ (str_insert s index (to_char8 (N.lor (N.shiftr cp 12) 224)))
        (fun s _ =>
      then_ (str_insert s (index + 1)
               (to_char8 (N.lor (N.land (N.shiftr cp 6) 63) 128)))
        (fun s _ => str_insert s (index + 2) (to_char8 (N.lor (N.land cp 63) 128))))
    else
      then_ (str_insert s index (to_char8 (N.lor (N.shiftr cp 18) 240)))
        (fun s _ =>
      then_ (str_insert s (index + 1)
               (to_char8 (N.lor (N.land (N.shiftr cp 12) 63) 128)))
        (fun s _ =>
      then_ (str_insert s (index + 2)
               (to_char8 (N.lor (N.land (N.shiftr cp 6) 63) 128)))
        (fun s _ => str_insert s (index + 3) (to_char8 (N.lor (N.land cp 63) 128)))))
  | K16 | KW2 =>
    if negb (is_surrogate cp) && (cp <=? maximum_bmp_code_point) then
      str_insert s index (to_char16 cp)
    else
      let cp := to_char32 (cp + 0x100000000 - 0x10000) in
      then_ (str_insert s index
               (to_char16 (N.shiftr (N.land 0xFFC00 cp) 10
                           + leading_surrogate_minimum_value)))
        (fun s _ => str_insert s (index + 1)
               (to_char16 (N.land 0x3FF cp + trailing_surrogate_minimum_value)))
  | K32 | KW4 => str_insert s index cp
  end.

(** algorithms.ipp 188-197 *)
Definition append_code_point (k : ukind) (s : list N) (cp : N) : list N * outcome unit :=
  insert_code_point k s cp (length s).

(** algorithms.ipp 199-208 *)
Definition prepend_code_point (k : ukind) (s : list N) (cp : N) : list N * outcome unit :=
  insert_code_point k s cp 0.

(** algorithms.ipp 219-222: the loop of convert_string from index [i], with the
    result so far.  (reserve has no observable effect.) *)
Fixpoint convert_from (fuel : nat) (ko ki : ukind) (s : list N) (i : nat)
  (result : list N) : outcome (list N) :=
  match fuel with
  | O => Diverge
  | S fuel' =>
    if Nat.eqb i (length s) then Ok result
    else bind (deref ki s i) (fun c =>
         match append_code_point ko result c with
         | (result', Ok _) =>
           match advance ki s i with
           | (i', Ok _) => convert_from fuel' ko ki s i' result'
           | (_, r) => bind r (fun _ => Diverge)
           end
         | (_, r) => bind r (fun _ => Diverge)
         end)
  end.
(** algorithms.ipp 210-224; to_string .. to_wstring (226-274) are instances. *)
Definition convert_string (ko ki : ukind) (s : list N) : outcome (list N) :=
  convert_from (S (length s)) ko ki s 0 [].

(** algorithms.ipp 286-297: the loop of validate_string; the two catch clauses
    swallow invalid_unicode_encoding and iterated_past_end.  Result: the
    returned iterator. *)
Fixpoint validate_from (fuel : nat) (k : ukind) (s : list N) (i : nat)
  : outcome nat :=
  match fuel with
  | O => Diverge
  | S fuel' =>
    if Nat.eqb i (length s) then Ok i
    else match deref k s i with
         | Ok c =>
           if maximum_code_point <? c then Ok i
           else match advance k s i with
                | (i', Ok _) => validate_from fuel' k s i'
                | (i', Throw InvalidUnicodeEncoding) => Ok i'
                | (i', Throw IteratedPastEnd) => Ok i'
                | (_, r) => bind r (fun _ => Diverge)
                end
         | Throw InvalidUnicodeEncoding => Ok i
         | Throw IteratedPastEnd => Ok i
         | r => bind r (fun _ => Diverge)
         end
  end.
(** algorithms.ipp 276-299; noexcept *)
Definition validate_string (k : ukind) (s : list N) : outcome nat :=
  noexcept (validate_from (S (length s)) k s 0).
