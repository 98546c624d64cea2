(** Independent specification of Unicode text: scalar values and their encodings,
    written with plain arithmetic from the Unicode standard (chapter 3, D76,
    D90-D92, tables 3-5, 3-6, 3-7).  Imports nothing of the model. *)
From Coq Require Import NArith List Bool.
Import ListNotations.
Open Scope N_scope.

(** D76: a Unicode scalar value. *)
Definition scalar (c : N) : Prop :=
  c <= 0x10FFFF /\ ~ (0xD800 <= c <= 0xDFFF).

(** In the Basic Multilingual Plane (one UTF-16 unit). *)
Definition bmp (c : N) : Prop := c < 0x10000.

(** Table 3-6. *)
Definition utf8_of (c : N) : list N :=
  if c <? 0x80 then [c]
  else if c <? 0x800 then [192 + c / 64; 128 + c mod 64]
  else if c <? 0x10000 then
    [224 + c / 4096; 128 + (c / 64) mod 64; 128 + c mod 64]
  else
    [240 + c / 262144; 128 + (c / 4096) mod 64; 128 + (c / 64) mod 64; 128 + c mod 64].

(** Table 3-5. *)
Definition utf16_of (c : N) : list N :=
  if c <? 0x10000 then [c]
  else [0xD800 + (c - 0x10000) / 1024; 0xDC00 + (c - 0x10000) mod 1024].

Definition utf32_of (c : N) : list N := [c].

Inductive encoding : Type := UTF8 | UTF16 | UTF32.

Definition encode1 (e : encoding) : N -> list N :=
  match e with UTF8 => utf8_of | UTF16 => utf16_of | UTF32 => utf32_of end.

(** The encoding of a text. *)
Definition encode (e : encoding) (l : list N) : list N := flat_map (encode1 e) l.

(** Well-formed: the encoding of some sequence of scalar values. *)
Definition well_formed (e : encoding) (s : list N) : Prop :=
  exists l, Forall scalar l /\ s = encode e l.

(** Prefix and suffix of texts. *)
Definition prefix_of (a b : list N) : Prop := exists t, b = a ++ t.
Definition suffix_of (a b : list N) : Prop := exists t, b = t ++ a.

(** The code points with the Unicode White_Space property (PropList.txt). *)
Definition white_space (c : N) : Prop :=
  (9 <= c <= 13) \/ c = 0x20 \/ c = 0x85 \/ c = 0xA0 \/ c = 0x1680 \/
  (0x2000 <= c <= 0x200A) \/ c = 0x2028 \/ c = 0x2029 \/ c = 0x202F \/
  c = 0x205F \/ c = 0x3000.

(** "Loose" UTF-8: a lead byte followed by the announced number of trailing
    bytes, with no check against overlong forms, surrogates or the maximum.
    [loose8 bs c]: the bytes [bs] form one such sequence with value [c]. *)
Inductive loose8 : list N -> N -> Prop :=
| L1 b : b < 128 -> loose8 [b] b
| L2 a x : a < 32 -> x < 64 -> loose8 [192 + a; 128 + x] (a * 64 + x)
| L3 a x y : a < 16 -> x < 64 -> y < 64 ->
    loose8 [224 + a; 128 + x; 128 + y] (a * 4096 + x * 64 + y)
| L4 a x y z : a < 8 -> x < 64 -> y < 64 -> z < 64 ->
    loose8 [240 + a; 128 + x; 128 + y; 128 + z]
           (a * 262144 + x * 4096 + y * 64 + z).

(** Same for UTF-16: the only malformations are unpaired surrogates. *)
Inductive loose16 : list N -> N -> Prop :=
| S1 u : u < 0x10000 -> ~ (0xD800 <= u <= 0xDFFF) -> loose16 [u] u
| S2 a b : a < 1024 -> b < 1024 ->
    loose16 [0xD800 + a; 0xDC00 + b] (a * 1024 + b + 0x10000).

Inductive loose32 : list N -> N -> Prop :=
| W1 u : loose32 [u] u.

Definition loose (e : encoding) : list N -> N -> Prop :=
  match e with UTF8 => loose8 | UTF16 => loose16 | UTF32 => loose32 end.

(** [loose_text e s l]: the units [s] are a concatenation of loose sequences with
    values [l]. *)
Inductive loose_text (e : encoding) : list N -> list N -> Prop :=
| LT_nil : loose_text e [] []
| LT_cons bs c s l : loose e bs c -> loose_text e s l ->
    loose_text e (bs ++ s) (c :: l).

(** Table 3-7: well-formed UTF-8 byte sequences. *)
Definition between (a b x : N) : Prop := a <= x <= b.
Inductive table_3_7 : list N -> Prop :=
| T1 a : between 0x00 0x7F a -> table_3_7 [a]
| T2 a b : between 0xC2 0xDF a -> between 0x80 0xBF b -> table_3_7 [a; b]
| T3a b c : between 0xA0 0xBF b -> between 0x80 0xBF c -> table_3_7 [0xE0; b; c]
| T3b a b c : between 0xE1 0xEC a -> between 0x80 0xBF b -> between 0x80 0xBF c ->
    table_3_7 [a; b; c]
| T3c b c : between 0x80 0x9F b -> between 0x80 0xBF c -> table_3_7 [0xED; b; c]
| T3d a b c : between 0xEE 0xEF a -> between 0x80 0xBF b -> between 0x80 0xBF c ->
    table_3_7 [a; b; c]
| T4a b c d : between 0x90 0xBF b -> between 0x80 0xBF c -> between 0x80 0xBF d ->
    table_3_7 [0xF0; b; c; d]
| T4b a b c d : between 0xF1 0xF3 a -> between 0x80 0xBF b -> between 0x80 0xBF c ->
    between 0x80 0xBF d -> table_3_7 [a; b; c; d]
| T4c b c d : between 0x80 0x8F b -> between 0x80 0xBF c -> between 0x80 0xBF d ->
    table_3_7 [0xF4; b; c; d].
