(** C++ types as far as the library's overloads and concepts can tell them apart, and
    what a user may expect of them; stated without the model. *)
From Coq Require Import NArith List Bool.
Import ListNotations.
Open Scope N_scope.

(** char, char8_t, char16_t, char32_t, wchar_t *)
Inductive unit_type : Type := Char | Char8 | Char16 | Char32 | Wide.

(** Integer stands for every other integer type (signed char, unsigned char, short, ...),
    Floating for every floating-point type, told apart by numbers. *)
Inductive fundamental : Type := Void | NullPtr | Bool | Unit (u : unit_type) | Integer (name : N) | Floating (name : N).

(** const and volatile *)
Record cv : Type := Cv { is_const : bool; is_volatile : bool }.

Definition plain : cv := Cv false false.

Inductive ty : Type :=
| Basic (q : cv) (f : fundamental)
| Text (q : cv) (u : unit_type)           (* std::basic_string *)
| View (q : cv) (u : unit_type)           (* std::basic_string_view *)
| Class (q : cv) (name : N)               (* another class, without conversions to other types *)
| Incomplete (q : cv) (name : N)          (* a class that is only declared *)
| Enum (q : cv) (scoped : bool) (fixed : option fundamental) (name : N)
                                          (* [fixed]: its underlying type, if one is given;
                                             the scoped one with the number 0 is flush_t *)
| Pointer (q : cv) (t : ty)
| MemberPointer (q : cv) (name : N)
| Array (t : ty) (n : N)
| OpenArray (t : ty)                      (* an array of unknown bound *)
| Function (name : N)
| LRef (t : ty)
| RRef (t : ty).

(** Types that have a size.  A reference has the size of what it refers to. *)
Fixpoint sized (t : ty) : Prop :=
  match t with
  | Basic _ Void | Incomplete _ _ | OpenArray _ | Function _ => False
  | Array t n => sized t /\ 1 <= n
  | LRef t | RRef t => sized t
  | _ => True
  end.

(** Text in the units u: a string, a view, a pointer to units, or an array of units.
    const and volatile may appear anywhere, but the pointer itself is not volatile. *)
Inductive text_in (u : unit_type) : ty -> Prop :=
| Is_string q : text_in u (Text q u)
| Is_view q : text_in u (View q u)
| Is_pointer c q : text_in u (Pointer (Cv c false) (Basic q (Unit u)))
| Is_array q n : text_in u (Array (Basic q (Unit u)) n).

(** The same, when the text can be changed through it: nothing const but the pointer. *)
Inductive writable_in (u : unit_type) : ty -> Prop :=
| W_string v : writable_in u (Text (Cv false v) u)
| W_pointer c v : writable_in u (Pointer (Cv c false) (Basic (Cv false v) (Unit u)))
| W_array v n : writable_in u (Array (Basic (Cv false v) (Unit u)) n).

(** Nothing volatile. *)
Inductive steady : ty -> Prop :=
| S_string c u : steady (Text (Cv c false) u)
| S_view c u : steady (View (Cv c false) u)
| S_pointer c c' u : steady (Pointer (Cv c false) (Basic (Cv c' false) (Unit u)))
| S_array c u n : steady (Array (Basic (Cv c false) (Unit u)) n).

(** How a value can be shown. *)
Inductive showing : Type :=
| AsCharacter
| AsText (u : unit_type)
| AsBool
| AsInteger
| AsFloating
| Flushes.                                (* nothing is shown; what is pending is sent *)

(** The type of cmp::flush *)
Definition flush_type (q : cv) : ty := Enum q true None 0.

(** How a user expects values to be shown: characters of any kind as characters, text
    as text, numbers as numbers; cmp::flush flushes, and that is all. *)
Inductive expected_showing : ty -> showing -> Prop :=
| E_unit q u : expected_showing (Basic q (Unit u)) AsCharacter
| E_bool q : expected_showing (Basic q Bool) AsBool
| E_integer q n : expected_showing (Basic q (Integer n)) AsInteger
| E_floating q n : expected_showing (Basic q (Floating n)) AsFloating
| E_text u t : text_in u t -> expected_showing t (AsText u)
| E_flush q : expected_showing (flush_type q) Flushes.

(** How a value can be read. *)
Inductive reading : Type :=
| OneCharacter
| OneWord (u : unit_type)
| OneBool
| OneInteger
| OneFloating.

(** What was shown in one way must be read in that way. *)
Inductive reads_back : showing -> reading -> Prop :=
| R_character : reads_back AsCharacter OneCharacter
| R_text u : reads_back (AsText u) (OneWord u)
| R_bool : reads_back AsBool OneBool
| R_integer : reads_back AsInteger OneInteger
| R_floating : reads_back AsFloating OneFloating.

(** A trait that compiles and answers whether P holds. *)
Definition answers (o : option bool) (P : Prop) : Prop :=
  (o = Some true /\ P) \/ (o = Some false /\ ~ P).

(** What becomes a pointer when it is passed by value. *)
Inductive pointer_like : ty -> ty -> Prop :=
| P_pointer q t : pointer_like (Pointer q t) t
| P_array t n : pointer_like (Array t n) t
| P_open t : pointer_like (OpenArray t) t
| P_function n : pointer_like (Function n) (Function n).

(** Units that can be read: not volatile. *)
Inductive readable_unit : unit_type -> ty -> Prop :=
| Readable c u : readable_unit u (Basic (Cv c false) (Unit u)).

(** What is shown in ways that one would not expect: characters of the other three
    kinds as numbers, pointers that are not text as bool, and enumerations with certain
    underlying types. *)
Inductive surprise : ty -> showing -> Prop :=
| X_unit q u : u = Char8 \/ u = Char16 \/ u = Wide -> surprise (Basic q (Unit u)) AsInteger
| X_pointer t t' : pointer_like t t' -> (forall u, ~ readable_unit u t') -> surprise t AsBool
| X_member q n : surprise (MemberPointer q n) AsBool
| X_enum_char q u n : u = Char \/ u = Char32 -> surprise (Enum q false (Some (Unit u)) n) AsCharacter
| X_enum_bool q n : surprise (Enum q false (Some Bool) n) AsBool.

(** What is shown as one would expect.  (The pointer itself may be volatile, and the
    bound of an array unknown.) *)
Inductive as_hoped : ty -> showing -> Prop :=
| H_unit q u : u = Char \/ u = Char32 -> as_hoped (Basic q (Unit u)) AsCharacter
| H_bool q : as_hoped (Basic q Bool) AsBool
| H_integer q n : as_hoped (Basic q (Integer n)) AsInteger
| H_floating q n : as_hoped (Basic q (Floating n)) AsFloating
| H_flush q : as_hoped (flush_type q) Flushes
| H_string c u : as_hoped (Text (Cv c false) u) (AsText u)
| H_view c u : as_hoped (View (Cv c false) u) (AsText u)
| H_units t t' u : pointer_like t t' -> readable_unit u t' -> as_hoped t (AsText u).
