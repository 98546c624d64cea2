(** Model of the type traits and of the overloads for values of different types:
    /repo/api/include/cmp/unicode/type_traits.hpp (TT),
    /repo/api/include/cmp/core/type_traits.hpp,
    /repo/api/include/cmp/io/text_output_stream.hpp 262-552 (operator <<),
    /repo/api/include/cmp/io/output_stream.hpp 245-264 (operator << for flush),
    /repo/api/include/cmp/io/text_input_stream.hpp 293-394 (operator >>),
    /repo/api/include/cmp/unicode/algorithms.hpp, by_code_point.hpp.
    None stands for a program that does not compile. *)
From Coq Require Import NArith List Bool.
From Verif Require Import TypeSpec.
Import ListNotations.
Open Scope N_scope.

Definition unit_eq_dec (a b : unit_type) : {a = b} + {a <> b}.
Proof. decide equality. Defined.

Definition cv_eq_dec (a b : cv) : {a = b} + {a <> b}.
Proof. decide equality; apply Bool.bool_dec. Defined.

Definition fundamental_eq_dec (a b : fundamental) : {a = b} + {a <> b}.
Proof. decide equality; first [apply unit_eq_dec|apply N.eq_dec]. Defined.

Definition ty_eq_dec (a b : ty) : {a = b} + {a <> b}.
Proof.
  decide equality;
    first [apply unit_eq_dec|apply N.eq_dec|apply cv_eq_dec|apply fundamental_eq_dec|apply Bool.bool_dec|idtac].
  decide equality. apply fundamental_eq_dec.
Defined.

(** std::is_same_v.  Used throughout TT 14-264. *)
Definition same (a b : ty) : bool := if ty_eq_dec a b then true else false.

(** What the compiler chooses: sizeof (wchar_t), and the sizes of types that are
    neither units nor arrays.  No code of /repo. *)
Record sizes : Type := Sizes { wide_size : N; size_of_other : ty -> N }.

(** No code of /repo: sizeof of the unit types *)
Definition unit_size (z : sizes) (u : unit_type) : N :=
  match u with Char | Char8 => 1 | Char16 => 2 | Char32 => 4 | Wide => wide_size z end.

(** sizeof.  Used in TT 14-172. *)
Fixpoint size_of (z : sizes) (t : ty) : option N :=
  match t with
  | Basic _ Void | Incomplete _ _ | OpenArray _ | Function _ => None
  | Basic _ (Unit u) => Some (unit_size z u)
  | Array t n => option_map (fun s => n * s) (size_of z t)
  | LRef t | RRef t => size_of z t
  | _ => Some (size_of_other z t)
  end.

(** core/type_traits.hpp 11-40, 84-90: constant_max_v *)
Definition constant_max_v (a b : N) : N := if b <? a then a else b.

(** std::remove_volatile_t and std::remove_cv_t.  Used throughout TT 14-172. *)
Definition requalify (f : cv -> cv) (t : ty) : ty :=
  match t with
  | Basic q x => Basic (f q) x
  | Text q u => Text (f q) u
  | View q u => View (f q) u
  | Class q n => Class (f q) n
  | Incomplete q n => Incomplete (f q) n
  | Enum q s x n => Enum (f q) s x n
  | Pointer q t => Pointer (f q) t
  | MemberPointer q n => MemberPointer (f q) n
  | t => t    (* of an array the elements are requalified; no trait here depends on that *)
  end.

(** std::remove_volatile_t: used throughout TT 14-172 *)
Definition remove_volatile (t : ty) : ty := requalify (fun q => Cv (is_const q) false) t.
(** std::remove_cv_t: used throughout TT 89-172 *)
Definition remove_cv (t : ty) : ty := requalify (fun _ => plain) t.

(** The type [cv1 unit * cv2] and the type [cv unit [Size]].  As in TT 14-172. *)
Definition pointer_to (q : cv) (u : unit_type) (p : cv) : ty := Pointer p (Basic q (Unit u)).
(** As in TT 14-172 *)
Definition array_of (q : cv) (u : unit_type) (n : N) : ty := Array (Basic q (Unit u)) n.

(** const, as in TT 14-172 *)
Definition constant : cv := Cv true false.
(** volatile, as in TT 14-172 *)
Definition changing : cv := Cv false true.
(** const volatile, as in TT 14-172 *)
Definition both : cv := Cv true true.

(** TT 14-87: is_writable_char_string_v, is_writable_utf8_string_v, ...; the five are
    alike but for the unit. *)
Definition is_writable_string_v (z : sizes) (u : unit_type) (t : ty) : option bool :=
  option_map (fun s =>
    let size := constant_max_v 1 (s / unit_size z u) in
    same (remove_volatile t) (Text plain u)
    || same t (pointer_to plain u plain)
    || same t (pointer_to plain u constant)
    || same t (pointer_to changing u plain)
    || same t (pointer_to changing u constant)
    || same t (array_of plain u size)
    || same t (array_of changing u size)) (size_of z t).

(** TT 89-172: is_char_string_v, is_utf8_string_v, ... *)
Definition is_string_v (z : sizes) (u : unit_type) (t : ty) : option bool :=
  match is_writable_string_v z u t, size_of z t with
  | Some writable, Some s =>
      let size := constant_max_v 1 (s / unit_size z u) in
      Some (writable
        || same (remove_cv t) (View plain u)
        || same (remove_volatile t) (Text constant u)
        || same t (pointer_to constant u plain)
        || same t (pointer_to constant u constant)
        || same t (pointer_to both u plain)
        || same t (pointer_to both u constant)
        || same t (array_of constant u size)
        || same t (array_of both u size))
  | _, _ => None
  end.

Definition either (a b : option bool) : option bool :=
  match a, b with Some a, Some b => Some (a || b) | _, _ => None end.

Definition but_not (a : option bool) (b : bool) : option bool := option_map (fun a => a && negb b) a.

(** std::is_pointer_v<std::decay_t<T>>.  Used in TT 212, 221, 255, 264. *)
Definition decays_to_pointer (t : ty) : bool :=
  match (match t with LRef t | RRef t => t | t => t end) with
  | Pointer _ _ | Array _ _ | OpenArray _ | Function _ => true
  | _ => false
  end.

(** TT 176-184 *)
Definition is_writable_unicode_text_object_v (z : sizes) (t : ty) : option bool :=
  either (either (either (is_writable_string_v z Char8 t) (is_writable_string_v z Char16 t))
    (is_writable_string_v z Char32 t)) (is_writable_string_v z Wide t).

(** TT 186-194 *)
Definition is_unicode_text_object_v (z : sizes) (t : ty) : option bool :=
  either (either (either (is_string_v z Char8 t) (is_string_v z Char16 t)) (is_string_v z Char32 t)) (is_string_v z Wide t).

(** TT 196-204 *)
Definition is_unicode_text_object_view_v (t : ty) : bool :=
  same (remove_cv t) (View plain Char8) || same (remove_cv t) (View plain Char16)
  || same (remove_cv t) (View plain Char32) || same (remove_cv t) (View plain Wide).

(** TT 206-212 *)
Definition is_writable_raii_unicode_text_object_v (z : sizes) (t : ty) : option bool :=
  but_not (is_writable_unicode_text_object_v z t) (decays_to_pointer t).

(** TT 214-221 *)
Definition is_raii_unicode_text_object_v (z : sizes) (t : ty) : option bool :=
  but_not (but_not (is_unicode_text_object_v z t) (is_unicode_text_object_view_v t)) (decays_to_pointer t).

(** TT 225-231 *)
Definition is_writable_text_object_v (z : sizes) (t : ty) : option bool :=
  either (is_writable_unicode_text_object_v z t) (is_writable_string_v z Char t).

(** TT 233-239 *)
Definition is_text_object_v (z : sizes) (t : ty) : option bool :=
  either (is_unicode_text_object_v z t) (is_string_v z Char t).

(** TT 241-247 *)
Definition is_text_object_view_v (t : ty) : bool :=
  is_unicode_text_object_view_v t || same (remove_cv t) (View plain Char).

(** TT 249-255 *)
Definition is_writable_raii_text_object_v (z : sizes) (t : ty) : option bool :=
  but_not (is_writable_text_object_v z t) (decays_to_pointer t).

(** TT 257-264 *)
Definition is_raii_text_object_v (z : sizes) (t : ty) : option bool :=
  but_not (but_not (is_text_object_v z t) (is_text_object_view_v t)) (decays_to_pointer t).

(* ------------------------------------------------------------- overloads *)

(** Ranks of implicit conversions, from C++: exact match, promotion, conversion,
    user-defined conversion.  No code of /repo: rules of C++. *)
Inductive rank : Type := Exact | Promotion | Conversion | UserDefined.

(** No code of /repo: the order of the ranks *)
Definition rank_number (r : rank) : N :=
  match r with Exact => 0 | Promotion => 1 | Conversion => 2 | UserDefined => 3 end.

(** The parameters of the functions below.  text_output_stream.hpp 275-552, text_input_stream.hpp
    293-394, algorithms.hpp 71-295. *)
Inductive param : Type :=
| ByValue (f : fundamental)       (* char, char32_t, bool *)
| ConstPointer (u : unit_type)    (* const u* *)
| ConstView (u : unit_type)       (* const view&, or view by value *)
| ConstText (u : unit_type)       (* const string& *)
| AnyIntegral                     (* std::integral T, by value *)
| AnyFloating                     (* std::floating_point T, by value *)
| FlushMark.                      (* flush_t *)

(** std::integral, used in text_input_stream.hpp 368, text_output_stream.hpp 524 *)
Definition is_integral (f : fundamental) : bool :=
  match f with Bool | Unit _ | Integer _ => true | _ => false end.

(** std::floating_point, used in text_input_stream.hpp 388, text_output_stream.hpp 544 *)
Definition is_floating (f : fundamental) : bool := match f with Floating _ => true | _ => false end.

(** No code of /repo: whether the type is this unit type *)
Definition is_unit (f : fundamental) (u : unit_type) : bool :=
  if fundamental_eq_dec f (Unit u) then true else false.

(** Is an lvalue of type t, after decay, a pointer that converts to const u*?.  No code of /repo:
    rules of C++ for conversions. *)
Definition points_to_units (t : ty) (u : unit_type) : bool :=
  match t with
  | Pointer _ (Basic q f) | Array (Basic q f) _ | OpenArray (Basic q f) => negb (is_volatile q) && is_unit f u
  | _ => false
  end.

(** The conversion of an lvalue of type t (not a reference) to a parameter.  Left out:
    classes with conversion functions, classes derived from strings, the constant 0 as
    a null pointer (an integral parameter always fits better). *)
Definition converts (t : ty) (p : param) : option rank :=
  match p with
  | ByValue f =>
      match t with
      | Basic _ g =>
          if fundamental_eq_dec g f then Some Exact
          else if is_integral g || is_floating g then Some Conversion else None
      | Enum _ false fixed _ =>
          match fixed with
          | Some g => if fundamental_eq_dec g f then Some Promotion else Some Conversion
          | None => Some Conversion
          end
      | Pointer _ _ | MemberPointer _ _ | Array _ _ | OpenArray _ | Function _ =>
          match f with Bool => Some Conversion | _ => None end
      | _ => None
      end
  | ConstPointer u =>
      match t with
      | Basic _ NullPtr => Some Conversion
      | _ => if points_to_units t u then Some Exact else None
      end
  | ConstView u =>
      match t with
      | View q u' => if negb (is_volatile q) && is_unit (Unit u') u then Some Exact else None
      | Text q u' => if negb (is_volatile q) && is_unit (Unit u') u then Some UserDefined else None
      | Basic _ NullPtr => Some UserDefined
      | _ => if points_to_units t u then Some UserDefined else None
      end
  | ConstText u =>
      match t with
      | Text q u' => if negb (is_volatile q) && is_unit (Unit u') u then Some Exact else None
      | Basic _ NullPtr => Some UserDefined
      | _ => if points_to_units t u then Some UserDefined else None
      end
  | AnyIntegral => match t with Basic _ f => if is_integral f then Some Exact else None | _ => None end
  | AnyFloating => match t with Basic _ f => if is_floating f then Some Exact else None | _ => None end
  | FlushMark => match t with Enum _ true None 0 => Some Exact | _ => None end    (* io/general.hpp 31 *)
  end.

Definition generic (p : param) : bool := match p with AnyIntegral | AnyFloating => true | _ => false end.

(** The better of two viable functions has the better conversion; with the same rank,
    a function whose parameter is not deduced is the more specialized one.  No code of /repo: rules
    of C++ for overload resolution. *)
Definition weight (r : rank) (p : param) : N := 2 * rank_number r + (if generic p then 1 else 0).

(** No code of /repo: the result of overload resolution *)
Inductive choice (A : Type) : Type :=
| Calls (a : A)
| Ambiguous
| NoMatch.
Arguments Calls {A} _.
Arguments Ambiguous {A}.
Arguments NoMatch {A}.

(** The viable functions with their weights, and the choice among them.  No code of /repo: rules of
    C++ for overload resolution. *)
Definition viable {A : Type} (t : ty) (l : list (param * A)) : list (N * A) :=
  flat_map (fun '(p, a) => match converts t p with Some r => [(weight r p, a)] | None => [] end) l.

(** No code of /repo: the only function with the least weight, if there is one *)
Definition best {A : Type} (l : list (N * A)) : choice A :=
  let least := fold_right (fun '(w, _) m => N.min w m) 1000 l in
  match filter (fun '(w, _) => w =? least) l with
  | [] => NoMatch
  | [(_, a)] => Calls a
  | _ => Ambiguous
  end.

(** No code of /repo: overload resolution *)
Definition resolve {A : Type} (l : list (param * A)) (t : ty) : choice A := best (viable t l).

(** text_output_stream.hpp 275-552 with what text_output_stream.ipp shows in each, and
    output_stream.hpp 245-264, where the stream is converted to its base class (nothing
    else takes a flush_t, so that this conversion never matters) *)
Definition output_operators : list (param * showing) :=
  [(ByValue (Unit Char), AsCharacter); (ByValue (Unit Char32), AsCharacter);
   (ConstPointer Char, AsText Char); (ConstView Char, AsText Char);
   (ConstPointer Char8, AsText Char8); (ConstView Char8, AsText Char8);
   (ConstPointer Char16, AsText Char16); (ConstView Char16, AsText Char16);
   (ConstPointer Char32, AsText Char32); (ConstView Char32, AsText Char32);
   (ConstPointer Wide, AsText Wide); (ConstView Wide, AsText Wide);
   (ByValue Bool, AsBool); (AnyIntegral, AsInteger); (AnyFloating, AsFloating);
   (FlushMark, Flushes)].

(** stream << x for an x of type t.  text_output_stream.hpp 275-552. *)
Definition print_choice (t : ty) : choice showing := resolve output_operators t.

(** text_input_stream.hpp 293-394, stream >> x for an lvalue x of type t: all parameters
    are references, so that only exact matches count; char32_t& and bool& are more
    specialized than T&.  The bodies assign to the target (text_input_stream.ipp
    410-520); a volatile string has no clear.  Checking the concept of strings needs
    the size of t, and fails hard without. *)
Definition read_choice (z : sizes) (t : ty) : option (choice reading) :=
  match is_writable_raii_text_object_v z t with
  | None => None
  | Some true =>
      match t with
      | Text q u => if is_volatile q then None else Some (Calls (OneWord u))
      | _ => None
      end
  | Some false =>
      match t with
      | Basic q f =>
          if same t (Basic plain (Unit Char32)) then Some (Calls OneCharacter)
          else if same t (Basic plain Bool) then Some (Calls OneBool)
          else if is_integral f then (if is_const q then None else Some (Calls OneInteger))
          else if is_floating f then (if is_const q then None else Some (Calls OneFloating))
          else Some NoMatch
      | _ => Some NoMatch
      end
  end.

(** algorithms.hpp 71-295: string_size *)
Definition string_size_choice (t : ty) : choice unit_type :=
  resolve (flat_map (fun u => [(ConstText u, u); (ConstView u, u); (ConstPointer u, u)])
    [Char; Char8; Char16; Char32; Wide]) t.

(** by_code_point.hpp 1966-1971, the deduction guides *)
Definition by_code_point_choice (t : ty) : choice unit_type :=
  resolve (map (fun u => (ConstView u, u)) [Char; Char8; Char16; Char32; Wide]) t.

(** The type a parameter [const T&] is deduced to for an argument of type t: T without
    const, for an array the elements without const.  No code of /repo: rules of C++ for deduction. *)
Definition drop_const (t : ty) : ty :=
  match t with
  | Array (Basic q f) n => Array (Basic (Cv false (is_volatile q)) f) n
  | t => requalify (fun q => Cv false (is_volatile q)) t
  end.

(** No code of /repo: the type const T *)
Definition add_const (t : ty) : ty :=
  match t with
  | Array (Basic q f) n => Array (Basic (Cv true (is_volatile q)) f) n
  | t => requalify (fun q => Cv true (is_volatile q)) t
  end.

(** algorithms.ipp 10-60, 210-280 and parsers.ipp 10-110, 238-300: the functions that take
    a text_object measure it with string_size and walk over it with by_code_point *)
Definition takes_text (z : sizes) (t : ty) : option unit_type :=
  let t' := drop_const t in
  match is_text_object_v z t', string_size_choice (add_const t'), by_code_point_choice (add_const t') with
  | Some true, Calls a, Calls b => if unit_eq_dec a b then Some a else None
  | _, _, _ => None
  end.

(** core/type_traits.hpp 54-58: value_type_t *)
Definition value_type (t : ty) : option (cv * unit_type) :=
  match t with
  | Text q u => if is_volatile q then None else Some (plain, u)
  | View q u => if is_volatile q then None else Some (constant, u)
  | Array (Basic q (Unit u)) _ => Some (q, u)
  | _ => None
  end.

(** algorithms.ipp 276-300: validate_string returns by_code_point<value_type_t<T>>::
    const_iterator; only by_code_point of the plain units has one. *)
Definition takes_validated_text (z : sizes) (t : ty) : option unit_type :=
  match value_type (drop_const t) with
  | Some (q, u) =>
      if cv_eq_dec q plain then
        match takes_text z t with
        | Some u' => if unit_eq_dec u u' then Some u else None
        | None => None
        end
      else None
  | None => None
  end.
