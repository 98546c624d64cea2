(** Outcomes of C++ calls, shared by all model files.

    This file models no particular C++ function: it fixes the vocabulary in which
    the model files describe what a call can do. *)
From Coq Require Import NArith ZArith List Bool.
Import ListNotations.

(** The kinds of parse failure: /repo/api/include/cmp/unicode/parsers.hpp 140-148
    (enum class parse_failed::type). *)
Inductive parse_failure : Type :=
| EmptyInput
| DigitCharacterExpected
| MultipleSigns
| ThousandsSeparatorMissing
| NegativeUnsigned
| WrongPlaceLimit
| NeitherBoolean.

(** The C++ exceptions the modelled code throws. *)
Inductive exn : Type :=
| InvalidUnicodeEncoding   (* cmp::invalid_unicode_encoding *)
| IteratedPastEnd          (* cmp::iterated_past_end *)
| InvalidCodePoint         (* cmp::invalid_code_point *)
| OutOfRange               (* std::out_of_range, thrown by std::basic_string::insert *)
| InvalidRadix             (* cmp::invalid_radix *)
| ParseFailed (k : parse_failure) (* cmp::parse_failed *)
| ReadPastEnd              (* cmp::read_past_end *)
| InvalidAccessMode.       (* cmp::invalid_access_mode *)

(** Causes of undefined behaviour.  Each is a distinct outcome of the model. *)
Inductive ub_kind : Type :=
| OutOfBoundsRead
| OutOfBoundsWrite
| PointerArithmetic   (* iterator moved outside [begin, end] *)
| SignedOverflow
| DivByZero
| CtypeDomain         (* std::tolower called outside unsigned char / EOF *)
| NoReturn            (* control falls off the end of a non-void function *)
| FloatCast           (* floating value outside the range of the integer type *)
| DanglingPointer
| DerefEnd            (* dereferencing a container's end iterator *)
| UseAfterErase       (* iterator invalidated by erase, then used *)
| Indeterminate.      (* use of a variable that was never given a value *)

(** What a call may do. *)
Inductive outcome (A : Type) : Type :=
| Ok (a : A)
| Throw (e : exn)
| UB (k : ub_kind)
| Terminate           (* an exception left a noexcept function *)
| Diverge.            (* the model's fuel ran out: the loop has not ended *)
Arguments Ok {A} _.
Arguments Throw {A} _.
Arguments UB {A} _.
Arguments Terminate {A}.
Arguments Diverge {A}.

(** Sequencing: anything but normal return stops the caller too. *)
Definition bind {A B : Type} (x : outcome A) (f : A -> outcome B) : outcome B :=
  match x with
  | Ok a => f a
  | Throw e => Throw e
  | UB k => UB k
  | Terminate => Terminate
  | Diverge => Diverge
  end.

(** A noexcept function: an escaping exception calls std::terminate. *)
Definition noexcept {A : Type} (x : outcome A) : outcome A :=
  match x with
  | Throw _ => Terminate
  | y => y
  end.

Definition is_ok {A : Type} (x : outcome A) : bool :=
  match x with Ok _ => true | _ => false end.

(** A call that changes an object [s] and may throw: the object after the call
    and how the call ended. *)
Definition then_ {S A B : Type} (r : S * outcome A) (f : S -> A -> S * outcome B)
  : S * outcome B :=
  match r with
  | (s, Ok a) => f s a
  | (s, Throw e) => (s, Throw e)
  | (s, UB k) => (s, UB k)
  | (s, Terminate) => (s, Terminate)
  | (s, Diverge) => (s, Diverge)
  end.

Declare Scope outcome_scope.
Notation "'do' x <- e1 ; e2" := (bind e1 (fun x => e2))
  (at level 200, x pattern, e1 at level 100, e2 at level 200) : outcome_scope.
