(** Model of formatted input from uin whose failure is caught:
    T: /repo/api/src/cmp/io/text_input_stream.ipp

    The outcomes of StreamModel.v drop the state of the stream when an exception is
    thrown; here it is kept. *)
From Coq Require Import NArith ZArith List Bool.
From Verif Require Import Base Integers UnicodeModel NumberModel ResourceModel StreamModel StdioSpec StdioModel RetrySpec.
Import ListNotations.
Open Scope Z_scope.

(** A parser that reports a failure: the target keeps its value, and the stream is where
    reading the word has left it.  text_input_stream.ipp 470-510. *)
Definition caught {A : Type} (s : stdio) (value : A -> reply) (r : outcome A) : outcome (stdio * reply) :=
  match r with
  | Ok x => Ok (s, value x)
  | Throw (ParseFailed _) => Ok (s, Wrong)
  | Throw e => Throw e
  | UB u => UB u
  | Terminate => Terminate
  | Diverge => Diverge
  end.

(** try { uin >> x; } catch (const parse_exception&) {}.  T 470-482 for a bool, T 484-497
    for an integer: the word is read before it is parsed, the target is assigned after. *)
Definition attempt (pl : platform) (native : endian) (fuel : nat) (q : wanted) (s : stdio)
  : outcome (stdio * reply) :=
  bind (read_word native (uin_source pl) fuel K8 (uin pl native s)) (fun '(st, input) =>
  match q with
  | WantNumber t => caught (in_res st) Number (parse_integer K8 t input default_integer_format)
  | WantTruth => caught (in_res st) Truth (parse_bool K8 input default_bool_format)
  end).
