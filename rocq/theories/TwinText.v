(** One program on two machines, as in the theorem statements. *)
From Coq Require Import NArith ZArith List Bool.
From Verif Require Import Base Integers UnicodeSpec UnicodeModel UnicodeText StreamSpec ResourceModel StreamModel StreamText StdioSpec StdioModel StdioText
  TalkText TwinSpec.
Import ListNotations.
Open Scope Z_scope.

(** Where a program runs: the platform, the byte order of the machine, how the library is
    built, the capacities of the three buffers, how lines end when they are typed, and in
    which pieces the input arrives. *)
Record machine : Type := Machine {
  m_platform : platform; m_native : byte_order; m_build : build;
  m_in : nat; m_out : nat; m_err : nat; m_style : line_style; m_arrivals : list arrival }.

(** The user at this machine types the text l. *)
Definition typed_there (m : machine) (l : list N) : Prop :=
  proper (unit_of (m_platform m)) (m_arrivals m) /\
  typed (m_arrivals m) = text_bytes (console_encoding (m_platform m)) (m_native m) (keyed (m_style m) l).

(** The buffers are as large as the platform needs them to be, and below 2^32 bytes. *)
Definition buffers_fit (m : machine) : Prop :=
  capacities_fit (m_in m) (m_out m) (m_err m) /\ unit_fits (m_platform m) (m_in m).

(** The program from its start to its end; what it has shown on the standard output and on
    the standard error. *)
Definition whole_run (m : machine) (fuel : nat) (p : program) : outcome (list N * list N) :=
  bind (start_program (m_build m)) (fun _ =>
  bind (run_program (m_platform m) (order_of (m_native m)) fuel
          (new_stdio (patient_console (m_arrivals m)) (m_in m) (m_out m) (m_err m)) p) (fun s =>
  bind (end_program (m_platform m) (m_build m) s) (fun s =>
  Ok (shown StandardOutput (log (os s)), shown StandardError (log (os s)))))).

(** No string the program writes has 2^32 code units or more, whatever the answers of at
    most n code units are. *)
Fixpoint modest (n : nat) (p : program) : Prop :=
  match p with
  | Stop => True
  | SayThen _ k x p => Z.of_nat (length (units k x)) < 2 ^ 32 /\ modest n p
  | FlushThen _ p => modest n p
  | AskThen _ _ p => forall a, (length a <= n)%nat -> modest n (p a)
  end.
