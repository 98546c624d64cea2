(** What passes between a program and its terminal.  Independent of the model. *)
From Coq Require Import NArith ZArith List Bool.
From Verif Require Import UnicodeSpec.
Import ListNotations.
Open Scope N_scope.

Inductive channel : Type := StandardOutput | StandardError.

Definition same_channel (a b : channel) : bool :=
  match a, b with StandardOutput, StandardOutput | StandardError, StandardError => true | _, _ => false end.

(** Bytes appear on a channel, or the program asks for input: it waits until there
    is some, and is given these bytes. *)
Inductive happening : Type :=
| Shown (c : channel) (b : list N)
| Waited (b : list N).

(** What a channel has shown so far, and what the program was given so far. *)
Definition shown (c : channel) (log : list happening) : list N :=
  flat_map (fun h => match h with Shown c' b => if same_channel c c' then b else [] | Waited _ => [] end) log.
Definition received (log : list happening) : list N :=
  flat_map (fun h => match h with Shown _ _ => [] | Waited b => b end) log.

(** What the terminal (or the file or pipe in its place) has for the program: bytes
    that come together, a failure. *)
Inductive arrival : Type := Arrives (b : list N) | Fails.

Definition typed (l : list arrival) : list N :=
  flat_map (fun a => match a with Arrives b => b | Fails => [] end) l.

(** Bytes come in groups of [unit] bytes, at least one, and there are no failures. *)
Definition proper (unit : Z) (l : list arrival) : Prop :=
  Forall (fun a => match a with Arrives b => b <> [] /\ (unit | Z.of_nat (length b))%Z | Fails => False end) l.

(** What the system does with bytes the program sends. *)
Inductive acceptance : Type := Refused | AtMost (k : Z) | InFull.

(* ------------------------------------------------------------------- bytes *)

(** Calls on the three standard resources.  [Get block n] asks for n bytes, to be put
    at the start of the block. *)
Inductive io_call : Type :=
| Put (c : channel) (d : list N)
| Finish (c : channel)
| Get (block : list N) (n : Z).

(** What the program has sent to a channel. *)
Definition sent (c : channel) (l : list io_call) : list N :=
  flat_map (fun x => match x with Put c' d => if same_channel c c' then d else [] | _ => [] end) l.

(* -------------------------------------------------------------------- text *)

(** What a program asks the user for. *)
Inductive question : Type := Character | Line | Word.

(** The end of a line as typed: LF or CR LF. *)
Definition line_end (e : list N) : Prop := e = [10] \/ e = [13; 10].

(** [takes q l a r]: of the typed text l, the answer to q is a, and r is what is left
    for the next question.  CR LF counts as one character, LF.  A line or word is
    complete only when the line end or white space after it was typed; it is used
    up too. *)
Inductive takes : question -> list N -> list N -> list N -> Prop :=
| TakesCharacter c r : c <> 13 -> takes Character (c :: r) [c] r
| TakesLineEnd r : takes Character (13 :: 10 :: r) [10] r
| TakesLine a e r : line_end e -> ~ In 10 a -> ~ In 13 a -> takes Line (a ++ e ++ r) a r
| TakesWord s w e r : Forall white_space s -> w <> [] -> Forall (fun c => ~ white_space c) w ->
    (line_end e \/ exists c, e = [c] /\ white_space c /\ c <> 13) -> takes Word (s ++ w ++ e ++ r) w r.
