(** Programs that react to what the user answers, as in the theorem statements. *)
From Coq Require Import NArith ZArith List Bool.
From Verif Require Import Base Integers UnicodeSpec UnicodeModel UnicodeText StreamSpec ResourceModel StreamModel StreamText StdioSpec StdioModel StdioText.
Import ListNotations.
Open Scope Z_scope.

(** A program that uses the standard streams.  What it does after a question may depend
    on the answer: a string of the kind asked for, or one code point. *)
Inductive program : Type :=
| Stop
| SayThen (ch : channel) (k : ukind) (l : list N) (p : program)
| FlushThen (ch : channel) (p : program)
| AskThen (q : question) (k : ukind) (p : list N -> program).

Fixpoint run_program (pl : platform) (native : endian) (fuel : nat) (s : stdio) (p : program) : outcome stdio :=
  match p with
  | Stop => Ok s
  | SayThen ch k x p => bind (say pl native ch k x s) (fun s => run_program pl native fuel s p)
  | FlushThen ch p => bind (out_flush pl ch s) (fun s => run_program pl native fuel s p)
  | AskThen q k p => bind (ask pl native fuel q k s) (fun '(s, a) => run_program pl native fuel s (p a))
  end.

(** The answer a to a question as the program gets it. *)
Definition given (q : question) (k : ukind) (a : list N) : list N :=
  match q with Character => a | _ => units k a end.

(** [conversation p l t rs r]: when the text l is typed, the program p takes the turns t and
    finds the answers rs; r is left of the text. *)
Inductive conversation : program -> list N -> list turn -> list (list N) -> list N -> Prop :=
| Stopped l : conversation Stop l [] [] l
| Said ch k x p l t rs r : conversation p l t rs r -> conversation (SayThen ch k x p) l (Say ch k x :: t) rs r
| Flushed ch p l t rs r : conversation p l t rs r -> conversation (FlushThen ch p) l (Flush ch :: t) rs r
| Asked q k p l a l' t rs r : takes q l a l' -> conversation (p (given q k a)) l' t rs r ->
    conversation (AskThen q k p) l (Ask q k :: t) (a :: rs) r.

(** At every wait for input, all that was said to the standard output before the question
    has been shown, and nothing else. *)
Definition shown_before_waiting (native : byte_order) (t : list turn) (log : list happening) : Prop :=
  forall d1 b d2, log = d1 ++ Waited b :: d2 ->
    exists t1 q k t2, t = t1 ++ Ask q k :: t2 /\
      shown StandardOutput d1 = text_bytes UTF8 native (said StandardOutput t1).
