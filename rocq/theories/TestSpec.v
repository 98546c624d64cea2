(** What a test function does, and what a run of tests should report.  Imports
    nothing of the model except the numerals' specification. *)
From Coq Require Import NArith ZArith List Bool.
From Verif Require Import NumeralSpec.
Import ListNotations.
Open Scope N_scope.

(** test_module<T>::message, /repo/api/include/cmp/core/test_module.hpp 161-167 *)
Inductive message : Type :=
| EmptyMessage
| ConstructorCalled
| CopyConstructorCalled
| MoveConstructorCalled
| DestructorCalled.

(** A test function: the calls it makes on its test module, one after the other,
    each of which may depend on the answers so far, and how it ends.  Its name
    strings outlive the module. *)
Inductive test : Type :=
| Return (success : bool)
| Raise                                   (* an exception leaves the function *)
| StartTest (name : list N) (rest : test)
| EndStage (rest : test)
| PushMessage (m : message) (rest : test)
| PopMessage (rest : message -> test)
| ClearMessages (rest : test)
| CountMessages (rest : N -> test).

(** What is announced while a test function runs. *)
Inductive event : Type :=
| Started (name : list N)
| StageEnded.

(** The announcements of a test function run with an empty message queue, and its
    verdict; nothing if it throws. *)
Fixpoint observe (t : test) (queue : list message) : option (list event * bool) :=
  match t with
  | Return b => Some ([], b)
  | Raise => None
  | StartTest n t' =>
      match observe t' queue with Some (es, b) => Some (Started n :: es, b) | None => None end
  | EndStage t' =>
      match observe t' queue with Some (es, b) => Some (StageEnded :: es, b) | None => None end
  | PushMessage m t' => observe t' (queue ++ [m])
  | PopMessage k =>
      match queue with
      | [] => observe (k EmptyMessage) []
      | m :: queue' => observe (k m) queue'
      end
  | ClearMessages t' => observe t' []
  | CountMessages k => observe (k (N.of_nat (length queue) mod 2 ^ 32)) queue
  end.

(** [tests] announce [ess] and end with the verdicts [bs]. *)
Definition observed (tests : list test) (ess : list (list event)) (bs : list bool) : Prop :=
  map (fun t => observe t []) tests = map Some (combine ess bs) /\
  length ess = length tests /\ length bs = length tests.

(** Of everything announced so far: the number of tests started, the name of the
    last one, and the stages ended since. *)
Fixpoint starts (es : list event) : N :=
  match es with
  | [] => 0
  | Started _ :: es' => 1 + starts es'
  | StageEnded :: es' => starts es'
  end.

Fixpoint last_started (default : list N) (es : list event) : list N :=
  match es with
  | [] => default
  | Started n :: es' => last_started n es'
  | StageEnded :: es' => last_started default es'
  end.

Fixpoint stages_since (n : N) (es : list event) : N :=
  match es with
  | [] => n
  | Started _ :: es' => stages_since 0 es'
  | StageEnded :: es' => stages_since (n + 1) es'
  end.

Fixpoint names (es : list event) : list (list N) :=
  match es with
  | [] => []
  | Started n :: es' => n :: names es'
  | StageEnded :: es' => names es'
  end.

(** "<uninitialized>" *)
Definition uninitialized : list N :=
  [60; 117; 110; 105; 110; 105; 116; 105; 97; 108; 105; 122; 101; 100; 62].

(** The failures to report: for every test that returned false the index and name
    of the test started last and the number of the stage after the last ended
    one (both numbers are unsigned shorts). *)
Fixpoint failures (before : list event) (ess : list (list event)) (bs : list bool)
  : list (N * list N * N) :=
  match ess, bs with
  | es :: ess', b :: bs' =>
      let now := before ++ es in
      (if b then []
       else [(starts now mod 2 ^ 16, last_started uninitialized now,
              (stages_since 0 now + 1) mod 2 ^ 16)])
      ++ failures now ess' bs'
  | _, _ => []
  end.

Definition count_false (bs : list bool) : N := N.of_nat (length (filter negb bs)).
Definition count_true (bs : list bool) : N := N.of_nat (length (filter (fun b => b) bs)).

(** The decimal digits of n. *)
Definition decimal (n : N) (text : list N) : Prop :=
  exists ds, canonical 10 ds /\ value 10 ds = n /\ text = map digit_char ds.

(** n in decimal, with zeros in front up to width w. *)
Definition padded (w : nat) (n : N) (text : list N) : Prop :=
  exists ds, decimal n ds /\ text = repeat 48 (w - length ds) ++ ds.

(** A queue, as the list of everything ever put in and the number of elements
    taken out. *)
Inductive queue_call : Type :=
| QPush (m : message)
| QPop
| QClear
| QCount.

Inductive queue_answer : Type :=
| APopped (m : message)
| ACount (n : N).

Fixpoint queue_answers (put : list message) (taken : nat) (cs : list queue_call)
  : list queue_answer :=
  match cs with
  | [] => []
  | QPush m :: cs' => queue_answers (put ++ [m]) taken cs'
  | QPop :: cs' =>
      match nth_error put taken with
      | Some m => APopped m :: queue_answers put (S taken) cs'
      | None => APopped EmptyMessage :: queue_answers put taken cs'
      end
  | QClear :: cs' => queue_answers put (length put) cs'
  | QCount :: cs' =>
      ACount (N.of_nat (length put - taken) mod 2 ^ 32) :: queue_answers put taken cs'
  end.

(** The announcements of started tests, each with the text of its index and its
    name: numbered consecutively from [before] + 1, in decimal, w characters wide. *)
Fixpoint announced (w : nat) (before : N) (ns : list (list N)) (lines : list (list N * list N)) : Prop :=
  match ns, lines with
  | [], [] => True
  | n :: ns', (text, n') :: lines' =>
      n' = n /\ padded w (before + 1) text /\ announced w (before + 1) ns' lines'
  | _, _ => False
  end.

(** The usual test function: it starts one test, ends some stages and returns. *)
Record plain : Type := Plain { plain_name : list N; plain_stages : nat; plain_success : bool }.

Definition is_plain (t : test) (p : plain) : Prop :=
  observe t [] = Some (Started (plain_name p) :: repeat StageEnded (plain_stages p), plain_success p).

(** Their failures, numbered from [i]. *)
Fixpoint plain_failures (i : N) (ps : list plain) : list (N * list N * N) :=
  match ps with
  | [] => []
  | p :: ps' =>
      (if plain_success p then [] else [(i, plain_name p, N.of_nat (plain_stages p) + 1)])
      ++ plain_failures (i + 1) ps'
  end.
