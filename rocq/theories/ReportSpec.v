(** The text a run of tests should print.  Independent of the model. *)
From Coq Require Import NArith List Bool Ascii String.
From Verif Require Import NumeralSpec TestSpec.
Import ListNotations.
Open Scope N_scope.

(** The character codes of a literal. *)
Definition lit (s : string) : list N := map N_of_ascii (list_ascii_of_string s).

(** A line. *)
Definition ln (s : list N) : list N := s ++ [10].

(** [text] is what is announced by [es] after [before]; test numbers are w digits wide. *)
Fixpoint events_text (w : nat) (before es : list event) (text : list N) : Prop :=
  match es with
  | [] => text = []
  | Started name :: es' =>
      exists d rest, padded w (starts before + 1) d /\
      text = ln (lit "Test #" ++ d ++ lit " - '" ++ name ++ lit "' starting.") ++ rest /\
      events_text w (before ++ [Started name]) es' rest
  | StageEnded :: es' =>
      exists k rest, decimal ((stages_since 0 before + 1) mod 2 ^ 16) k /\
      text = ln (lit "Stage " ++ k ++ lit " completed successfully.") ++ rest /\
      events_text w (before ++ [StageEnded]) es' rest
  end.

(** What is printed at the end of a test, when [past] has been announced. *)
Definition end_text (w : nat) (past : list event) (success : bool) (text : list N) : Prop :=
  exists d k, padded w (starts past) d /\ decimal (stages_since 0 past mod 2 ^ 16) k /\
  text = ln (lit "Test #" ++ d ++ lit " - '" ++ last_started uninitialized past ++ lit "' " ++
             lit (if success then "succeeded" else "failed") ++ lit " with " ++ k ++
             lit (if stages_since 0 past mod 2 ^ 16 =? 1 then " successful stage." else " successful stages.")) ++
         ln (repeat 61 (6 + List.length d)).

Fixpoint tests_text (w : nat) (before : list event) (ess : list (list event)) (bs : list bool) (text : list N) : Prop :=
  match ess, bs with
  | [], [] => text = []
  | es :: ess', b :: bs' =>
      exists t1 t2 rest, events_text w before es t1 /\ end_text w (before ++ es) b t2 /\
      text = t1 ++ t2 ++ rest /\ tests_text w (before ++ es) ess' bs' rest
  | _, _ => False
  end.

(** The totals, and a line for each failure. *)
Definition totals_text (successes failures : N) (text : list N) : Prop :=
  exists s f, decimal successes s /\ decimal failures f /\
  text = ln (lit "Successful tests: " ++ s) ++ ln (lit "Failed tests: " ++ f) ++ ln [].

Fixpoint failures_text (fs : list (N * list N * N)) (text : list N) : Prop :=
  match fs with
  | [] => text = []
  | (index, name, stage) :: fs' =>
      exists i k rest, decimal index i /\ decimal stage k /\
      text = ln (lit "Test #" ++ i ++ lit " - '" ++ name ++ lit "' failed on stage " ++ k) ++ rest /\
      failures_text fs' rest
  end.

(** Everything. *)
Definition report_text (w : nat) (ess : list (list event)) (bs : list bool) (text : list N) : Prop :=
  exists t1 t2 t3, tests_text w [] ess bs t1 /\
  totals_text (count_true bs mod 2 ^ 16) (count_false bs) t2 /\
  failures_text (failures [] ess bs) t3 /\ text = t1 ++ t2 ++ t3.

(** A name on one line. *)
Definition one_line (name : list N) : Prop := ~ In 10 name.
