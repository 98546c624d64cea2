(** Model of test functions that use log_info and log_error:
    /repo/api/src/cmp/core/test_module.ipp 136-223, 264-284, 350-418. *)
From Coq Require Import NArith ZArith List Bool Ascii String.
From Verif Require Import Base TestSpec TestModel ReportModel LogSpec.
Import ListNotations.
Open Scope N_scope.

(** What is written: by the module itself (every group of lines ends with std::endl: 191,
    222, 387, 156, 417), to the stream returned by log_info (268-277) and to the one
    returned by log_error (279-288). *)
Inductive emission : Type :=
| Said (ls : list line)
| Info (text : list N) (ended : bool)
| Err (text : list N) (ended : bool).

(** The lines printed by an operation of the module that led from m to m'.  No code of /repo: the
    end of the list of lines of TestModel.v. *)
Definition new_lines (m m' : module) : list line := skipn (List.length (out m)) (out m').

(** A test function and what is written while it runs (TestModel.run_test).  The calls are those of
    test_module.ipp 171-223 and 265-284; the test functions are not in /repo. *)
Fixpoint run_ltest (t : ltest) (m : module) : list emission * outcome (module * bool) :=
  match t with
  | LReturn b => ([], Ok (m, b))
  | LRaise => ([], Terminate)
  | LStartTest n t' =>
      match start_test m n with
      | Ok m' => let '(es, o) := run_ltest t' m' in (Said (new_lines m m') :: es, o)
      | Throw e => ([], Throw e)
      | UB u => ([], UB u)
      | Terminate => ([], Terminate)
      | Diverge => ([], Diverge)
      end
  | LEndStage t' => let '(es, o) := run_ltest t' (end_stage m) in (Said (new_lines m (end_stage m)) :: es, o)
  | LPushMessage x t' => run_ltest t' (push_message m x)
  | LPopMessage k => let '(m, x) := pop_message m in run_ltest (k x) m
  | LClearMessages t' => run_ltest t' (clear_message_queue m)
  | LCountMessages k => run_ltest (k (get_message_count m)) m
  | LogInfo x e t' => let '(es, o) := run_ltest t' m in (Info x e :: es, o)
  | LogError x e t' => let '(es, o) := run_ltest t' m in (Err x e :: es, o)
  end.

(** 147-149 *)
Fixpoint run_lall (ts : list ltest) (m : module) : list emission * outcome module :=
  match ts with
  | [] => ([], Ok m)
  | t :: ts' =>
      let '(es, o) := run_ltest t m in
      match o with
      | Ok (m, b) =>
          match end_test m b with
          | Ok m' => let '(es', o) := run_lall ts' m' in (es ++ Said (new_lines m m') :: es', o)
          | Throw e => (es, Throw e)
          | UB u => (es, UB u)
          | Terminate => (es, Terminate)
          | Diverge => (es, Diverge)
          end
      | Throw e => (es, Throw e)
      | UB u => (es, UB u)
      | Terminate => (es, Terminate)
      | Diverge => (es, Diverge)
      end
  end.

(** 136-169: the totals and the failures are printed at the end *)
Definition run_ltests (ts : list ltest) : list emission * outcome (module * Z) :=
  let '(es, o) := run_lall ts (new_module (map silent ts)) in
  match o with
  | Ok m =>
      let last := TotalsLine (successes m) (N.of_nat (List.length (failed m))) :: map failed_line (failed m) in
      (es ++ [Said last], Ok (print m last, Integers.convert Integers.I32 (Z.of_nat (List.length (failed m)))))
  | Throw e => (es, Throw e)
  | UB u => (es, UB u)
  | Terminate => (es, Terminate)
  | Diverge => (es, Diverge)
  end.

(** A terminal.  std::cout has a buffer, which std::endl empties; std::cerr has none, and is
    tied to std::cout, whose buffer is emptied first.  Gives what is shown, and what is
    left in the buffer.  (A full buffer, which is shown earlier, is left out.).  Used in
    test_module.ipp 154-156, 186-191, 219-222, 271, 282, 361-387, 411-417. *)
Definition emit (st : list (channel * N) * list N) (e : emission) : list (channel * N) * list N :=
  let '(screen, buffer) := st in
  match e with
  | Said ls => (screen ++ on Normal (buffer ++ printed ls), [])
  | Info text true => (screen ++ on Normal (buffer ++ put "info: " ++ text ++ newline), [])
  | Info text false => (screen, buffer ++ put "info: " ++ text)
  | Err text ended =>
      (screen ++ on Normal buffer ++ on Error (put "error: " ++ text ++ (if ended then newline else [])), [])
  end.

(** A test program (ReportModel.test_program) started from a terminal: what that shows at
    the end, and the exit status.  At a normal end std::cout is flushed, at any other
    it is not.  tests/automated/core/test_core_general.cpp 200-204, and the others. *)
Definition log_program (h : host) (ts : list ltest) : list (channel * N) * outcome Z :=
  let '(es, o) := run_ltests ts in
  let '(screen, buffer) := fold_left emit es ([], []) in
  match o with
  | Ok (_, n) => (screen ++ on Normal buffer, Ok (exit_status h n))
  | Throw e => (screen, Throw e)
  | UB u => (screen, UB u)
  | Terminate => (screen, Terminate)
  | Diverge => (screen, Diverge)
  end.
