(** Reading the output of a run, for statements. *)
From Coq Require Import NArith List.
From Verif Require Import TestModel.
Import ListNotations.

(** The lines announcing a started test. *)
Definition start_lines (ls : list line) : list (list N * list N) :=
  flat_map (fun l => match l with StartLine i n => [(i, n)] | _ => [] end) ls.
