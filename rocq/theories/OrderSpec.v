(** Both output channels on one screen.  Independent of the model. *)
From Coq Require Import NArith List Bool.
From Verif Require Import StdioSpec.
Import ListNotations.

(** What a terminal shows that both channels go to. *)
Definition screen (log : list happening) : list N :=
  flat_map (fun h => match h with Shown _ b => b | Waited _ => [] end) log.
