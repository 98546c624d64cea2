(** Calls of the operating system in the model of files. *)
From Coq Require Import NArith ZArith List Bool.
From Verif Require Import Base Integers ResourceSpec ResourceModel FileModel.
Import ListNotations.
Open Scope Z_scope.

(** The system has a script of how it will respond (FileModel.v), and every call of
    read, write (ReadFile, WriteFile) or open uses up one response.  So if the script was
    long enough, this is the number of calls made from w to w'. *)
Definition used (w w' : world) : Z := Z.of_nat (length (script w)) - Z.of_nat (length (script w')).
