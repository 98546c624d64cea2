(** Which kinds of strings hold UTF-16, and which hold UTF-8.  Used in theorem statements only. *)
From Verif Require Import UnicodeModel.

Definition is16 (k : ukind) : bool := match k with K16 | KW2 => true | _ => false end.
Definition is8 (k : ukind) : bool := match k with K8 => true | _ => false end.
