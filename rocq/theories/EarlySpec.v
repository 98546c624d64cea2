(** A reader that does not wait for the writer (C166). *)
From Coq Require Import NArith List.
From Verif Require Import Base RecoverSpec TextFileSpec.
Import ListNotations.
Open Scope N_scope.

(** What the two do: text is written, what was written is flushed, or the reader tries to
    read a character. *)
Inductive deed : Type := Says (l : list N) | Flushes | Tries.

(** [patient sure unread deeds events rest]: unread has been written and not been read, at
    least the first sure characters of it can be read.  Then a try gets the next
    character.  Otherwise it gets the next character or fails, because it is too
    early, and then nothing is lost. *)
Inductive patient : nat -> list N -> list deed -> list event -> list N -> Prop :=
| PatientEnd sure unread : patient sure unread [] [] unread
| PatientSays sure unread l deeds events rest : patient sure (unread ++ lf_text l) deeds events rest ->
    patient sure unread (Says l :: deeds) events rest
| PatientFlushes sure unread deeds events rest : patient (length unread) unread deeds events rest ->
    patient sure unread (Flushes :: deeds) events rest
| PatientGets sure c unread deeds events rest : patient (sure - 1) unread deeds events rest ->
    patient sure (c :: unread) (Tries :: deeds) (Got c :: events) rest
| PatientFails unread deeds events rest : patient 0 unread deeds events rest ->
    patient 0 unread (Tries :: deeds) (Failed ReadPastEnd :: events) rest.

(** All that was written can be read at once. *)
Definition at_once (deeds : list deed) : list deed :=
  flat_map (fun d => match d with Says l => [Says l; Flushes] | _ => [d] end) deeds.
