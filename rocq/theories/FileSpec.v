(** What a user expects of a file, in terms of the stores, calls and answers of
    ResourceSpec.v.  Independent of the model. *)
From Coq Require Import NArith ZArith List Bool.
From Verif Require Import ResourceSpec.
Import ListNotations.
Open Scope Z_scope.

Definition zeros (n : Z) : list N := repeat 0%N (Z.to_nat n).

(** The bytes l with d written at p: a gap between the end of l and p is filled with
    zeros. *)
Definition put (l : list N) (p : Z) (d : list N) : list N :=
  match d with
  | [] => l
  | _ => take p l ++ zeros (p - len l) ++ d ++ drop (p + len d) l
  end.

(** Where a seek leads.  A positive distance from the end is behind the end. *)
Definition file_target (s : store) (n : Z) (o : origin) : Z :=
  match o with
  | Begin => n
  | Current => at_ s + n
  | End => len (bytes s) + n
  end.

(** The expected effect of one call on a file. *)
Definition file_call (s : store) (c : call) : store * answer :=
  match c with
  | Read block n =>
      let d := next_bytes s n in
      (Store (bytes s) (at_ s + len d), Got (d ++ drop (len d) block) (len d))
  | Write data => (Store (put (bytes s) (at_ s) data) (at_ s + len data), Wrote (len data))
  | Flush => (s, Done)
  | SetPosition n o => (Store (bytes s) (file_target s n o), Done)
  | GoBack n => (Store (bytes s) (file_target s (- n) Current), Done)
  | GoForward n => (Store (bytes s) (file_target s n Current), Done)
  end.

Fixpoint file_calls (s : store) (cs : list call) : store * list answer :=
  match cs with
  | [] => (s, [])
  | c :: cs =>
      let '(s, a) := file_call s c in
      let '(s, l) := file_calls s cs in
      (s, a :: l)
  end.

(** What a file is in the middle of. *)
Inductive stage : Type :=
| Resting     (* nothing since it was opened, since a seek, or since a flush after writes *)
| InReads
| InWrites.

Definition next_stage (cap : Z) (p : stage) (c : call) : stage :=
  if cap =? 0 then Resting else
  match c with
  | Read _ _ => InReads
  | Write _ => InWrites
  | Flush => match p with InReads => InReads | _ => Resting end
  | SetPosition _ _ => Resting
  | GoBack _ | GoForward _ => p
  end.

(** A way of using a file with a buffer of [cap] bytes, when at most [most] bytes can
    be transferred at once:
    - reads of at most [cap] bytes if there is a buffer, to blocks that are large
      enough, not in the middle of writes;
    - writes not in the middle of reads;
    - seeks to places not before the beginning, relative to the current position only
      if not in the middle of reads;
    - go_back and go_forward in neither.
    Positions and sizes stay below 2^63. *)
Definition file_allowed (most cap : Z) (s : store) (p : stage) (c : call) : Prop :=
  match c with
  | Read block n => 0 <= n <= len block /\ n <= most /\ (cap = 0 \/ n <= cap) /\ p <> InWrites
  | Write data => p <> InReads /\ len data <= most /\ at_ s + len data < 2 ^ 63
  | Flush => True
  | SetPosition n o => 0 <= file_target s n o < 2 ^ 63 /\ (o = Current -> p <> InReads)
  | GoBack n => 0 <= file_target s (- n) Current < 2 ^ 63 /\ p = Resting
  | GoForward n => 0 <= file_target s n Current < 2 ^ 63 /\ p = Resting
  end.

Fixpoint all_file_allowed (most cap : Z) (s : store) (p : stage) (cs : list call) : Prop :=
  match cs with
  | [] => True
  | c :: cs =>
      file_allowed most cap s p c /\
      all_file_allowed most cap (fst (file_call s c)) (next_stage cap p c) cs
  end.

Fixpoint last_stage (cap : Z) (p : stage) (cs : list call) : stage :=
  match cs with
  | [] => p
  | c :: cs => last_stage cap (next_stage cap p c) cs
  end.
