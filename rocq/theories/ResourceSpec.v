(** What a user expects of a seekable byte store, with no buffer in sight.
    Independent of the model. *)
From Coq Require Import NArith ZArith List Bool.
Import ListNotations.
Open Scope Z_scope.

Definition len (l : list N) : Z := Z.of_nat (length l).
Definition take (n : Z) (l : list N) : list N := firstn (Z.to_nat n) l.
Definition drop (n : Z) (l : list N) : list N := skipn (Z.to_nat n) l.

(** Bytes p .. p + len d - 1 of l replaced by d; l is extended when d reaches past
    its end. *)
Definition overwrite (l : list N) (p : Z) (d : list N) : list N :=
  take p l ++ d ++ drop (p + len d) l.

(** A sequence of bytes and a current position in it. *)
Record store : Type := Store { bytes : list N; at_ : Z }.

Inductive origin : Type := Begin | Current | End.

(** Calls on a resource.  [Read block n] reads n bytes to the start of the block. *)
Inductive call : Type :=
| Read (block : list N) (n : Z)
| Write (data : list N)
| Flush
| SetPosition (n : Z) (o : origin)
| GoBack (n : Z)
| GoForward (n : Z).

(** What the caller sees: a block after a read and the reported number of bytes,
    the reported number of bytes written, or nothing. *)
Inductive answer : Type :=
| Got (block : list N) (reported : Z)
| Wrote (reported : Z)
| Done.

(** The next n bytes (or as many as there are). *)
Definition next_bytes (s : store) (n : Z) : list N := take n (drop (at_ s) (bytes s)).

(** Where a seek by n elements of [width] bytes leads. *)
Definition target (width : Z) (s : store) (n : Z) (o : origin) : Z :=
  match o with
  | Begin => n * width
  | Current => at_ s + n * width
  | End => len (bytes s) - n * width
  end.

(** The expected effect of one call. *)
Definition expected_call (width : Z) (s : store) (c : call) : store * answer :=
  match c with
  | Read block n =>
      let d := next_bytes s n in
      (Store (bytes s) (at_ s + len d), Got (d ++ drop (len d) block) (len d))
  | Write data => (Store (overwrite (bytes s) (at_ s) data) (at_ s + len data), Wrote (len data))
  | Flush => (s, Done)
  | SetPosition n o => (Store (bytes s) (target width s n o), Done)
  | GoBack n => (Store (bytes s) (target width s (- n) Current), Done)
  | GoForward n => (Store (bytes s) (target width s n Current), Done)
  end.

Fixpoint expected_calls (width : Z) (s : store) (cs : list call) : store * list answer :=
  match cs with
  | [] => (s, [])
  | c :: cs =>
      let '(s, a) := expected_call width s c in
      let '(s, l) := expected_calls width s cs in
      (s, a :: l)
  end.

(** Consecutive blocks of a sequence. *)
Fixpoint blocks (l : list N) (sizes : list Z) : list (list N) :=
  match sizes with
  | [] => []
  | n :: sizes => take n l :: blocks (drop n l) sizes
  end.

(* ------------------------------------------------------------- discipline *)

(** A way of using a resource of elements of [width] bytes with a buffer of [cap]
    bytes.  What was done since the last seek: *)
Inductive phase : Type :=
| Neutral      (* nothing, or writes followed by a flush *)
| Reading      (* reads *)
| Replacing    (* writes to bytes that exist *)
| Appending.   (* writes to the end *)

Definition neutral (p : phase) : bool := match p with Neutral => true | _ => false end.
Definition reading (p : phase) : bool := match p with Reading => true | _ => false end.

(** The phase after a call.  Without a buffer there are no phases. *)
Definition next_phase (cap : Z) (s : store) (p : phase) (c : call) : phase :=
  if cap =? 0 then Neutral else
  match c with
  | Read _ _ => Reading
  | Write data =>
      match p with
      | Neutral | Reading => if at_ s =? len (bytes s) then Appending else Replacing
      | Replacing | Appending => p
      end
  | Flush => match p with Reading => Reading | _ => Neutral end
  | SetPosition _ _ => Neutral
  | GoBack _ | GoForward _ => p
  end.

(** The calls the discipline allows:
    - a read of at most [cap] bytes if there is a buffer, to a block that is large
      enough, not in the middle of writes;
    - a write, not in the middle of reads, either to existing bytes only or of
      whole elements to the end, and not changing from one to the other;
    - a seek to a place between beginning and end, relative to the current position
      only if not in the middle of reads;
    - go_back and go_forward in neither.
    Sizes stay representable. *)
Definition allowed (width cap : Z) (s : store) (p : phase) (c : call) : Prop :=
  match c with
  | Read block n =>
      0 <= n <= len block /\ (cap = 0 \/ n <= cap) /\ (p = Neutral \/ p = Reading)
  | Write data =>
      let p' := next_phase cap s p c in
      p <> Reading /\
      len (overwrite (bytes s) (at_ s) data) * (width + 1) < 2 ^ 63 /\
      match p' with
      | Replacing => at_ s + len data <= len (bytes s)
      | Appending => (width | len data)
      | _ => at_ s + len data <= len (bytes s) \/ at_ s = len (bytes s) /\ (width | len data)
      end
  | Flush => True
  | SetPosition n o =>
      0 <= target width s n o <= len (bytes s) /\ (o = Current -> p <> Reading)
  | GoBack n => 0 <= target width s (- n) Current <= len (bytes s) /\ p = Neutral
  | GoForward n => 0 <= target width s n Current <= len (bytes s) /\ p = Neutral
  end.

Fixpoint all_allowed (width cap : Z) (s : store) (p : phase) (cs : list call) : Prop :=
  match cs with
  | [] => True
  | c :: cs =>
      allowed width cap s p c /\
      all_allowed width cap (fst (expected_call width s c)) (next_phase cap s p c) cs
  end.

(** What the resource is in the middle of after the calls. *)
Fixpoint last_phase (w cap : Z) (s : store) (p : phase) (cs : list call) : phase :=
  match cs with
  | [] => p
  | c :: cs => last_phase w cap (fst (expected_call w s c)) (next_phase cap s p c) cs
  end.

(** Reads as calls. *)
Definition read_calls (rs : list (list N * Z)) : list call := map (fun '(b, n) => Read b n) rs.

(** Everything written by a sequence of calls. *)
Definition everything (cs : list call) : list N :=
  flat_map (fun c => match c with Write d => d | _ => [] end) cs.

(** A write of whole elements of w bytes, or a flush. *)
Definition write_or_flush (w : Z) (c : call) : Prop :=
  match c with Write d => (w | len d) | Flush => True | _ => False end.

(** What writes report. *)
Definition write_report (c : call) : answer := match c with Write d => Wrote (len d) | _ => Done end.

(** Reads of the given sizes, each to a block that is large enough. *)
Definition large_enough (rs : list (list N * Z)) : Prop := Forall (fun '(b, n) => 0 <= n <= len b) rs.

(** Two ways of using a pair of resources tied together. *)
Inductive tied_call : Type := WriteOut (d : list N) | ReadIn (block : list N) (n : Z).

(** What has been written before each read. *)
Fixpoint delivered (before : list N) (cs : list tied_call) : list (list N) :=
  match cs with
  | [] => []
  | WriteOut d :: cs => delivered (before ++ d) cs
  | ReadIn _ _ :: cs => before :: delivered before cs
  end.

Definition written (cs : list tied_call) : list N :=
  flat_map (fun c => match c with WriteOut d => d | _ => [] end) cs.

Definition reads (cs : list tied_call) : list (list N * Z) :=
  flat_map (fun c => match c with ReadIn b n => [(b, n)] | _ => [] end) cs.
