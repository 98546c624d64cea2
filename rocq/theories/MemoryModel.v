(** Model of the functions that grow strings, when memory can run out.

    A std::basic_string has units and a capacity, and asks for memory when its units no
    longer fit.  By the C++ standard ([string.require]) a member function of a string that
    throws has no effect on it. *)
From Coq Require Import NArith List Bool Arith.
From Verif Require Import Base UnicodeModel.
Import ListNotations.
Open Scope N_scope.

(** Models no function of /repo: a string and its capacity. *)
Record store : Type := Store { kept : list N; room : nat }.

(** Models no function of /repo: the answers of the allocator to the next requests.  None:
    std::bad_alloc; Some extra: memory for that many units more than asked for.  When the
    list ends, all requests are met. *)
Definition memory : Type := list (option nat).

(** How a call ends.  No code of /repo. *)
Inductive ending (A : Type) : Type :=
| Done (a : A)
| OutOfMemory                 (* std::bad_alloc *)
| Otherwise (x : outcome A).   (* as without limits, but not Ok *)
Arguments Done {A} _.
Arguments OutOfMemory {A}.
Arguments Otherwise {A} _.

(** No code of /repo: how C++ goes on after a call *)
Definition step {A B : Type} (x : store * memory * ending A) (f : store -> memory -> A -> store * memory * ending B)
  : store * memory * ending B :=
  match x with
  | (s, m, Done a) => f s m a
  | (s, m, OutOfMemory) => (s, m, OutOfMemory)
  | (s, m, Otherwise o) => (s, m, Otherwise (bind o (fun _ => Diverge)))
  end.

(** s.reserve(n), also the first half of a member function that adds units: memory is asked
    for only when the capacity is too small.  Called in algorithms.ipp 62-186 through insert. *)
Definition make_room (s : store) (m : memory) (n : nat) : store * memory * ending unit :=
  if Nat.leb n (room s) then (s, m, Done tt)
  else match m with
       | None :: m => (s, m, OutOfMemory)
       | Some extra :: m => (Store (kept s) (n + extra), m, Done tt)
       | [] => (Store (kept s) n, [], Done tt)
       end.

(** s.insert(index, 1, unit): throws std::out_of_range when index > size, and has no effect
    when it throws. *)
Definition store_insert (s : store) (m : memory) (index : nat) (u : N) : store * memory * ending unit :=
  if Nat.ltb (length (kept s)) index then (s, m, Otherwise (Throw OutOfRange))
  else step (make_room s m (length (kept s) + 1)) (fun s m _ =>
       (Store (firstn index (kept s) ++ u :: skipn index (kept s)) (room s), m, Done tt)).

(** algorithms.ipp 62-186 *)
Definition store_insert_code_point (k : ukind) (s : store) (m : memory) (cp : N) (index : nat) : store * memory * ending unit :=
  match k with
  | KChar _ => store_insert s m index (to_char8 cp)
  | K8 =>
    if negb (is_code_point_valid cp) then (s, m, Otherwise (Throw InvalidCodePoint))
    else if fits_in_7_bits cp then store_insert s m index (to_char8 cp)
    else if cp <=? 0x7FF then
      step (store_insert s m index (to_char8 (N.lor (N.shiftr cp 6) 192))) (fun s m _ =>
      store_insert s m (index + 1) (to_char8 (N.lor (N.land cp 63) 128)))
    else if cp <=? 0xFFFF then
      step (store_insert s m index (to_char8 (N.lor (N.shiftr cp 12) 224))) (fun s m _ =>
      step (store_insert s m (index + 1) (to_char8 (N.lor (N.land (N.shiftr cp 6) 63) 128))) (fun s m _ =>
      store_insert s m (index + 2) (to_char8 (N.lor (N.land cp 63) 128))))
    else
      step (store_insert s m index (to_char8 (N.lor (N.shiftr cp 18) 240))) (fun s m _ =>
      step (store_insert s m (index + 1) (to_char8 (N.lor (N.land (N.shiftr cp 12) 63) 128))) (fun s m _ =>
      step (store_insert s m (index + 2) (to_char8 (N.lor (N.land (N.shiftr cp 6) 63) 128))) (fun s m _ =>
      store_insert s m (index + 3) (to_char8 (N.lor (N.land cp 63) 128)))))
  | K16 | KW2 =>
    if negb (is_surrogate cp) && (cp <=? maximum_bmp_code_point) then store_insert s m index (to_char16 cp)
    else
      let cp := to_char32 (cp + 0x100000000 - 0x10000) in
      step (store_insert s m index
              (to_char16 (N.shiftr (N.land 0xFFC00 cp) 10 + leading_surrogate_minimum_value))) (fun s m _ =>
      store_insert s m (index + 1) (to_char16 (N.land 0x3FF cp + trailing_surrogate_minimum_value)))
  | K32 | KW4 => store_insert s m index cp
  end.

(** algorithms.ipp 188-197 *)
Definition store_append_code_point (k : ukind) (s : store) (m : memory) (cp : N) : store * memory * ending unit :=
  store_insert_code_point k s m cp (length (kept s)).

(** algorithms.ipp 220-222: the loop of convert_string from index i *)
Fixpoint store_convert_from (fuel : nat) (ko ki : ukind) (s : list N) (i : nat) (result : store) (m : memory)
  : store * memory * ending unit :=
  match fuel with
  | O => (result, m, Otherwise Diverge)
  | S fuel =>
    if Nat.eqb i (length s) then (result, m, Done tt)
    else match deref ki s i with
         | Ok c =>
           step (store_append_code_point ko result m c) (fun result m _ =>
           match advance ki s i with
           | (i, Ok _) => store_convert_from fuel ko ki s i result m
           | (_, r) => (result, m, Otherwise r)
           end)
         | x => (result, m, Otherwise (bind x (fun _ => Diverge)))
         end
  end.

(** algorithms.ipp 210-224.  small: the capacity of a new string, whose units are in the
    object itself. *)
Definition store_convert_string (small : nat) (ko ki : ukind) (s : list N) (m : memory) : store * memory * ending unit :=
  step (make_room (Store [] small) m (length s)) (fun result m _ => store_convert_from (S (length s)) ko ki s 0 result m).
