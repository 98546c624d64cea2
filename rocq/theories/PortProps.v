(** C134: the two implementations of files do the same. *)
From Coq Require Import NArith ZArith List Bool Lia.
From Verif Require Import Base Integers ResourceSpec ResourceModel ResourceText FileSpec FileModel FileText PortText PortLemmas PortLemmas2.
Import ListNotations.
Open Scope Z_scope.

(* --------------------------------------------------------------------- C134 *)

(** C134, the part that holds: a program gives a file object any history of calls on
    Unix-like systems and on Windows, sensible or not, and the operating systems do the same
    (any of their calls may fail, in the same places).  Then the program learns the
    same (the same bytes, numbers, positions and exceptions, the same undefined
    behaviour), and the same files are left behind.  Missing: a position asked of a
    file that is not open ([UB Indeterminate]), negative positions from the
    beginning, transfers of 4 GiB and more, and operating systems that
    read less than they are asked to. *)
Theorem C134_same_partial : forall w p m how cap history,
  whole_or_none w -> Z.of_nat cap < 2 ^ 32 -> Forall portable history ->
  life Windows w p m how cap history <> UB Indeterminate ->
  life UnixLike w p m how cap history = life Windows w p m how cap history.
Proof. exact life_same. Qed.

(** Two files; the second call of the operating system that may fail does. *)
Definition drawer : world :=
  World (fun x => if N.eqb x 1 then Some [1; 2; 3; 4; 5; 6; 7]%N else if N.eqb x 2 then Some [9]%N else None)
    (fun _ => None) 3%N [InFull; Refuse; InFull].

Definition errand : list deed :=
  [Call (Read [0; 0]%N 2); Call (Read [0; 0; 0]%N 3); AskPosition; Call (Write [40]%N); Call (SetPosition 5 Begin); Call (Write [41; 42; 43; 44; 45]%N);
   Call (SetPosition 3 Current); Call (Read [0; 0; 0; 0; 0; 0]%N 6); Call (GoBack 4); AskEnd; AskOpen;
   Open 2 WriteOnly Fail; Call (Read [0]%N 1); Call (Write [50]%N); Close; AskOpen; Open 3 ReadOnly Fail; Open 3 ReadAndWrite Create; Call (Write [60; 61]%N)].

Definition told (x : outcome (list lesson * (N -> option (list N)))) : list lesson :=
  match x with Ok (l, _) => l | _ => [] end.
Definition left_behind (x : outcome (list lesson * (N -> option (list N)))) : N -> option (list N) :=
  match x with Ok (_, d) => d | _ => fun _ => None end.

Example C134_same_case :
  whole_or_none drawer /\ Z.of_nat 4 < 2 ^ 32 /\ Forall portable errand /\
  exists l d, life Windows drawer 1 ReadAndWrite Fail 4 errand = Ok (l, d) /\
    life UnixLike drawer 1 ReadAndWrite Fail 4 errand = Ok (l, d) /\
    d 2%N = Some [50]%N /\ d 3%N = Some [60; 61]%N /\ nth 12 l Nothing = Replied (Threw InvalidAccessMode) /\
    d 1%N = Some [1; 2; 3; 4; 5; 41; 42; 43; 44; 45]%N.
Proof.
  split; [unfold whole_or_none; cbn [drawer script]; auto 10 using Forall_cons, Forall_nil|]. split; [reflexivity|].
  split; [unfold errand; repeat (apply Forall_cons || apply Forall_nil); cbn [portable]; try exact I; try (split; [discriminate|reflexivity]); try reflexivity; discriminate|].
  exists (told (life Windows drawer 1 ReadAndWrite Fail 4 errand)), (left_behind (life Windows drawer 1 ReadAndWrite Fail 4 errand)).
  split; [vm_compute; reflexivity|]. split; [vm_compute; reflexivity|]. vm_compute. repeat split.
Qed.

(** C134 is false: without a file, the position is -1 on Unix-like systems and
    indeterminate on Windows. *)
Theorem C134_no_file_refuted :
  ~ (forall w p m how cap history, whole_or_none w -> Z.of_nat cap < 2 ^ 32 -> Forall portable history ->
     life UnixLike w p m how cap history = life Windows w p m how cap history).
Proof.
  intro H. specialize (H drawer 3%N ReadOnly Fail 4%nat [AskPosition]).
  assert (X : life UnixLike drawer 3 ReadOnly Fail 4 [AskPosition] <> life Windows drawer 3 ReadOnly Fail 4 [AskPosition])
    by (vm_compute; discriminate).
  apply X, H; [unfold whole_or_none; cbn [drawer script]; auto 10 using Forall_cons, Forall_nil|reflexivity|repeat constructor].
Qed.

(** C134 is false of positions before the beginning: Unix-like systems go to the
    beginning, Windows stays where it is. *)
Theorem C134_before_beginning_refuted :
  exists l l' d d', life UnixLike drawer 1 ReadOnly Fail 0 [Call (GoForward 2); Call (SetPosition (-1) Begin); AskPosition] = Ok (l, d) /\
    life Windows drawer 1 ReadOnly Fail 0 [Call (GoForward 2); Call (SetPosition (-1) Begin); AskPosition] = Ok (l', d') /\
    nth 2 l Nothing = Position 0 /\ nth 2 l' Nothing = Position 2.
Proof. do 4 eexists. split; [vm_compute; reflexivity|]. split; [vm_compute; reflexivity|]. now split. Qed.

(** The operating system reads one byte the first time. *)
Definition slow_drawer : world := World (disk drawer) (fun _ => None) 3%N [InFull; AtMost 1].

(** C134 is false of short reads: Unix-like systems read the rest to the start of the
    block again. *)
Theorem C134_short_read_refuted :
  exists l l' d d', life UnixLike slow_drawer 1 ReadOnly Fail 0 [Call (Read [0; 0; 0]%N 3)] = Ok (l, d) /\
    life Windows slow_drawer 1 ReadOnly Fail 0 [Call (Read [0; 0; 0]%N 3)] = Ok (l', d') /\
    l <> l' /\ l' = [Replied (Returned (Got [1; 2; 3]%N 3))].
Proof. do 4 eexists. split; [vm_compute; reflexivity|]. split; [vm_compute; reflexivity|]. split; [discriminate|reflexivity]. Qed.

Print Assumptions C134_same_partial.
Print Assumptions C134_no_file_refuted.
Print Assumptions C134_before_beginning_refuted.
Print Assumptions C134_short_read_refuted.
