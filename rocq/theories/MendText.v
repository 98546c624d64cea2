(** Programs of users that add records to a file, written with the model of files, and what they
    leave.  No code of /repo: it is what a user of the class file writes. *)
From Coq Require Import NArith ZArith List Bool.
From Verif Require Import Base Integers ResourceSpec ResourceModel FileModel FileText CrashModel DiarySpec.
Import ListNotations.
Open Scope Z_scope.

(** The calls of a run that finds the file s bytes long: it sets the position to the end (and
    asks for the position, which is s), goes back to the end of the last whole record, and
    writes from there. *)
Definition mends (n s : Z) (cs : list call) : list call := SetPosition 0 End :: SetPosition (s / n * n) Begin :: cs.

(** What the program is told when it asks for the position of the end. *)
Definition told (pl : platform) (f : file) : outcome Z :=
  bind (run_file pl f [SetPosition 0 End]) (fun '(f, _) => file_position pl f).

(** A run, from the disk d: the disk that it leaves.  As [leaves] of DiaryText.v. *)
Inductive mended (pl : platform) (q : N) (n : Z) (cap : nat) (d : N -> option (list N)) : run -> (N -> option (list N)) -> Prop :=
| MendNotBegun : forall cs,                                (* killed before it opened the file *)
    mended pl q n cap d (Run cs [] false) d
| MendKilledIn : forall w m s cs cs1 c cs2 f f' f'' a b tries d',   (* killed in the call c *)
    disk w = d -> obliging w -> mode_writes m = true -> mends n s cs = cs1 ++ c :: cs2 ->
    new_file pl w q m Create cap = Ok f -> told pl f = Ok s -> run_file pl f cs1 = Ok (f', a) ->
    watched_call pl f' c = Ok (f'', b, tries) -> left_by_kill true (disk_of f') tries d' ->
    mended pl q n cap d (Run cs (tl (tl cs1)) false) d'
| MendKilledClosing : forall w m s cs f f' f'' a tries d',      (* killed while it closed the file *)
    disk w = d -> obliging w -> mode_writes m = true ->
    new_file pl w q m Create cap = Ok f -> told pl f = Ok s -> run_file pl f (mends n s cs) = Ok (f', a) ->
    watched_close pl f' = Ok (f'', tries) -> left_by_kill true (disk_of f') tries d' ->
    mended pl q n cap d (Run cs cs false) d'
| MendEnded : forall w m s cs f f' f'' a,                       (* not killed *)
    disk w = d -> obliging w -> mode_writes m = true ->
    new_file pl w q m Create cap = Ok f -> told pl f = Ok s -> run_file pl f (mends n s cs) = Ok (f', a) ->
    file_close pl f' = Ok f'' ->
    mended pl q n cap d (Run cs cs true) (disk_of f'').

(** One run after the other; the buffer may be another one each time. *)
Inductive all_mended (pl : platform) (q : N) (n : Z) : (N -> option (list N)) -> list (nat * run) -> (N -> option (list N)) -> Prop :=
| NoMend : forall d, all_mended pl q n d [] d
| NextMend : forall d cap r d1 rs d2, Z.of_nat cap <= chunk_max pl -> mended pl q n cap d r d1 -> all_mended pl q n d1 rs d2 ->
    all_mended pl q n d ((cap, r) :: rs) d2.
