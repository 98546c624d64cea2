(** Programs of users that append to a log, written with the model of files, and what they
    leave.  No code of /repo: it is what a user of the class file writes. *)
From Coq Require Import NArith ZArith List Bool.
From Verif Require Import Base Integers ResourceSpec ResourceModel FileModel FileText CrashModel DiarySpec.
Import ListNotations.
Open Scope Z_scope.

(** The calls of a run: it sets the position to the end, then it logs. *)
Definition appends (cs : list call) : list call := SetPosition 0 End :: cs.

(** A run of a program on the log q, from the disk d: the disk that it leaves.  Each run is a
    new process; other processes may have other files open. *)
Inductive leaves (pl : platform) (q : N) (cap : nat) (d : N -> option (list N)) : run -> (N -> option (list N)) -> Prop :=
| NeverOpened : forall cs,                                (* killed before it opened the file *)
    leaves pl q cap d (Run cs [] false) d
| KilledIn : forall w m cs cs1 c cs2 f f' f'' a b tries d',   (* killed in the call c *)
    disk w = d -> obliging w -> mode_writes m = true -> appends cs = cs1 ++ c :: cs2 ->
    new_file pl w q m Create cap = Ok f -> run_file pl f cs1 = Ok (f', a) ->
    watched_call pl f' c = Ok (f'', b, tries) -> left_by_kill true (disk_of f') tries d' ->
    leaves pl q cap d (Run cs (tl cs1) false) d'
| KilledClosing : forall w m cs f f' f'' a tries d',      (* killed while it closed the file *)
    disk w = d -> obliging w -> mode_writes m = true ->
    new_file pl w q m Create cap = Ok f -> run_file pl f (appends cs) = Ok (f', a) ->
    watched_close pl f' = Ok (f'', tries) -> left_by_kill true (disk_of f') tries d' ->
    leaves pl q cap d (Run cs cs false) d'
| Ended : forall w m cs f f' f'' a,                       (* not killed *)
    disk w = d -> obliging w -> mode_writes m = true ->
    new_file pl w q m Create cap = Ok f -> run_file pl f (appends cs) = Ok (f', a) ->
    file_close pl f' = Ok f'' ->
    leaves pl q cap d (Run cs cs true) (disk_of f'').

(** One run after the other; the buffer may be another one each time. *)
Inductive all_leave (pl : platform) (q : N) : (N -> option (list N)) -> list (nat * run) -> (N -> option (list N)) -> Prop :=
| NoRun : forall d, all_leave pl q d [] d
| NextRun : forall d cap r d1 rs d2, Z.of_nat cap <= chunk_max pl -> leaves pl q cap d r d1 -> all_leave pl q d1 rs d2 ->
    all_leave pl q d ((cap, r) :: rs) d2.

(** The log has the bytes l, or it is not there and l is empty. *)
Definition holds_log (d : N -> option (list N)) (q : N) (l : list N) : Prop := d q = Some l \/ d q = None /\ l = [].
