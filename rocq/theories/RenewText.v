(** Programs of users that save something in a file, written with the model of files, and what
    they leave.  No code of /repo: it is what a user of the class file writes. *)
From Coq Require Import NArith ZArith List Bool.
From Verif Require Import Base Integers ResourceSpec ResourceModel FileModel FileText CrashModel DiarySpec.
Import ListNotations.
Open Scope Z_scope.

(** A run that opens the file q and writes from its beginning, from the disk d: the disk that
    it leaves.  As [leaves] of DiaryText.v, without going to the end. *)
Inductive saves_as (pl : platform) (q : N) (cap : nat) (d : N -> option (list N)) : run -> (N -> option (list N)) -> Prop :=
| SaveNotBegun : forall cs,                                (* killed before it opened the file *)
    saves_as pl q cap d (Run cs [] false) d
| SaveKilledIn : forall w m cs cs1 c cs2 f f' f'' a b tries d',   (* killed in the call c *)
    disk w = d -> obliging w -> mode_writes m = true -> cs = cs1 ++ c :: cs2 ->
    new_file pl w q m Create cap = Ok f -> run_file pl f cs1 = Ok (f', a) ->
    watched_call pl f' c = Ok (f'', b, tries) -> left_by_kill true (disk_of f') tries d' ->
    saves_as pl q cap d (Run cs cs1 false) d'
| SaveKilledClosing : forall w m cs f f' f'' a tries d',      (* killed while it closed the file *)
    disk w = d -> obliging w -> mode_writes m = true ->
    new_file pl w q m Create cap = Ok f -> run_file pl f cs = Ok (f', a) ->
    watched_close pl f' = Ok (f'', tries) -> left_by_kill true (disk_of f') tries d' ->
    saves_as pl q cap d (Run cs cs false) d'
| SaveEnded : forall w m cs f f' f'' a,                       (* not killed *)
    disk w = d -> obliging w -> mode_writes m = true ->
    new_file pl w q m Create cap = Ok f -> run_file pl f cs = Ok (f', a) ->
    file_close pl f' = Ok f'' ->
    saves_as pl q cap d (Run cs cs true) (disk_of f'').

(** One run after the other; the buffer may be another one each time. *)
Inductive all_save (pl : platform) (q : N) : (N -> option (list N)) -> list (nat * run) -> (N -> option (list N)) -> Prop :=
| NoSave : forall d, all_save pl q d [] d
| NextSave : forall d cap r d1 rs d2, Z.of_nat cap <= chunk_max pl -> saves_as pl q cap d r d1 -> all_save pl q d1 rs d2 ->
    all_save pl q d ((cap, r) :: rs) d2.
