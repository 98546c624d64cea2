(** C149: a buffer saves calls of the operating system. *)
From Coq Require Import NArith ZArith List Bool Lia ZifyBool ZifyNat ZifyN.
From Verif Require Import Base Integers ResourceSpec ResourceModel ResourceText FileSpec FileModel FileText.
From Verif Require Import ResourceLemmas FileLemmas FileLemmas2 FileLemmas3 FileLemmas4 FileLemmas5 FileLemmas6.
From Verif Require Import FollowText ThriftSpec ThriftText ThriftLemmas ThriftLemmas2.
Import ListNotations.
Open Scope Z_scope.

(** A disk with one file, and a system that does the next calls as asked to. *)
Definition counted (l : list N) (calls : nat) : world :=
  World (fun q => if N.eqb q 7 then Some l else None) (fun _ => None) 3 (repeat InFull calls).

(** The calls made for reads or writes of an open file, and those until after it was closed. *)
Definition calls_made (pl : platform) (w : world) (m : access_mode) (cap : nat) (cs : list call) : outcome (Z * Z) :=
  bind (new_file pl w 7 m Fail cap) (fun f =>
  bind (run_file pl f cs) (fun '(f', _) =>
  bind (file_close pl f') (fun f'' =>
  Ok (used (system_of f) (system_of f'), used (system_of f) (system_of f''))))).

(** With a buffer there are never more calls of the system than without.  This is
    false: to fill the buffer takes a call after which the end of the file is known, and the read
    that wanted more than there is fills it once more. *)
Theorem C149_never_more_refuted : forall pl,
  calls_made pl (counted [1; 2; 3]%N 10) ReadOnly 4 [Read (repeat 0%N 4) 4] = Ok (3, 3) /\
  calls_made pl (counted [1; 2; 3]%N 10) ReadOnly 0 [Read (repeat 0%N 4) 4] = Ok (2, 2).
Proof. destruct pl; split; vm_compute; reflexivity. Qed.
Print Assumptions C149_never_more_refuted.

(** Output, whatever the system does at each call, and whether the file could be opened
    or not: from opening to closing there are at most as many calls of the system as
    there were writes with something to write; and at most two for each capacity's
    worth of bytes, and one for each flush and for closing.
    Partial: writes and the buffer fit in one transfer; the seeks of the system are
    not counted (there are none for output).  The number of calls is the number of the
    system's responses used up; the bounds are for every list of responses, of any length. *)
Theorem C149_writes_partial : forall pl w q m how cap cs,
  Z.of_nat cap <= chunk_max pl -> Forall output_only cs ->
  Forall (fun c => match c with Write d => len d <= chunk_max pl | _ => True end) cs ->
  exists f f' l f'', new_file pl w q m how cap = Ok f /\ run_file pl f cs = Ok (f', l) /\ file_close pl f' = Ok f'' /\
    0 <= used (system_of f) (system_of f'') <= writes_of cs /\
    used (system_of f) (system_of f'') * Z.of_nat cap <= 2 * amount cs + (flushes_of cs + 1) * Z.of_nat cap.
Proof.
  intros pl w q m how cap cs C Oo Sz. destruct (new_holding pl w q m how cap) as (f & E & Ho & _ & _).
  destruct (output_total pl _ cs f Ho C Oo Sz) as (f' & l & f'' & E1 & E2). exists f, f', l, f''.
  split; [exact E|]. split; [exact E1|]. split; [exact E2|].
  destruct (output_used pl _ cs f f' l Ho C Oo Sz E1) as (Ho' & U1 & U2 & U3). assert (U4 := close_used pl _ f' f'' Ho' C E2).
  unfold system_of. rewrite (used_trans _ (os (inner (res f')))). 
  assert (W0 : waits (res f) = 0 /\ bpos (buf (res f)) = 0).
  { unfold waits. unfold new_file, file_open in E. cbn [is_open res inner descriptor bind os] in E.
    assert (B : buf (res f) = new_buffer cap).
    { destruct how; [destruct (disk w q)|].
      2: { now injection E as <-. }
      all: destruct (sys_open w q _ _ _) as [w' fd]; cbn [bind] in E; now injection E as <-. }
    rewrite B. cbn [new_buffer bpos]. auto. }
  destruct W0 as [W0 B0]. rewrite W0 in U1. rewrite B0 in U2. destruct Ho' as (_ & B & _).
  unfold waits in *. destruct (0 <? bpos (buf (res f'))); split; nia.
Qed.
Print Assumptions C149_writes_partial.

Definition some_writes : list call :=
  [Write [1; 2]%N; Write []; Write [3; 4; 5]%N; Write [6]%N; Flush; Write [7; 8; 9; 10; 11; 12]%N; Write [13]%N; Write [14]%N].

Example C149_writes_example :
  Forall output_only some_writes /\
  Forall (fun c => match c with Write d => len d <= chunk_max Windows | _ => True end) some_writes /\
  writes_of some_writes = 6 /\ amount some_writes = 14 /\ flushes_of some_writes = 1 /\
  calls_made Windows (counted [] 20) WriteOnly 5 some_writes = Ok (3, 4) /\
  calls_made Windows (counted [] 20) WriteOnly 0 some_writes = Ok (6, 6).
Proof.
  split; [repeat constructor|]. split; [repeat constructor; vm_compute; discriminate|].
  repeat (split; [vm_compute; reflexivity|]). vm_compute. reflexivity.
Qed.

(** Two calls for each capacity's worth of bytes can be needed. *)
Example C149_twice :
  calls_made UnixLike (counted [] 20) WriteOnly 4 (repeat (Write [1; 2; 3]%N) 4) = Ok (3, 4).
Proof. vm_compute. reflexivity. Qed.

(** Input from a file with a buffer: what is read is exactly what is there, with at
    most one call for each capacity's worth of bytes that was read, and for each read that wanted
    more than there was, and two more; and at most two more calls than there were reads.
    Partial: the system does all it is asked to do, the reads fit in the buffer (C33, C64)
    and nothing else is done with the file; the seeks of the system are not counted. *)
Theorem C149_reads_partial : forall pl w q l m cap rs,
  disk w q = Some l -> len l < 2 ^ 63 -> obliging w -> mode_reads m = true ->
  (0 < cap)%nat -> Z.of_nat cap <= chunk_max pl -> readable_sizes pl cap rs ->
  exists f f', new_file pl w q m Fail cap = Ok f /\
    run_file pl f (read_calls rs) = Ok (f', map Returned (got_each (blocks l (map snd rs)) rs)) /\
    used (system_of f) (system_of f') * Z.of_nat cap <=
      Z.min (len l) (asked rs) + (short_reads (len l) rs + 2) * Z.of_nat cap /\
    used (system_of f) (system_of f') <= Z.of_nat (length rs) + 2.
Proof.
  intros pl w q l m cap rs D L B M C0 C RS.
  destruct (new_file_opens pl w q l m Fail cap (or_introl D) L B C) as (f & E & Pa & B1 & K).
  assert (NS : no_short_read_on_unix pl (os (inner (res f)))).
  { right. unfold obliging in B1. eapply Forall_impl; [|exact B1]. intros x ->. now left. }
  assert (NF : no_failure (os (inner (res f)))).
  { unfold no_failure. eapply Forall_impl; [|exact B1]. intros x ->. discriminate. }
  destruct (run_reads pl cap q m _ rs Resting (Store l 0) f K M NS RS) as (ds & f' & X1 & X2 & X3 & X4); [discriminate|].
  cbn [bytes at_] in *. rewrite drop_0 in *. rewrite (X4 NF) in X1. exists f, f'. split; [exact E|]. split; [exact X1|].
  destruct K as [[(c & a & O & A & I) Kc Cm At Fi Ot U] Md]. cbn [in_stage bytes at_] in I. destruct I as (I1 & I2 & I3 & I4 & _).
  subst c a. rewrite M in O. unfold system_of. eapply reads_total; try eassumption; try lia.
  - now rewrite Md.
  - eapply Forall_impl; [|exact RS]. intros [b n] (N1 & N2 & N3). lia.
Qed.
Print Assumptions C149_reads_partial.

Definition some_reads : list (list N * Z) := repeat (repeat 0%N 4, 3) 7.

Example C149_reads_example :
  readable_sizes UnixLike 8 some_reads /\ asked some_reads = 21 /\ short_reads 19 some_reads = 1 /\
  calls_made UnixLike (counted (repeat 5%N 19) 30) ReadOnly 8 (read_calls some_reads) = Ok (5, 5) /\
  calls_made UnixLike (counted (repeat 5%N 19) 30) ReadOnly 0 (read_calls some_reads) = Ok (8, 8).
Proof.
  split. { repeat constructor; try (vm_compute; discriminate); right; vm_compute; discriminate. }
  repeat (split; [vm_compute; reflexivity|]). vm_compute. reflexivity.
Qed.
