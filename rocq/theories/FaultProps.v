(** Theorems C108-C110: resources and streams on devices that fail. *)
From Coq Require Import NArith ZArith List Bool Lia.
From Coq Require Import ZifyBool ZifyNat ZifyN.
From Verif Require Import Base Integers ResourceModel FaultSpec FaultModel FaultText FaultLemmas.
Import ListNotations.
Open Scope Z_scope.
Ltac Zify.zify_post_hook ::= idtac.

(* ------------------------------------------------------------------- C108 *)

(** C108, for every device that takes all of a write or throws and takes nothing: after any
    writes and flushes, some of which threw, what the device holds and what waits in the
    buffer are exactly the bytes of the writes that returned; a flush that returns has
    brought all of them to the device, and one that throws has brought none. *)
Theorem C108_kept : forall (S : Type) (d : device S) good bytes limit, all_or_nothing d good bytes limit ->
  forall s cap cs, good s -> Z.of_nat (length (bytes s ++ all_data cs)) < limit ->
  exists r l waits, history d cs (start s cap) = Some (r, l) /\ map fst l = cs /\
    bytes (inner r) ++ waits = bytes s ++ accepted l /\ (length waits <= cap)%nat /\
    match fault_flush d r with
    | (r', Returned _) => bytes (inner r') = bytes s ++ accepted l
    | (r', Raised) => bytes (inner r') = bytes (inner r)
    | _ => False
    end.
Proof.
  intros S d good bytes limit D s cap cs G L.
  rewrite app_length in L.
  destruct (history_kept S d good bytes limit (Z.of_nat cap) D cs (start s cap) G (fresh_buffer cap)) as (r & l & E & M & G' & B' & C & L').
  { change (waiting (buf (start s cap))) with (@nil N). change (size_of []) with 0. unfold size_of. cbn [start inner]. lia. }
  change (waiting (buf (start s cap))) with (@nil N) in C. cbn [start inner] in C. rewrite app_nil_r in C.
  exists r, l, (waiting (buf r)). split; [exact E|]. split; [exact M|]. split; [exact C|]. split.
  - pose proof (waiting_size _ _ B') as W. unfold size_of in W. lia.
  - rewrite size_app in L'. pose proof (flush_fault S d good bytes limit _ r D G' B' L') as F.
    destruct (fault_flush d r) as [r' [u| | |]]; try contradiction; [|apply F].
    destruct F as (_ & _ & F & _). rewrite F, C. reflexivity.
Qed.
Print Assumptions C108_kept.

(** The devices of the theorem: one that fails as a list says, and a container of bytes
    with too little memory, written to at its end. *)
Example C108_recording_example : all_or_nothing recording (fun _ => True) taken 1000 /\
  Z.of_nat (length (taken (Recorder [] [false; true]) ++ all_data [Write [1; 2]; Write [3; 4; 5]; Write [6]; Flush]%N)) < 1000 /\
  exists r, history recording [Write [1; 2]; Write [3; 4; 5]; Write [6]; Flush]%N (start (Recorder [] [false; true]) 4)
    = Some (r, [(Write [1; 2], Returns); (Write [3; 4; 5], Raises); (Write [6], Returns); (Flush, Returns)]%N) /\
  taken (inner r) = [1; 2; 6]%N.
Proof. split; [apply recording_keeps|]. split; [cbn; lia|]. eexists. split; vm_compute; reflexivity. Qed.

Theorem C108_container : forall memory l cap cs, Z.of_nat (length (l ++ all_data cs)) < 2 ^ 63 ->
  exists r h waits, history growing_container cs (start (Growing (Container l 1 (size_of l) 0) memory) cap) = Some (r, h) /\
    map fst h = cs /\ content (inside (inner r)) ++ waits = l ++ accepted h /\ (length waits <= cap)%nat /\
    match fault_flush growing_container r with
    | (r', Returned _) => content (inside (inner r')) = l ++ accepted h
    | (r', Raised) => content (inside (inner r')) = content (inside (inner r))
    | _ => False
    end.
Proof.
  intros memory l cap cs L.
  exact (C108_kept _ growing_container _ _ _ growing_keeps (Growing (Container l 1 (size_of l) 0) memory) cap cs (conj eq_refl eq_refl) L).
Qed.
Print Assumptions C108_container.
Example C108_container_example :
  Z.of_nat (length ([9; 9] ++ all_data [Write [1; 2]; Write [3; 4; 5]; Flush; Flush])%N) < 2 ^ 63 /\
  exists r, history growing_container [Write [1; 2]; Write [3; 4; 5]; Flush; Flush]%N
      (start (Growing (Container [9; 9]%N 1 2 0) [true; false]) 4)
    = Some (r, [(Write [1; 2], Returns); (Write [3; 4; 5], Returns); (Flush, Raises); (Flush, Returns)]%N) /\
  content (inside (inner r)) = [9; 9; 1; 2; 3; 4; 5]%N.
Proof. split; [cbn; lia|]. eexists. split; vm_compute; reflexivity. Qed.

(** The calls of C108 are those of the resources of C28-C39: where no device fails, they do
    the same. *)
Theorem C108_same_calls : forall (S : Type) (ops : raw S) r data,
  (forall r' k, write ops r data = Ok (r', k) -> fault_write (unfailing ops) r data = (r', Returned k)) /\
  (forall r', flush ops r = Ok r' -> fault_flush (unfailing ops) r = (r', Returned tt)).
Proof. intros S ops r data. split; [intros r' k; apply unfailing_write|intros r'; apply unfailing_flush]. Qed.
Print Assumptions C108_same_calls.
Example C108_same_calls_example : exists r',
  write container_ops (start (Container [] 1 0 0) 2) [1; 2; 3]%N = Ok (r', 3) /\ content (inner r') = [1; 2; 3]%N.
Proof. eexists. split; vm_compute; reflexivity. Qed.

(* ------------------------------------------------------------------- C109 *)

(** C109 is false: a read that spans the buffer consumes what the buffer holds before it
    asks the device; when the device fails then, the bytes are gone.  The device gives 1, 2,
    3, 4 and fails once; the program gets 1, an exception, 3 and 4. *)
Theorem C109_kept_refuted :
  ~ (forall content plays cap ns r l, Forall (fun n => 0 <= n) ns ->
       reading playing ns (start (Tape content plays) cap) = Some (r, l) -> exists rest, content = given l ++ rest).
Proof.
  intro H.
  destruct (reading playing [1; 2; 2] (start (Tape [1; 2; 3; 4]%N [true; false]) 2)) as [[r l]|] eqn:E;
    [|revert E; vm_compute; discriminate].
  assert (X : l = [Got [1]; Failed; Got [3; 4]]%N) by (revert E; vm_compute; intro E; injection E as _ <-; reflexivity).
  assert (F : Forall (fun n => 0 <= n) [1; 2; 2]) by (repeat constructor; lia).
  destruct (H [1; 2; 3; 4]%N [true; false] 2%nat [1; 2; 2] r l F E) as (rest & Y). rewrite X in Y. cbn in Y. discriminate.
Qed.
Print Assumptions C109_kept_refuted.

(** Exactly what is kept, for every content, every pattern of failures, every capacity and
    all reads: a read that returns gives the next bytes, as many as asked for or left; a
    read that throws loses fewer bytes than it was asked for, and not more than the buffer
    holds.  Nothing is given twice or out of order. *)
Theorem C109_accounts_partial : forall content plays cap ns, Forall (fun n => 0 <= n) ns ->
  exists r l, reading playing ns (start (Tape content plays) cap) = Some (r, l) /\ accounts (Z.of_nat cap) content ns l.
Proof.
  intros content plays cap ns F. apply (reading_accounts (Z.of_nat cap) ns (start (Tape content plays) cap)).
  - unfold filled_ok, size_of. cbn [start buf new_buffer mem read_dirty]. rewrite repeat_length. split; [reflexivity|discriminate].
  - reflexivity.
  - exact F.
Qed.
Print Assumptions C109_accounts_partial.
Example C109_accounts_example : Forall (fun n => 0 <= n) [1; 2; 2] /\
  accounts 2 [1; 2; 3; 4]%N [1; 2; 2] [Got [1]; Failed; Got [3; 4]]%N.
Proof.
  split; [repeat constructor; lia|]. apply (read_got 2 [1; 2; 3; 4]%N 1). cbn [skipn].
  apply (read_failed 2 [2]%N [3; 4]%N 2); [cbn; lia|right; cbn; lia|]. apply (read_got 2 [3; 4]%N 2). constructor.
Qed.

(** So nothing is lost without a buffer, or when the program reads byte by byte. *)
Theorem C109_kept_partial : forall content plays cap ns, Forall (fun n => 0 <= n) ns ->
  cap = 0%nat \/ Forall (fun n => n <= 1) ns ->
  exists r l rest, reading playing ns (start (Tape content plays) cap) = Some (r, l) /\ content = given l ++ rest.
Proof.
  intros content plays cap ns F H. destruct (C109_accounts_partial content plays cap ns F) as (r & l & E & A).
  destruct (accounts_kept _ _ _ _ A) as (rest & X); [destruct H as [->|H]; [now left|now right]|]. eauto.
Qed.
Print Assumptions C109_kept_partial.
Example C109_kept_example : Forall (fun n => 0 <= n) [1; 1; 1; 1] /\ Forall (fun n => n <= 1) [1; 1; 1; 1] /\
  exists r, reading playing [1; 1; 1; 1] (start (Tape [1; 2; 3]%N [true; false]) 2) = Some (r, [Got [1]; Got [2]; Failed; Got [3]]%N).
Proof. split; [repeat constructor; lia|]. split; [repeat constructor; lia|]. eexists. vm_compute. reflexivity. Qed.

(* ------------------------------------------------------------------- C110 *)

(** C110 is false: the destructor of a stream and set_position must not throw but flush; a
    failing device ends the program there.  A container that cannot grow is such a device. *)
Theorem C110_ends_refuted :
  (exists r l, history growing_container [Write [1; 2]]%N (start (Growing (Container [] 1 0 0) [false]) 4) = Some (r, l) /\
     snd (stream_destructor growing_container r) = Ended /\
     snd (fault_seek r 0 FromBegin) = Ended).
Proof. eexists _, _. split; [vm_compute; reflexivity|]. split; vm_compute; reflexivity. Qed.
Print Assumptions C110_ends_refuted.

(** The program ends only if bytes wait in the buffer and the device does not take them; if
    it goes on, the device holds all that was accepted.  Missing: that it always goes on. *)
Theorem C110_destructor_partial : forall (S : Type) (d : device S) good bytes limit, all_or_nothing d good bytes limit ->
  forall s cap cs, good s -> Z.of_nat (length (bytes s ++ all_data cs)) < limit ->
  exists r l waits, history d cs (start s cap) = Some (r, l) /\ bytes (inner r) ++ waits = bytes s ++ accepted l /\
    match stream_destructor d r with
    | (r', Returned _) => bytes (inner r') = bytes s ++ accepted l
    | (_, Ended) => exists s', device_write d (inner r) waits = (s', Raised)
    | _ => False
    end.
Proof.
  intros S d good bytes limit D s cap cs G L. rewrite app_length in L.
  destruct (history_kept S d good bytes limit (Z.of_nat cap) D cs (start s cap) G (fresh_buffer cap)) as (r & l & E & M & G' & B' & C & L').
  { change (waiting (buf (start s cap))) with (@nil N). change (size_of []) with 0. unfold size_of. cbn [start inner]. lia. }
  change (waiting (buf (start s cap))) with (@nil N) in C. cbn [start inner] in C. rewrite app_nil_r in C.
  exists r, l, (waiting (buf r)). split; [exact E|]. split; [exact C|].
  rewrite size_app in L'. pose proof (flush_fault S d good bytes limit _ r D G' B' L') as F. unfold stream_destructor.
  destruct (fault_flush d r) as [r' [u| | |]] eqn:Fl; try contradiction; cbn [no_throw].
  - destruct F as (_ & _ & F & _). rewrite F, C. reflexivity.
  - destruct B' as (B1 & B2 & B3). unfold fault_flush in Fl. unfold waiting.
    destruct (write_dirty (buf r)); [|discriminate]. rewrite slice_good in Fl by lia. change (Z.to_nat 0) with 0%nat in Fl. cbn [skipn] in Fl.
    destruct (device_write d (inner r) _) as [s' [k| | |]]; try discriminate. eauto.
Qed.
Print Assumptions C110_destructor_partial.
Example C110_destructor_example : all_or_nothing recording (fun _ => True) taken 1000 /\
  exists r l, history recording [Write [1; 2]]%N (start (Recorder [] [true]) 4) = Some (r, l) /\
    snd (stream_destructor recording r) = Returned tt /\ taken (inner (fst (stream_destructor recording r))) = [1; 2]%N.
Proof. split; [apply recording_keeps|]. eexists _, _. split; [vm_compute; reflexivity|]. split; vm_compute; reflexivity. Qed.

(** The same for positions of containers of bytes. *)
Theorem C110_position_partial : forall memory l cap cs new pr, Z.of_nat (length (l ++ all_data cs)) < 2 ^ 63 ->
  exists r h waits, history growing_container cs (start (Growing (Container l 1 (size_of l) 0) memory) cap) = Some (r, h) /\
    content (inside (inner r)) ++ waits = l ++ accepted h /\
    match fault_seek r new pr with
    | (r', Returned _) => content (inside (inner r')) = l ++ accepted h
    | (_, Ended) => waits <> [] /\ exists s', growing_write (inner r) waits = (s', Raised)
    | _ => False
    end.
Proof.
  intros memory l cap cs new pr L.
  assert (Nothing : forall r h s', history growing_container cs (start (Growing (Container l 1 (size_of l) 0) memory) cap) = Some (r, h) ->
    growing_write (inner r) [] = (s', Raised) -> False).
  { intros r h s' E X. unfold growing_write in X.
    destruct (history_kept _ growing_container _ _ _ (Z.of_nat cap) growing_keeps cs (start (Growing (Container l 1 (size_of l) 0) memory) cap)
      (conj eq_refl eq_refl) (fresh_buffer cap)) as (r2 & l2 & E2 & _ & (G1 & G2) & _ & _ & L2).
    { change (waiting (buf (start (Growing (Container l 1 (size_of l) 0) memory) cap))) with (@nil N). change (size_of []) with 0.
      rewrite app_length in L. unfold size_of. cbn [start inner inside content]. lia. }
    rewrite E in E2. injection E2 as <- <-.
    rewrite G2 in X. change (size_of []) with 0 in X. rewrite Z.add_0_r in X.
    rewrite as_size_id in X by apply size_nonneg. rewrite Z.ltb_irrefl in X.
    unfold container_write in X. change (size_of []) with 0 in X. rewrite G2, Z.add_0_r, as_size_id, Z.ltb_irrefl in X by apply size_nonneg.
    rewrite blit_good in X; [discriminate|apply size_nonneg|change (size_of []) with 0; lia]. }
  destruct (C110_destructor_partial _ growing_container _ _ _ growing_keeps (Growing (Container l 1 (size_of l) 0) memory) cap cs
    (conj eq_refl eq_refl) L) as (r & h & waits & E & C & X).
  exists r, h, waits. split; [exact E|]. split; [exact C|]. unfold stream_destructor in X. unfold fault_seek.
  destruct (fault_flush growing_container r) as [r' [u| | |]]; cbn [no_throw next] in *; try exact X;
    cbv beta in C; (split; [|exact X]); intros ->; destruct X as (s' & X); exact (Nothing _ _ _ E X).
Qed.
Print Assumptions C110_position_partial.
Example C110_position_example :
  Z.of_nat (length ([9; 9] ++ all_data [Write [1; 2]])%N) < 2 ^ 63 /\
  exists r h, history growing_container [Write [1; 2]]%N (start (Growing (Container [9; 9]%N 1 2 0) [true]) 4) = Some (r, h) /\
    snd (fault_seek r 0 FromBegin) = Returned tt /\ content (inside (inner (fst (fault_seek r 0 FromBegin)))) = [9; 9; 1; 2]%N.
Proof. split; [cbn; lia|]. eexists _, _. split; [vm_compute; reflexivity|]. split; vm_compute; reflexivity. Qed.
