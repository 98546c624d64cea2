(** C147, C148: two file objects on one file. *)
From Coq Require Import NArith ZArith List Bool Lia ZifyBool ZifyNat ZifyN.
From Verif Require Import Base Integers ResourceSpec ResourceModel ResourceText FileSpec FileModel FileText.
From Verif Require Import ResourceLemmas FileLemmas FileLemmas2 FileLemmas3 FileLemmas4 FileLemmas6.
From Verif Require Import SharedSpec SharedLemmas FollowSpec FollowText FollowLemmas FollowLemmas2 TextFileLemmas2.
Import ListNotations.
Open Scope Z_scope.

(** A disk with one file. *)
Definition one_file (l : list N) : world := World (fun q => if N.eqb q 7 then Some l else None) (fun _ => None) 3 [].

(** What both objects are answered, and the file then. *)
Definition answers_and_file (pl : platform) (w : world) (m1 m2 : access_mode) (cap1 cap2 : nat) (cs : list (bool * call))
  : outcome (list (reply answer) * list (reply answer) * option (list N)) :=
  bind (open_both pl w 7 m1 m2 Fail cap1 cap2) (fun '(f, g) =>
  bind (run_two pl (system_of g) f g cs) (fun '(w, _, _, la, lb) => Ok (la, lb, disk w 7%N))).

(* ---------------------------------------------------------------------- C147 *)

(** One object appends to a file and another one reads it: the reader gets the bytes
    of the file, in order.  This is false for requests that are longer than the
    reader's buffer, as C33 and C64: bytes come twice. *)
Theorem C147_followed_refuted : forall pl,
  answers_and_file pl (one_file [1; 2; 3]%N) WriteOnly ReadOnly 0 4
    (follow_calls [Get (repeat 0%N 10) 2; Put [4; 5; 6]%N; Get (repeat 0%N 10) 10])
  = Ok ([Returned (Wrote 3)],
        [Returned (Got [1; 2; 0; 0; 0; 0; 0; 0; 0; 0]%N 2); Returned (Got [3; 1; 2; 3; 4; 5; 6; 0; 0; 0]%N 7)],
        Some [1; 2; 3; 4; 5; 6]%N) /\
  ~ pipe [Get (repeat 0%N 10) 2; Put [4; 5; 6]%N; Get (repeat 0%N 10) 10] [1; 2; 3]%N 3 0 [[1; 2]; [3; 1; 2; 3; 4; 5; 6]]%N.
Proof.
  intros pl. split; [destruct pl; vm_compute; reflexivity|]. intros H.
  destruct (pipe_prefix _ _ _ _ _ H ltac:(lia) ltac:(vm_compute; discriminate)) as (rest & X).
  apply (f_equal (@length N)) in X. cbn in X. lia.
Qed.
Print Assumptions C147_followed_refuted.

(** Whatever the buffers of the two, in every interleaving of writes, flushes and
    reads: every read gives the next bytes of those delivered by then, at least all
    that was there before the last flush; everything is written; the reader's position
    is the number of bytes it got, and it is at the end exactly if it got all that is
    in the file; and after the writer was closed the file has everything written.
    Partial: the system does all it is asked to do; requests and writes fit in one
    transfer, requests in the reader's buffer if it has one (C147_followed_refuted). *)
Theorem C147_followed_partial : forall pl w q l mw mr how wcap rcap cs,
  disk w q = Some l \/ disk w q = None /\ how = Create /\ l = [] -> len l + len (all_put cs) < 2 ^ 63 ->
  obliging w -> Z.of_nat wcap <= chunk_max pl -> Z.of_nat rcap <= chunk_max pl ->
  mode_writes mw = true -> mode_reads mr = true ->
  Forall (moderate (chunk_max pl) (Z.of_nat rcap)) cs ->
  exists f g w' f' g' ds c f'', open_both pl w q mw mr how wcap rcap = Ok (f, g) /\
    run_two pl (system_of g) f g (follow_calls cs) =
      Ok (w', f', g', map Returned (put_answers cs), map Returned (got_each ds (gets cs))) /\
    pipe cs l (len l) 0 ds /\
    file_position pl (in_world w' g') = Ok (len (concat ds)) /\
    disk w' q = Some c /\ file_is_at_end pl (in_world w' g') = Ok (len (concat ds) =? len c) /\
    file_close pl (in_world w' f') = Ok f'' /\ disk_of f'' q = Some (l ++ all_put cs).
Proof.
  intros pl w q l mw mr how wcap rcap cs D L B C1 C2 Mw Mr Mo. pose proof (len_nonneg (all_put cs)).
  destruct (both_open pl w q l mw mr how wcap rcap D ltac:(lia) B C1 C2)
    as (f & g & k1 & k2 & o1 & o2 & E & K1 & K2 & D1 & D2 & N & P1 & P2 & Ob & _).
  assert (F : following pl (Z.of_nat wcap) (Z.of_nat rcap) q mw mr (system_of g) f g l l 0).
  { constructor; try assumption.
    - exact (tail_at_end _ _ _ _ _ _ _ K1 Mw).
    - exists o2, Resting. split; [exact K2|discriminate].
    - exists k1, k2. auto. }
  destruct (follow_step _ _ _ _ _ _ cs _ _ _ _ _ _ (len l) F Mw Mr Mo L ltac:(lia)) as (w' & f' & g' & ds & c & R & Pi & F').
  rewrite Z.add_0_l in F'. destruct (reader_at_end _ _ _ _ _ _ _ _ _ _ _ _ F') as (X1 & X2 & X3).
  destruct F' as [T _ _ _ Ob']. destruct (close_writer _ _ _ _ _ _ _ T Ob') as (f'' & Y1 & Y2 & _).
  exists f, g, w', f', g', ds, c, f''. auto 10.
Qed.
Print Assumptions C147_followed_partial.

Example C147_followed_example : forall pl,
  Forall (moderate (chunk_max pl) 4)
    [Get [0; 0]%N 2; Put [4; 5]%N; Get [0; 0]%N 2; Deliver; Get [0; 0]%N 2; Get [0; 0]%N 2; Put [6; 7; 8; 9]%N; Get [0; 0; 0; 0]%N 4] /\
  answers_and_file pl (one_file [1; 2; 3]%N) WriteOnly ReadAndWrite 3 4 (follow_calls
    [Get [0; 0]%N 2; Put [4; 5]%N; Get [0; 0]%N 2; Deliver; Get [0; 0]%N 2; Get [0; 0]%N 2; Put [6; 7; 8; 9]%N; Get [0; 0; 0; 0]%N 4])
  = Ok ([Returned (Wrote 2); Returned Done; Returned (Wrote 4)],
        [Returned (Got [1; 2]%N 2); Returned (Got [3; 0]%N 1); Returned (Got [4; 5]%N 2); Returned (Got [0; 0]%N 0);
         Returned (Got [6; 7; 8; 9]%N 4)],
        Some [1; 2; 3; 4; 5; 6; 7; 8; 9]%N).
Proof.
  intros pl. split; [|destruct pl; vm_compute; reflexivity].
  repeat (apply Forall_cons); try apply Forall_nil; cbn [moderate]; destruct pl; vm_compute;
    repeat (split; try discriminate); try discriminate; right; discriminate.
Qed.

(** The bytes the reader got are the bytes of the file, in order, none lost and none
    twice; and after a flush a read that asks for enough gives all of them.
    Partial: as C147_followed_partial. *)
Theorem C147_in_order_partial : forall pl w q l mw mr how wcap rcap cs,
  disk w q = Some l \/ disk w q = None /\ how = Create /\ l = [] -> len l + len (all_put cs) < 2 ^ 63 ->
  obliging w -> Z.of_nat wcap <= chunk_max pl -> Z.of_nat rcap <= chunk_max pl ->
  mode_writes mw = true -> mode_reads mr = true ->
  Forall (moderate (chunk_max pl) (Z.of_nat rcap)) cs ->
  exists f g w' f' g' ds rest, open_both pl w q mw mr how wcap rcap = Ok (f, g) /\
    run_two pl (system_of g) f g (follow_calls cs) =
      Ok (w', f', g', map Returned (put_answers cs), map Returned (got_each ds (gets cs))) /\
    l ++ all_put cs = concat ds ++ rest /\
    (forall cs' block n, cs = cs' ++ [Deliver; Get block n] -> len (l ++ all_put cs) <= n -> rest = []).
Proof.
  intros pl w q l mw mr how wcap rcap cs D L B C1 C2 Mw Mr Mo. pose proof (len_nonneg l).
  destruct (C147_followed_partial pl w q l mw mr how wcap rcap cs D L B C1 C2 Mw Mr Mo)
    as (f & g & w' & f' & g' & ds & c & f'' & E & R & P & _).
  destruct (pipe_prefix _ _ _ _ _ P ltac:(lia) ltac:(lia)) as (rest & X). rewrite drop_0 in X.
  exists f, g, w', f', g', ds, rest. split; [exact E|]. split; [exact R|]. split; [exact X|]. intros cs' block n -> N.
  assert (Q : all_put (cs' ++ [Deliver; Get block n]) = all_put cs').
  { unfold all_put. rewrite flat_map_app. cbn [flat_map app]. apply app_nil_r. }
  assert (Y := pipe_all block n cs' l (len l) 0 ds P ltac:(lia) ltac:(lia)). rewrite drop_0 in Y.
  rewrite Q in *. rewrite len_app in N. specialize (Y N). rewrite Y in X.
  symmetry. apply (app_inv_head (concat ds)). now rewrite app_nil_r.
Qed.
Print Assumptions C147_in_order_partial.

(* ---------------------------------------------------------------------- C148 *)

(** What two objects append to one file is all in the file.  This is false: both go
    to the end of the file, and what the second one then writes replaces what the
    first one wrote; with buffers it depends on the order of the flushes. *)
Theorem C148_appended_refuted : forall pl,
  answers_and_file pl (one_file [1]%N) WriteOnly WriteOnly 0 0
    [(true, SetPosition 0 End); (false, SetPosition 0 End); (true, Write [2; 3; 4]%N); (false, Write [5; 6]%N)]
  = Ok ([Returned Done; Returned (Wrote 3)], [Returned Done; Returned (Wrote 2)], Some [1; 5; 6; 4]%N) /\
  answers_and_file pl (one_file [1]%N) WriteOnly WriteOnly 8 8
    [(true, SetPosition 0 End); (true, Write [2; 3; 4]%N); (false, SetPosition 0 End); (false, Write [5; 6]%N);
     (false, Flush); (true, Flush)]
  = Ok ([Returned Done; Returned (Wrote 3); Returned Done], [Returned Done; Returned (Wrote 2); Returned Done],
        Some [1; 2; 3; 4]%N).
Proof. intros pl. split; destruct pl; vm_compute; reflexivity. Qed.
Print Assumptions C148_appended_refuted.

(** In turns, each of which begins with setting the position from the beginning or the
    end and ends with a flush, two objects on one file do what one object does: the
    answers to all calls and the bytes of the file after every turn are those of one
    file used by all calls in that order; whatever the buffers and access modes.  No
    other file changes.
    Partial: the system does all it is asked to do; the calls of a turn are allowed by
    FileSpec (C64); and turns are taken (C148_appended_refuted, C65_one_file_refuted). *)
Theorem C148_turns_partial : forall pl w q l m1 m2 how cap1 cap2 ts,
  disk w q = Some l \/ disk w q = None /\ how = Create /\ l = [] -> len l < 2 ^ 63 ->
  obliging w -> Z.of_nat cap1 <= chunk_max pl -> Z.of_nat cap2 <= chunk_max pl ->
  turns_allowed (chunk_max pl) (Z.of_nat cap1) (Z.of_nat cap2) (Store l 0) ts ->
  Forall (fun t => Forall (fun c => permits (if whose t then m1 else m2) c = true) (turn_calls t)) ts ->
  exists f g w' f' g', open_both pl w q m1 m2 how cap1 cap2 = Ok (f, g) /\
    run_two pl (system_of g) f g (of_turns ts) =
      Ok (w', f', g', map Returned (answers_of true (of_turns ts) (snd (file_calls (Store l 0) (map snd (of_turns ts))))),
                      map Returned (answers_of false (of_turns ts) (snd (file_calls (Store l 0) (map snd (of_turns ts)))))) /\
    disk w' q = Some (bytes (fst (file_calls (Store l 0) (map snd (of_turns ts))))) /\
    (forall x, x <> q -> disk w' x = disk w x).
Proof.
  intros pl w q l m1 m2 how cap1 cap2 ts D L B C1 C2 A Pm.
  destruct (both_open pl w q l m1 m2 how cap1 cap2 D L B C1 C2)
    as (f & g & k1 & k2 & o1 & o2 & E & K1 & K2 & D1 & D2 & N & P1 & P2 & Ob & Ot).
  assert (Q2 := parked_keeps _ _ _ _ _ _ _ _ K2 ltac:(discriminate)). cbn [bytes] in Q2.
  assert (Dq : disk (system_of g) q = Some l) by (destruct Q2 as ((a & [_ Y] & _) & _); exact Y).
  destruct (turns_step pl _ _ q m1 m2 ts _ f g l 0 k1 k2 (parked_keeps _ _ _ _ _ _ _ _ K1 ltac:(discriminate)) Q2 D1 D2 N Ob Dq A Pm)
    as (w' & f' & g' & R & X1 & X2).
  exists f, g, w', f', g'. split; [exact E|]. split; [exact R|]. split; [exact X1|].
  intros x X. rewrite X2, Ot by exact X. reflexivity.
Qed.
Print Assumptions C148_turns_partial.

Example C148_turns_example : forall pl,
  let ts := [Turn true 0 End [Write [2; 3]%N]; Turn false 1 Begin [Read [0; 0; 0; 0]%N 4];
             Turn true 0 Begin [Write [9]%N; Write [8]%N]; Turn false (-3) End [Read [0; 0]%N 2];
             Turn false 0 End [Write [7]%N]] in
  turns_allowed (chunk_max pl) 4 8 (Store [1]%N 0) ts /\
  Forall (fun t => Forall (fun c => permits (if whose t then WriteOnly else ReadAndWrite) c = true) (turn_calls t)) ts /\
  answers_and_file pl (one_file [1]%N) WriteOnly ReadAndWrite 4 8 (of_turns ts)
  = Ok (map Returned [Done; Wrote 2; Done; Done; Wrote 1; Wrote 1; Done],
        map Returned [Done; Got [2; 3; 0; 0]%N 2; Done; Done; Got [9; 8]%N 2; Done; Done; Wrote 1; Done],
        Some [9; 8; 3; 7]%N).
Proof.
  intros pl ts. split; [|split].
  - destruct pl; vm_compute; repeat (split; try discriminate); right; discriminate.
  - repeat constructor.
  - destruct pl; vm_compute; reflexivity.
Qed.

(** Two objects that append in turns: everything is in the file, in that order.
    Partial: as C148_turns_partial. *)
Theorem C148_appended_partial : forall pl w q l m1 m2 how cap1 cap2 (ts : list (bool * list (list N))),
  disk w q = Some l \/ disk w q = None /\ how = Create /\ l = [] ->
  len l + len (concat (concat (map snd ts))) < 2 ^ 63 ->
  obliging w -> Z.of_nat cap1 <= chunk_max pl -> Z.of_nat cap2 <= chunk_max pl ->
  mode_writes m1 = true -> mode_writes m2 = true ->
  Forall (fun t => Forall (fun d => len d <= chunk_max pl) (snd t)) ts ->
  exists f g w' f' g' la lb, open_both pl w q m1 m2 how cap1 cap2 = Ok (f, g) /\
    run_two pl (system_of g) f g (of_turns (map appending ts)) = Ok (w', f', g', la, lb) /\
    disk w' q = Some (l ++ concat (concat (map snd ts))) /\ (forall x, x <> q -> disk w' x = disk w x).
Proof.
  intros pl w q l m1 m2 how cap1 cap2 ts D L B C1 C2 W1 W2 F.
  assert (One : forall cap ds s p, p <> InReads -> 0 <= at_ s -> at_ s = len (bytes s) -> Forall (fun d => len d <= chunk_max pl) ds ->
    len (bytes s) + len (concat ds) < 2 ^ 63 ->
    all_file_allowed (chunk_max pl) cap s p (map Write ds ++ [Flush]) /\
    fst (file_calls s (map Write ds ++ [Flush])) = Store (bytes s ++ concat ds) (len (bytes s ++ concat ds))).
  { intros cap. induction ds as [|d ds IH]; intros s p P A0 A1 Fd Ld; cbn [map app concat all_file_allowed file_calls file_call] in *.
    - split; [cbn; auto|]. rewrite app_nil_r. destruct s as [b a]. cbn [fst bytes at_] in *. now subst a.
    - inversion Fd as [|? ? F1 F2]; subst. rewrite len_app in Ld. pose proof (len_nonneg d). pose proof (len_nonneg (concat ds)).
      assert (PE : put (bytes s) (at_ s) d = bytes s ++ d) by (rewrite A1; apply put_end).
      destruct (IH (Store (bytes s ++ d) (at_ s + len d)) (next_stage cap p (Write d))) as [X1 X2]; cbn [bytes at_]; try assumption.
      { unfold next_stage. destruct (cap =? 0); discriminate. }
      { lia. } { rewrite len_app. lia. } { rewrite len_app. lia. }
      cbn [fst]. rewrite PE. split; [split; [cbn [file_allowed]; split; [exact P|lia]|exact X1]|].
      cbn [bytes] in X2. rewrite <- app_assoc in X2. destruct (file_calls _ (map Write ds ++ [Flush])) as [s2 l2]. exact X2. }
  assert (All : forall ts s, Forall (fun t => Forall (fun d => len d <= chunk_max pl) (snd t)) ts ->
    len (bytes s) + len (concat (concat (map snd ts))) < 2 ^ 63 ->
    turns_allowed (chunk_max pl) (Z.of_nat cap1) (Z.of_nat cap2) s (map appending ts) /\
    bytes (fst (file_calls s (map snd (of_turns (map appending ts))))) = bytes s ++ concat (concat (map snd ts))).
  { clear - One. induction ts as [|[b ds] ts IH]; intros s F L; [cbn; rewrite app_nil_r; auto|].
    inversion F as [|? ? F1 F2]; subst. cbn [snd] in F1. cbn [map snd concat] in L. rewrite concat_app, len_app in L.
    pose proof (len_nonneg (bytes s)). pose proof (len_nonneg (concat (concat (map snd ts)))). pose proof (len_nonneg (concat ds)).
    destruct (One (if b then Z.of_nat cap1 else Z.of_nat cap2) ds (Store (bytes s) (len (bytes s))) Resting) as [X1 X2]; cbn [bytes at_]; try assumption; try discriminate; try reflexivity; try lia.
    cbn [bytes] in X2.
    assert (E : fst (file_calls s (turn_calls (appending (b, ds)))) = Store (bytes s ++ concat ds) (len (bytes s ++ concat ds))).
    { unfold turn_calls, appending. cbn [fst snd place from uses file_calls file_call file_target]. rewrite Z.add_0_r.
      destruct (file_calls _ (map Write ds ++ [Flush])) as [s2 l2]. exact X2. }
    destruct (IH (Store (bytes s ++ concat ds) (len (bytes s ++ concat ds))) F2) as [Y1 Y2]; [cbn [bytes]; rewrite len_app; lia|].
    cbn [bytes] in Y2. split.
    - cbn [map turns_allowed]. rewrite E. split; [discriminate|]. split; [|exact Y1].
      unfold turn_calls, appending. cbn [fst snd place from uses whose all_file_allowed file_allowed file_call file_target]. rewrite Z.add_0_r.
      split; [split; [lia|discriminate]|].
      replace (next_stage (if b then Z.of_nat cap1 else Z.of_nat cap2) Resting (SetPosition 0 End)) with Resting by (unfold next_stage; now destruct ((if b then Z.of_nat cap1 else Z.of_nat cap2) =? 0)).
      exact X1.
    - cbn [map]. change (of_turns (appending (b, ds) :: map appending ts)) with (map (fun c => (b, c)) (turn_calls (appending (b, ds))) ++ of_turns (map appending ts)).
      rewrite map_app. replace (map snd (map (fun c => (b, c)) (turn_calls (appending (b, ds))))) with (turn_calls (appending (b, ds))) by (rewrite map_map; cbn [snd]; now rewrite map_id).
      rewrite file_calls_both. cbn [fst]. rewrite E, Y2. cbn [snd concat]. rewrite concat_app, app_assoc. reflexivity. }
  pose proof (len_nonneg (concat (concat (map snd ts)))).
  destruct (All ts (Store l 0) F L) as [A1 A2]. cbn [bytes] in A2.
  destruct (C148_turns_partial pl w q l m1 m2 how cap1 cap2 (map appending ts) D ltac:(lia) B C1 C2 A1) as (f & g & w' & f' & g' & E & R & X1 & X2).
  { apply Forall_map, Forall_forall. intros [b ds] _. unfold turn_calls, appending. cbn [fst snd place from uses whose].
    constructor; [reflexivity|]. apply Forall_app. split; [|repeat constructor].
    apply Forall_map, Forall_forall. intros d _. cbn [permits]. now destruct b. }
  do 7 eexists. split; [exact E|]. split; [exact R|]. rewrite A2 in X1. split; [exact X1|exact X2].
Qed.
Print Assumptions C148_appended_partial.

Example C148_appended_example : forall pl,
  answers_and_file pl (one_file [1]%N) WriteOnly ReadAndWrite 4 8
    (of_turns (map appending [(true, [[2; 3]; [4]]); (false, [[5]; [6; 7; 8; 9]; [10]]); (true, [[11]])]%N))
  = Ok (map Returned [Done; Wrote 2; Wrote 1; Done; Done; Wrote 1; Done],
        map Returned [Done; Wrote 1; Wrote 4; Wrote 1; Done],
        Some [1; 2; 3; 4; 5; 6; 7; 8; 9; 10; 11]%N).
Proof. intros pl. destruct pl; vm_compute; reflexivity. Qed.
