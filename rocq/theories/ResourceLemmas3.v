(** Sequences of calls. *)
From Coq Require Import NArith ZArith List Bool Lia ZifyBool ZifyNat ZifyN.
From Verif Require Import Base Integers ResourceSpec ResourceModel ResourceText ResourceLemmas ResourceLemmas2.
Import ListNotations.
Open Scope Z_scope.

(** Seeking with nothing pending and the container's position in step. *)
Lemma seek_raw : forall w cap s c b n o, stands_for w cap Neutral s (Resource c b) ->
  0 <= target w s n o <= len (bytes s) ->
  stands_for w cap Neutral (Store (bytes s) (target w s n o)) (Resource (set_position_raw c n (reference o)) b).
Proof.
  intros w cap s c b n o [W E K D A B U I] T. cbn [in_phase inner buf bytes at_] in *.
  destruct I as (I1 & I2 & I3 & I4 & I5 & I6). unfold set_position_raw.
  assert (P : match reference o with
      | FromBegin => n * elem c
      | FromCurrent => position c + n * elem c
      | FromEnd => (size_of (content c) / elem c - n) * elem c
      end = target w s n o).
  { rewrite E, I1, I2. change size_of with len. destruct o; cbn [reference target]; try reflexivity.
    destruct D as [k D]. rewrite D. rewrite Z.div_mul by lia. lia. }
  rewrite P. rewrite convert_I64 by nia.
  apply neutral_intro; cbn [content elem position last_fill bytes at_]; try assumption; reflexivity.
Qed.

(** An absolute seek while reading. *)
Lemma seek_reading : forall w cap s c b n o, stands_for w cap Reading s (Resource c b) -> o <> Current ->
  0 <= target w s n o <= len (bytes s) ->
  stands_for w cap Neutral (Store (bytes s) (target w s n o))
    (Resource (set_position_raw c n (reference o)) (set_read_dirty b true)).
Proof.
  intros w cap s c b n o [W E K D A B U I] O T. cbn [in_phase inner buf bytes at_] in *.
  destruct I as (I1 & I2 & I3 & I4 & _). unfold set_position_raw.
  assert (P : match reference o with
      | FromBegin => n * elem c
      | FromCurrent => position c + n * elem c
      | FromEnd => (size_of (content c) / elem c - n) * elem c
      end = target w s n o).
  { rewrite E, I1. change size_of with len. destruct o; cbn [reference target]; try reflexivity; [congruence|].
    destruct D as [k D]. rewrite D. rewrite Z.div_mul by lia. lia. }
  rewrite P. rewrite convert_I64 by nia.
  apply neutral_intro; cbn [content elem position last_fill bytes at_ read_dirty write_dirty bpos set_read_dirty]; try assumption; reflexivity.
Qed.

Lemma set_read_dirty_neutral : forall w cap s c b, stands_for w cap Neutral s (Resource c b) ->
  set_read_dirty b true = b.
Proof.
  intros w cap s c b [W E K D A B U I]. cbn [in_phase inner buf] in I.
  destruct I as (_ & _ & _ & I4 & _ & I6). destruct b; cbn in *. unfold set_read_dirty. cbn. congruence.
Qed.

Lemma seek_step : forall w cap p s r n o, stands_for w cap p s r ->
  0 <= target w s n o <= len (bytes s) -> (o = Current -> p <> Reading) ->
  exists r', seek_io r n (reference o) = Ok r' /\
    stands_for w cap Neutral (Store (bytes s) (target w s n o)) r'.
Proof.
  intros w cap p s r n o S T C. unfold seek_io.
  destruct (flush_step _ _ _ _ _ S) as (r1 & -> & S1). cbn [bind noexcept]. eexists. split; [reflexivity|].
  destruct r1 as [c b]. cbn [inner buf]. destruct p.
  - rewrite (set_read_dirty_neutral _ _ _ _ _ S1). now apply seek_raw.
  - apply seek_reading; auto. intros ->. now apply C.
  - rewrite (set_read_dirty_neutral _ _ _ _ _ S1). now apply seek_raw.
  - rewrite (set_read_dirty_neutral _ _ _ _ _ S1). now apply seek_raw.
Qed.

Lemma seek_input_step : forall w cap p s r n o, stands_for w cap p s r -> writing p = false ->
  0 <= target w s n o <= len (bytes s) -> (o = Current -> p <> Reading) ->
  stands_for w cap Neutral (Store (bytes s) (target w s n o)) (seek_input r n (reference o)).
Proof.
  intros w cap p s [c b] n o S P T C. unfold seek_input. cbn [inner buf]. destruct p; try discriminate.
  - rewrite (set_read_dirty_neutral _ _ _ _ _ S). now apply seek_raw.
  - apply seek_reading; auto. intros ->. now apply C.
Qed.

Lemma seek_output_step : forall w cap p s r n o, stands_for w cap p s r -> p <> Reading ->
  0 <= target w s n o <= len (bytes s) ->
  exists r', seek_output r n (reference o) = Ok r' /\
    stands_for w cap Neutral (Store (bytes s) (target w s n o)) r'.
Proof.
  intros w cap p s r n o S P T. unfold seek_output.
  destruct (flush_step _ _ _ _ _ S) as (r1 & -> & S1). cbn [bind noexcept]. eexists. split; [reflexivity|].
  destruct r1 as [c b]. cbn [inner buf]. apply seek_raw; [|assumption]. destruct p; congruence.
Qed.

Lemma next_phase_seek : forall cap s p n o, next_phase cap s p (SetPosition n o) = Neutral.
Proof. intros. unfold next_phase. now destruct (cap =? 0). Qed.

Lemma io_step : forall w cap p s r c, stands_for w cap p s r -> allowed w cap s p c ->
  exists r', call_io r c = Ok (r', snd (expected_call w s c)) /\
    stands_for w cap (next_phase cap s p c) (fst (expected_call w s c)) r'.
Proof.
  intros w cap p s r c S A. destruct c as [block n|data| |n o|n|n]; cbn [allowed call_io expected_call fst snd] in *.
  - destruct A as (A1 & A2 & A3). destruct (read_step _ _ _ _ _ block n S A1 A2 A3) as (r' & -> & S').
    cbn [bind]. eexists. split; [reflexivity|]. exact S'.
  - destruct A as (A1 & A2 & A3). destruct (write_step _ _ _ _ _ data S A1 A2 A3) as (r' & -> & S').
    cbn [bind]. eexists. split; [reflexivity|]. exact S'.
  - destruct (flush_step _ _ _ _ _ S) as (r' & -> & S'). cbn [bind]. eexists. split; [reflexivity|].
    unfold next_phase. destruct (cap =? 0) eqn:Z; [|exact S'].
    rewrite (sf_unbuffered _ _ _ _ _ S) in S' by lia. exact S'.
  - destruct A as (A1 & A2). destruct (seek_step _ _ _ _ _ n o S A1 A2) as (r' & -> & S').
    cbn [bind]. eexists. split; [reflexivity|]. now rewrite next_phase_seek.
  - destruct A as (A1 & ->). eexists. split; [reflexivity|]. destruct r as [c b]. cbn [inner buf].
    replace (next_phase cap s Neutral (GoBack n)) with Neutral by (unfold next_phase; now destruct (cap =? 0)).
    unfold go_back. apply (seek_raw _ _ _ _ _ (- n) Current S A1).
  - destruct A as (A1 & ->). eexists. split; [reflexivity|]. destruct r as [c b]. cbn [inner buf].
    replace (next_phase cap s Neutral (GoForward n)) with Neutral by (unfold next_phase; now destruct (cap =? 0)).
    unfold go_forward. apply (seek_raw _ _ _ _ _ n Current S A1).
Qed.

(** The phases of an input resource and of an output resource. *)
Lemma input_phase : forall cap s p c, for_input c = true -> writing p = false ->
  writing (next_phase cap s p c) = false.
Proof. intros cap s p c F P. unfold next_phase. destruct (cap =? 0); [reflexivity|]. destruct c, p; cbn in *; congruence. Qed.

Lemma output_phase : forall cap s p c, for_output c = true -> p <> Reading -> next_phase cap s p c <> Reading.
Proof.
  intros cap s p c F P. unfold next_phase. destruct (cap =? 0); [discriminate|].
  destruct c, p; cbn in *; try congruence. destruct (at_ s =? len (bytes s)); discriminate.
Qed.

Lemma input_step : forall w cap p s r c, stands_for w cap p s r -> allowed w cap s p c ->
  for_input c = true -> writing p = false ->
  exists r', call_input r c = Ok (r', snd (expected_call w s c)) /\
    stands_for w cap (next_phase cap s p c) (fst (expected_call w s c)) r'.
Proof.
  intros w cap p s r c S A F P. destruct c; try discriminate; try exact (io_step _ _ _ _ _ _ S A).
  destruct A as (A1 & A2). cbn [call_input expected_call fst snd]. eexists. split; [reflexivity|].
  rewrite next_phase_seek. eapply seek_input_step; eassumption.
Qed.

Lemma output_step : forall w cap p s r c, stands_for w cap p s r -> allowed w cap s p c ->
  for_output c = true -> p <> Reading ->
  exists r', call_output r c = Ok (r', snd (expected_call w s c)) /\
    stands_for w cap (next_phase cap s p c) (fst (expected_call w s c)) r'.
Proof.
  intros w cap p s r c S A F P. destruct c; try discriminate; try exact (io_step _ _ _ _ _ _ S A).
  destruct A as (A1 & A2). cbn [call_output expected_call fst snd].
  destruct (seek_output_step _ _ _ _ _ n o S P A1) as (r' & -> & S'). cbn [bind]. eexists. split; [reflexivity|].
  now rewrite next_phase_seek.
Qed.

Lemma io_run : forall w cap cs p s r, stands_for w cap p s r -> all_allowed w cap s p cs ->
  exists r', run call_io r cs = Ok (r', snd (expected_calls w s cs)) /\
    stands_for w cap (last_phase w cap s p cs) (fst (expected_calls w s cs)) r'.
Proof.
  intros w cap. induction cs as [|c cs IH]; intros p s r S A.
  - exists r. split; [reflexivity|exact S].
  - destruct A as [A1 A2]. destruct (io_step _ _ _ _ _ _ S A1) as (r1 & E1 & S1).
    destruct (IH _ _ _ S1 A2) as (r2 & E2 & S2). exists r2. cbn [run expected_calls last_phase]. rewrite E1. cbn [bind].
    rewrite E2. cbn [bind]. destruct (expected_call w s c) as [s1 a]. cbn [fst snd] in *.
    destruct (expected_calls w s1 cs) as [s2 l]. cbn [fst snd] in *. split; [reflexivity|exact S2].
Qed.

Lemma input_run : forall w cap cs p s r, stands_for w cap p s r -> all_allowed w cap s p cs ->
  forallb for_input cs = true -> writing p = false ->
  exists r', run call_input r cs = Ok (r', snd (expected_calls w s cs)) /\
    stands_for w cap (last_phase w cap s p cs) (fst (expected_calls w s cs)) r' /\
    writing (last_phase w cap s p cs) = false.
Proof.
  intros w cap. induction cs as [|c cs IH]; intros p s r S A F P.
  - exists r. split; [reflexivity|]. split; [exact S|exact P].
  - destruct A as [A1 A2]. cbn [forallb] in F. apply andb_true_iff in F. destruct F as [F1 F2].
    destruct (input_step _ _ _ _ _ _ S A1 F1 P) as (r1 & E1 & S1).
    destruct (IH _ _ _ S1 A2 F2) as (r2 & E2 & S2 & P2); [now apply input_phase|].
    exists r2. cbn [run expected_calls last_phase]. rewrite E1. cbn [bind].
    rewrite E2. cbn [bind]. destruct (expected_call w s c) as [s1 a]. cbn [fst snd] in *.
    destruct (expected_calls w s1 cs) as [s2 l]. cbn [fst snd] in *. split; [reflexivity|]. split; assumption.
Qed.

Lemma output_run : forall w cap cs p s r, stands_for w cap p s r -> all_allowed w cap s p cs ->
  forallb for_output cs = true -> p <> Reading ->
  exists r', run call_output r cs = Ok (r', snd (expected_calls w s cs)) /\
    stands_for w cap (last_phase w cap s p cs) (fst (expected_calls w s cs)) r' /\
    last_phase w cap s p cs <> Reading.
Proof.
  intros w cap. induction cs as [|c cs IH]; intros p s r S A F P.
  - exists r. split; [reflexivity|]. split; [exact S|exact P].
  - destruct A as [A1 A2]. cbn [forallb] in F. apply andb_true_iff in F. destruct F as [F1 F2].
    destruct (output_step _ _ _ _ _ _ S A1 F1 P) as (r1 & E1 & S1).
    destruct (IH _ _ _ S1 A2 F2) as (r2 & E2 & S2 & P2); [now apply output_phase|].
    exists r2. cbn [run expected_calls last_phase]. rewrite E1. cbn [bind].
    rewrite E2. cbn [bind]. destruct (expected_call w s c) as [s1 a]. cbn [fst snd] in *.
    destruct (expected_calls w s1 cs) as [s2 l]. cbn [fst snd] in *. split; [reflexivity|]. split; assumption.
Qed.

(** The position reported. *)
Lemma position_ok : forall w cap p s r, stands_for w cap p s r -> w = 1 \/ p <> Reading ->
  get_position r = at_ s.
Proof.
  intros w cap p s r [W E K D A B U I] H. unfold get_position. destruct p; cbn [in_phase] in I.
  - lia.
  - destruct H as [->|H]; [|congruence]. lia.
  - lia.
  - lia.
Qed.

Lemma at_end_ok : forall w cap p s r, stands_for w cap p s r -> w = 1 \/ p <> Reading -> p <> Appending ->
  is_at_end r = (at_ s =? len (bytes s)).
Proof.
  intros w cap p s r S H N. unfold is_at_end. rewrite (position_ok _ _ _ _ _ S H).
  destruct S as [W E K D A B U I]. rewrite as_size_pos by lia. f_equal. change size_of with len.
  destruct p; cbn [in_phase] in I; try congruence.
  - f_equal. tauto.
  - f_equal. tauto.
  - destruct I as (_ & _ & _ & I4 & I5 & I6 & I7 & ->). rewrite len_overwrite by lia.
    rewrite len_take by lia. unfold capacity in I4. change size_of with len in I4. lia.
Qed.

Lemma fresh : forall w cap l, 1 <= w -> (w | len l) -> len l * (w + 1) < 2 ^ 63 ->
  stands_for w (Z.of_nat cap) Neutral (Store l 0) (new_resource l w cap).
Proof.
  intros w cap l W D B. pose proof (len_nonneg l).
  assert (C : capacity (new_buffer cap) = Z.of_nat cap)
    by (unfold capacity, size_of, new_buffer; cbn [mem]; now rewrite repeat_length).
  apply neutral_intro; try assumption; try reflexivity. cbn [bytes at_]. lia.
Qed.
