(** Writes and seeks do what the machine of PenSpec does. *)
From Coq Require Import NArith ZArith List Bool Lia.
From Coq Require Import ZifyBool ZifyNat ZifyN.
From Verif Require Import Base Integers ResourceModel ResourceSpec ResourceText ResourceLemmas ResourceLemmas2 CursorSpec CursorLemmas PenSpec.
Import ListNotations.
Open Scope Z_scope.

(** A resource that stands at a pen. *)
Record at_pen (w cap : Z) (p : pen) (r : resource container) : Prop := {
  ap_elem : elem (inner r) = w;
  ap_cap : capacity (buf r) = cap;
  ap_page : content (inner r) = page p;
  ap_spot : position (inner r) = spot p;
  ap_dirty : write_dirty (buf r) = (match waiting p with Some _ => true | None => false end);
  ap_bpos : bpos (buf r) = len (waits p);
  ap_mem : take (len (waits p)) (mem (buf r)) = waits p;
  ap_fits : len (waits p) <= cap;
  ap_bare : cap = 0 -> waiting p = None }.

Lemma inked_step : forall w p c d, elem c = w -> content c = page p -> position c = spot p ->
  match inked w p d with
  | None => container_write c d = UB OutOfBoundsWrite
  | Some p' => exists c', container_write c d = Ok (c', len d) /\ elem c' = w /\ content c' = page p' /\
                 position c' = spot p' /\ waiting p' = waiting p
  end.
Proof.
  intros w p c d E C P. unfold inked, container_write. rewrite E, C, P. cbv zeta. change size_of with len.
  pose proof (len_nonneg d). pose proof (len_nonneg (page p)). set (s := spot p) in *.
  destruct (0 <=? s) eqn:S; cbn [andb].
  2:{ unfold blit. rewrite S. reflexivity. }
  rewrite as_size_pos by lia.
  set (more := if len (page p) <? s + len d then len d / w * w else 0).
  replace (if len (page p) <? s + len d then page p ++ repeat 0%N (Z.to_nat (len d / w * w)) else page p)
    with (page p ++ repeat 0%N (Z.to_nat more)) by (unfold more; destruct (_ <? _); [reflexivity|apply app_nil_r]).
  assert (L : len (page p ++ repeat 0%N (Z.to_nat more)) = len (page p) + Z.max 0 more).
  { unfold len. rewrite app_length, repeat_length. lia. }
  unfold blit. change size_of with len. rewrite S, L. cbn [andb].
  destruct (s + len d <=? len (page p) + Z.max 0 more) eqn:F; cbn [bind]; [|reflexivity].
  eexists. split; [reflexivity|]. cbn [elem content position page spot waiting]. auto.
Qed.

Lemma flush_step : forall w cap p r, at_pen w cap p r ->
  match delivered_all w p with
  | None => flush container_ops r = UB OutOfBoundsWrite
  | Some p' => exists r', flush container_ops r = Ok r' /\ at_pen w cap p' r' /\ waiting p' = None /\ bpos (buf r') = 0
  end.
Proof.
  intros w cap p r A. destruct A as [E K C P D B M F Z0]. unfold delivered_all, flush. rewrite D.
  unfold waits in *. destruct (waiting p) as [d|] eqn:Wt.
  - assert (L := len_nonneg d). assert (S : slice (mem (buf r)) 0 (bpos (buf r)) = Ok d).
    { unfold slice. change size_of with len. unfold capacity in K. change size_of with len in K. rewrite B.
      replace ((0 <=? 0) && (0 <=? len d) && (0 + len d <=? len (mem (buf r)))) with true by lia.
      cbn [Z.to_nat skipn]. unfold take in M. now rewrite M. }
    rewrite S. cbn [bind]. unfold container_ops. cbn [raw_write].
    assert (X := inked_step w (Pen (page p) (spot p) None) (inner r) d E C P).
    destruct (inked w (Pen (page p) (spot p) None) d) as [p'|].
    + destruct X as (c' & -> & E' & C' & P' & W'). cbn [bind waiting] in *. eexists. split; [reflexivity|].
      split; [|split; [exact W'|reflexivity]].
      constructor; unfold waits; rewrite ?W'; cbn [inner buf set_write_dirty write_dirty bpos mem]; auto; try reflexivity.
      change (len []) with 0. lia.
    + rewrite X. reflexivity.
  - exists r. split; [reflexivity|]. split; [|split; [exact Wt|exact B]].
    constructor; unfold waits; rewrite ?Wt; auto.
Qed.

Lemma put_step : forall w cap p r d, at_pen w cap p r ->
  match put_down w cap p d with
  | None => write container_ops r d = UB OutOfBoundsWrite
  | Some p' => exists r', write container_ops r d = Ok (r', len d) /\ at_pen w cap p' r'
  end.
Proof.
  intros w cap p r d A. pose proof (len_nonneg d). pose proof (capacity_nonneg (buf r)) as Cn. rewrite (ap_cap _ _ _ _ A) in Cn.
  assert (Direct : forall p r, at_pen w cap p r -> (cap = 0 \/ waiting p = None) ->
    match inked w p d with
    | None => bind (raw_write container_ops (inner r) d) (fun '(s, k) => Ok (Resource s (buf r), k)) = UB OutOfBoundsWrite
    | Some p' => exists r', bind (raw_write container_ops (inner r) d) (fun '(s, k) => Ok (Resource s (buf r), k)) = Ok (r', len d) /\ at_pen w cap p' r'
    end).
  { clear p r A. intros p r A N. destruct A as [E K C P D B M F Z0]. unfold container_ops. cbn [raw_write].
    assert (X := inked_step w p (inner r) d E C P). destruct (inked w p d) as [p'|].
    - destruct X as (c' & -> & E' & C' & P' & W'). cbn [bind]. eexists. split; [reflexivity|].
      constructor; unfold waits in *; rewrite ?W'; cbn [inner buf]; auto.
    - rewrite X. reflexivity. }
  unfold put_down, write. rewrite (ap_cap _ _ _ _ A). destruct (Z.eqb_spec cap 0) as [Zc|Zc].
  - replace (0 <? cap) with false by lia. apply Direct; auto.
  - replace (0 <? cap) with true by lia. unfold write_buffered. change size_of with len.
    rewrite (ap_cap _ _ _ _ A), (ap_bpos _ _ _ _ A). rewrite Z.eqb_refl || idtac.
    assert (Keep : forall p r, at_pen w cap p r -> len (waits p) + len d <= cap ->
      exists r', bind (buffer_write (buf r) d) (fun b => Ok (Resource (inner r) b, len d)) = Ok (r', len d) /\
        at_pen w cap (Pen (page p) (spot p) (Some (waits p ++ d))) r').
    { clear p r A Direct. intros p r A L. destruct A as [E K C P D B M F Z0]. pose proof (len_nonneg (waits p)).
      unfold buffer_write, blit. change size_of with len. unfold capacity in K. change size_of with len in K. rewrite B.
      replace ((0 <=? len (waits p)) && (len (waits p) + len d <=? len (mem (buf r)))) with true by lia.
      cbn [bind]. eexists. split; [reflexivity|].
      assert (Pw : firstn (Z.to_nat (len (waits p))) (mem (buf r)) = waits p) by exact M.
      rewrite Pw.
      constructor; cbn [inner buf set_write_dirty write_dirty bpos mem page spot waiting]; auto; try lia.
      - unfold capacity, set_write_dirty. cbn [mem]. change size_of with len. rewrite <- K. unfold len in *. rewrite !app_length, skipn_length. lia.
      - unfold waits at 2. cbn [waiting]. unfold len. rewrite app_length. lia.
      - change (waits (Pen (page p) (spot p) (Some (waits p ++ d)))) with (waits p ++ d). rewrite app_assoc. unfold take, len.
        rewrite Nat2Z.id, firstn_app, firstn_all, Nat.sub_diag, firstn_O. apply app_nil_r.
      - unfold waits. cbn [waiting]. fold (waits p). unfold len. rewrite app_length. unfold len in *. lia. }
    destruct (cap <? len (waits p) + len d) eqn:O.
    + assert (X := flush_step w cap p r A). destruct (delivered_all w p) as [p'|].
      * destruct X as (r' & -> & A' & W' & B'). cbn [bind andb]. destruct (cap <? len d) eqn:O2.
        -- apply Direct; auto.
        -- apply Keep; [exact A'|]. unfold waits. rewrite W'. change (len []) with 0. lia.
      * rewrite X. reflexivity.
    + cbn [bind andb]. pose proof (len_nonneg (waits p)). replace (cap <? len d) with false by lia. apply Keep; [exact A|lia].
Qed.

Lemma moved_step : forall w cap p r n o, at_pen w cap p r ->
  at_pen w cap (moved w p n o) (Resource (set_position_raw (inner r) n (reference o)) (buf r)).
Proof.
  intros w cap p r n o A. destruct A as [E K C P D B M F Z0]. unfold moved.
  constructor; cbn [inner buf elem content position page spot waiting]; unfold set_position_raw; cbn [elem content position]; auto.
  rewrite convert_wrap. unfold sought. cbn [place]. rewrite E, C, P. f_equal. destruct o; reflexivity.
Qed.

(** One call, and all of them.  The two kinds of resource that take output. *)
Definition takes_output (step : resource container -> call -> outcome (resource container * answer)) : Prop :=
  step = call_output \/ step = call_io.

Lemma dirty_again : forall w cap p r, at_pen w cap p r -> waiting p = None ->
  at_pen w cap p (Resource (inner r) (set_read_dirty (buf r) true)).
Proof.
  intros w cap p r A N. destruct A as [E K C P D B M F Z0]. unfold waits in *. rewrite N in *.
  constructor; unfold waits; rewrite ?N; cbn [inner buf set_read_dirty write_dirty bpos mem]; auto.
Qed.

Lemma stroke_step : forall step w cap p r x, takes_output step -> at_pen w cap p r -> for_output x = true ->
  match stroke w cap p x with
  | None => step r x = UB OutOfBoundsWrite
  | Some (p', a) => exists r', step r x = Ok (r', a) /\ at_pen w cap p' r'
  end.
Proof.
  intros step w cap p r x T A O.
  assert (Same : (forall n o, x <> SetPosition n o) -> step r x = call_io r x) by (intros N; destruct T as [-> | ->]; [destruct x; try reflexivity; destruct (N n o eq_refl)|reflexivity]).
  destruct x as [b n|d| |n o|n|n]; cbn [stroke]; [discriminate| | | | |].
  - rewrite Same by discriminate. cbn [call_io]. assert (X := put_step w cap p r d A). destruct (put_down w cap p d) as [p'|].
    + destruct X as (r' & -> & A'). cbn [bind]. now exists r'.
    + now rewrite X.
  - rewrite Same by discriminate. cbn [call_io]. assert (X := flush_step w cap p r A). destruct (delivered_all w p) as [p'|].
    + destruct X as (r' & -> & A' & _). cbn [bind]. now exists r'.
    + now rewrite X.
  - clear Same. assert (X := flush_step w cap p r A). destruct (delivered_all w p) as [p'|].
    + destruct X as (r' & Fl & A' & N & _).
      destruct T as [-> | ->]; cbn [call_output call_io]; unfold seek_output, seek_io; rewrite Fl; cbn [bind noexcept];
        eexists; (split; [reflexivity|]).
      * now apply moved_step.
      * assert (A'' := moved_step w cap p' r' n o A'). apply (dirty_again w cap) in A''; [exact A''|exact N].
    + destruct T as [-> | ->]; cbn [call_output call_io]; unfold seek_output, seek_io; rewrite X; reflexivity.
  - rewrite Same by discriminate. cbn [call_io]. eexists. split; [reflexivity|]. unfold go_back. apply (moved_step w cap p r (- n) Current A).
  - rewrite Same by discriminate. cbn [call_io]. eexists. split; [reflexivity|]. unfold go_forward. apply (moved_step w cap p r n Current A).
Qed.

Lemma strokes_run : forall step w cap xs p r, takes_output step -> at_pen w cap p r -> forallb for_output xs = true ->
  match strokes w cap p xs with
  | None => run step r xs = UB OutOfBoundsWrite
  | Some (p', a) => exists r', run step r xs = Ok (r', a) /\ at_pen w cap p' r'
  end.
Proof.
  intros step w cap. induction xs as [|x xs IH]; intros p r T A O; cbn [strokes run].
  - now exists r.
  - cbn [forallb] in O. apply andb_prop in O as [O1 O2]. assert (X := stroke_step step w cap p r x T A O1).
    destruct (stroke w cap p x) as [[p' a]|]; [|now rewrite X].
    destruct X as (r' & -> & A'). cbn [bind]. specialize (IH p' r' T A' O2).
    destruct (strokes w cap p' xs) as [[q l]|]; [|now rewrite IH]. destruct IH as (r'' & -> & A''). cbn [bind]. now exists r''.
Qed.

Lemma fresh_at_pen : forall w cap l, at_pen w (Z.of_nat cap) (fresh_pen l) (new_resource l w cap).
Proof.
  intros w cap l. constructor; unfold waits, fresh_pen; cbn [waiting page spot new_resource inner buf elem content position new_buffer write_dirty bpos mem]; auto; try (cbn; lia).
  unfold capacity, size_of, new_buffer. cbn [mem]. now rewrite repeat_length.
Qed.
