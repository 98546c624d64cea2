(** C36, C32 and C62: exactly what writes and seeks do to a container. *)
From Coq Require Import NArith ZArith List Bool Lia.
From Coq Require Import ZifyBool ZifyNat ZifyN.
From Verif Require Import Base Integers ResourceModel ResourceSpec ResourceText ResourceLemmas ResourceLemmas2 CursorSpec CursorLemmas PenSpec PenLemmas.
Import ListNotations.
Open Scope Z_scope.

(** Every sequence of writes, flushes and seeks of any kind, on resources for output and on
    resources for both directions: the machine says what is in the container, what the calls
    report and what a flush at the end adds; or memory outside the container is written. *)
Theorem C36_exact : forall step w cap l xs, step = call_output \/ step = call_io ->
  forallb for_output xs = true ->
  match strokes w (Z.of_nat cap) (fresh_pen l) xs with
  | None => run step (new_resource l w cap) xs = UB OutOfBoundsWrite
  | Some (p, answers) => exists r, run step (new_resource l w cap) xs = Ok (r, answers) /\
      content (inner r) = page p /\
      match delivered_all w p with
      | None => flush container_ops r = UB OutOfBoundsWrite
      | Some q => exists r', flush container_ops r = Ok r' /\ content (inner r') = page q
      end
  end.
Proof.
  intros step w cap l xs T O.
  assert (X := strokes_run step w (Z.of_nat cap) xs _ _ T (fresh_at_pen w cap l) O).
  destruct (strokes w (Z.of_nat cap) (fresh_pen l) xs) as [[p a]|]; [|exact X].
  destruct X as (r & E & A). exists r. split; [exact E|]. split; [apply (ap_page _ _ _ _ A)|].
  assert (Y := flush_step _ _ _ _ A). destruct (delivered_all w p) as [q|]; [|exact Y].
  destruct Y as (r' & F & A' & _). exists r'. split; [exact F|apply (ap_page _ _ _ _ A')].
Qed.
Print Assumptions C36_exact.

Example C36_exact_example :
  strokes 1 4 (fresh_pen [97; 98; 99]%N) [Write [1; 2]; GoForward 1; Write [3; 4; 5]; SetPosition 0 End; Write [6]]%N
  = Some (Pen [97; 1; 2; 3; 4; 5]%N 6 (Some [6]%N), [Wrote 2; Done; Wrote 3; Done; Wrote 1]) /\
  strokes 1 4 (fresh_pen [97; 98; 99]%N) [GoForward 4; Write [1]; Flush]%N = None.
Proof. split; vm_compute; reflexivity. Qed.

Lemma spot_low : forall w cap xs p q a, - 2 ^ 63 <= spot p -> strokes w cap p xs = Some (q, a) -> - 2 ^ 63 <= spot q.
Proof.
  intros w cap. assert (I : forall p d q, - 2 ^ 63 <= spot p -> inked w p d = Some q -> - 2 ^ 63 <= spot q).
  { intros p d q H E. unfold inked in E. cbv zeta in E. destruct (0 <=? spot p) eqn:S; [|discriminate]. cbn [andb] in E.
    match type of E with (if ?b then _ else _) = _ => destruct b; [|discriminate] end. injection E as <-. cbn [spot]. pose proof (len_nonneg d). lia. }
  assert (D : forall p q, - 2 ^ 63 <= spot p -> delivered_all w p = Some q -> - 2 ^ 63 <= spot q).
  { intros p q H E. unfold delivered_all in E. destruct (waiting p) as [d|]; [|now injection E as <-]. now apply I in E. }
  assert (M : forall p n o, - 2 ^ 63 <= spot (moved w p n o)).
  { intros p n o. unfold moved, sought. cbn [spot]. apply wrap_range. }
  induction xs as [|x xs IH]; intros p q a H E; cbn [strokes] in E; [now injection E as <- _|].
  destruct (stroke w cap p x) as [[p' b]|] eqn:St; [|discriminate].
  destruct (strokes w cap p' xs) as [[q' l]|] eqn:R; [|discriminate]. injection E as <- _.
  apply (IH p' q' l); [|exact R]. destruct x as [blk n|d| |n o|n|n]; cbn [stroke] in St.
  - now injection St as <- _.
  - destruct (put_down w cap p d) as [p1|] eqn:P; [|discriminate]. injection St as <- _. unfold put_down in P.
    destruct (cap =? 0); [now apply I in P|].
    destruct (if cap <? len (waits p) + len d then delivered_all w p else Some p) as [p2|] eqn:Q; [|discriminate].
    assert (H2 : - 2 ^ 63 <= spot p2) by (destruct (cap <? len (waits p) + len d); [now apply D in Q|now injection Q as <-]).
    destruct (cap <? len d); [now apply I in P|]. injection P as <-. exact H2.
  - destruct (delivered_all w p) as [p1|] eqn:P; [|discriminate]. injection St as <- _. now apply D in P.
  - destruct (delivered_all w p) as [p1|] eqn:P; [|discriminate]. injection St as <- _. apply M.
  - injection St as <- _. apply M.
  - injection St as <- _. apply M.
Qed.

(** After every such history the reported position is the place of the container plus what
    waits in the buffer, and the end is reported if that is the size of the container, without
    what waits. *)
Theorem C32_exact : forall step w cap l xs p answers, step = call_output \/ step = call_io ->
  forallb for_output xs = true -> strokes w (Z.of_nat cap) (fresh_pen l) xs = Some (p, answers) ->
  exists r, run step (new_resource l w cap) xs = Ok (r, answers) /\
    get_position r = spot p + len (waits p) /\
    (len (page p) < 2 ^ 63 -> (is_at_end r = true <-> spot p + len (waits p) = len (page p))).
Proof.
  intros step w cap l xs p answers T O E.
  assert (X := strokes_run step w (Z.of_nat cap) xs _ _ T (fresh_at_pen w cap l) O). rewrite E in X.
  destruct X as (r & R & A). exists r. split; [exact R|].
  assert (P : get_position r = spot p + len (waits p)).
  { unfold get_position. now rewrite (ap_spot _ _ _ _ A), (ap_bpos _ _ _ _ A). }
  split; [exact P|]. intros L. unfold is_at_end. rewrite P, (ap_page _ _ _ _ A). change size_of with len.
  assert (S : - 2 ^ 63 <= spot p) by (eapply spot_low; [|exact E]; cbn; lia).
  pose proof (len_nonneg (waits p)). pose proof (len_nonneg (page p)). unfold as_size.
  destruct (spot p + len (waits p) <? 0) eqn:Ng; lia.
Qed.
Print Assumptions C32_exact.

Example C32_exact_example : exists p answers,
  strokes 1 4 (fresh_pen [97; 98; 99]%N) [Write [1; 2; 3]]%N = Some (p, answers) /\
  spot p + len (waits p) = 3 /\ len (page p) = 3 /\ page p = [97; 98; 99]%N.
Proof. do 2 eexists. split; [vm_compute; reflexivity|]. vm_compute. auto. Qed.

(** Nothing makes a container shorter. *)
Theorem C36_never_shorter : forall step w cap l xs r answers, step = call_output \/ step = call_io ->
  forallb for_output xs = true -> run step (new_resource l w cap) xs = Ok (r, answers) -> len l <= len (content (inner r)).
Proof.
  intros step w cap l xs r answers T O R.
  assert (I : forall p d q, inked w p d = Some q -> len (page p) <= len (page q)).
  { intros p d q E. unfold inked in E. cbv zeta in E. set (more := if len (page p) <? spot p + len d then len d / w * w else 0) in E.
    destruct (0 <=? spot p) eqn:S; [|discriminate]. cbn [andb] in E. match type of E with (if ?b then _ else _) = _ => destruct b eqn:F; [|discriminate] end. injection E as <-. cbn [page].
    unfold overwrite, len, take, drop in *. rewrite !app_length, firstn_length, skipn_length, app_length, repeat_length. lia. }
  assert (D : forall p q, delivered_all w p = Some q -> len (page p) <= len (page q)).
  { intros p q E. unfold delivered_all in E. destruct (waiting p) as [d|]; [|injection E as <-; lia]. now apply I in E. }
  assert (St : forall x p q a, stroke w (Z.of_nat cap) p x = Some (q, a) -> len (page p) <= len (page q)).
  { intros x p q a E. destruct x as [blk n|d| |n o|n|n]; cbn [stroke] in E.
    - injection E as <- _. lia.
    - destruct (put_down w (Z.of_nat cap) p d) as [p1|] eqn:P; [|discriminate]. injection E as <- _. unfold put_down in P.
      destruct (Z.of_nat cap =? 0); [now apply I in P|].
      destruct (if Z.of_nat cap <? len (waits p) + len d then delivered_all w p else Some p) as [p2|] eqn:Q; [|discriminate].
      assert (H2 : len (page p) <= len (page p2)) by (destruct (Z.of_nat cap <? len (waits p) + len d); [now apply D in Q|injection Q as <-; lia]).
      destruct (Z.of_nat cap <? len d); [apply I in P; lia|]. injection P as <-. exact H2.
    - destruct (delivered_all w p) as [p1|] eqn:P; [|discriminate]. injection E as <- _. now apply D in P.
    - destruct (delivered_all w p) as [p1|] eqn:P; [|discriminate]. injection E as <- _. now apply D in P.
    - injection E as <- _. cbn [moved page]. lia.
    - injection E as <- _. cbn [moved page]. lia. }
  assert (All : forall xs p q a, strokes w (Z.of_nat cap) p xs = Some (q, a) -> len (page p) <= len (page q)).
  { clear - St. induction xs as [|x xs IH]; intros p q a E; cbn [strokes] in E; [injection E as <- _; lia|].
    destruct (stroke w (Z.of_nat cap) p x) as [[p' b]|] eqn:S; [|discriminate].
    destruct (strokes w (Z.of_nat cap) p' xs) as [[q' l]|] eqn:R; [|discriminate]. injection E as <- _.
    apply St in S. apply IH in R. lia. }
  assert (X := C36_exact step w cap l xs T O). destruct (strokes w (Z.of_nat cap) (fresh_pen l) xs) as [[p a]|] eqn:E.
  - destruct X as (r' & R' & C & _). rewrite R in R'. injection R' as <- _. rewrite C. apply All in E. exact E.
  - rewrite R in X. discriminate.
Qed.
Print Assumptions C36_never_shorter.

Example C36_never_shorter_example : exists r,
  run call_output (new_resource [97; 98; 99]%N 1 4) [SetPosition 1 Begin; Write [1]; Flush]%N = Ok (r, [Done; Wrote 1; Done]) /\
  content (inner r) = [97; 1; 99]%N.
Proof. eexists. split; vm_compute; reflexivity. Qed.

(** go_back moves what waits in the buffer along: it is written over the bytes in front. *)
Theorem C62_waiting_moves : forall cap l p d k, 0 < len d <= Z.of_nat cap -> 0 <= k -> 0 <= p - k -> p + len d <= len l < 2 ^ 63 ->
  exists r, run call_output (new_resource l 1 cap) [SetPosition p Begin; Write d; GoBack k; Flush] = Ok (r, [Done; Wrote (len d); Done; Done]) /\
    content (inner r) = overwrite l (p - k) d.
Proof.
  intros cap l p d k Ld K Pk L.
  assert (X := C36_exact call_output 1 cap l [SetPosition p Begin; Write d; GoBack k; Flush] (or_introl eq_refl) eq_refl).
  assert (W : forall x, 0 <= x < 2 ^ 63 -> wrap x = x).
  { intros x Hx. rewrite <- convert_wrap. apply convert_I64. lia. }
  assert (S : strokes 1 (Z.of_nat cap) (fresh_pen l) [SetPosition p Begin; Write d; GoBack k; Flush]
    = Some (Pen (overwrite l (p - k) d) (p - k + len d) None, [Done; Wrote (len d); Done; Done])).
  { unfold strokes, stroke, fresh_pen, delivered_all, moved, sought, put_down, waits, inked. cbn [place waiting page spot].
    rewrite Z.mul_1_r, W by lia. replace (Z.of_nat cap =? 0) with false by lia. change (len [] + len d) with (len d).
    replace (Z.of_nat cap <? len d) with false by lia. cbn [app place waiting page spot].
    replace (p + - k * 1) with (p - k) by lia. rewrite W by lia.
    replace (len l <? p - k + len d) with false by lia. replace ((0 <=? p - k) && (p - k + len d <=? len l + Z.max 0 0)) with true by lia.
    cbn [Z.to_nat repeat]. now rewrite app_nil_r. }
  rewrite S in X. destruct X as (r & R & C & _). now exists r.
Qed.
Print Assumptions C62_waiting_moves.

Example C62_waiting_moves_example : exists r,
  run call_output (new_resource [97; 98; 99; 100]%N 1 4) [SetPosition 2 Begin; Write [1; 2]; GoBack 2; Flush]%N
    = Ok (r, [Done; Wrote 2; Done; Done]) /\ content (inner r) = [1; 2; 99; 100]%N.
Proof. eexists. split; vm_compute; reflexivity. Qed.
