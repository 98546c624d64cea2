(** Writes and seeks of files do what the machine of FilePenSpec does. *)
From Coq Require Import NArith ZArith List Bool Lia.
From Coq Require Import ZifyBool ZifyNat ZifyN.
From Verif Require Import Base Integers ResourceSpec ResourceModel ResourceText FileSpec FileModel FileText.
From Verif Require Import ResourceLemmas ResourceLemmas2 FileLemmas FileLemmas2 FileLemmas3 FileLemmas4 CursorSpec FileCursorSpec PenSpec FilePenSpec.
Import ListNotations.
Open Scope Z_scope.

Definition clamps_at (pl : platform) : bool := match pl with UnixLike => true | Windows => false end.

(** A resource over a file that stands at a pen. *)
Record at_page (pl : platform) (cap : Z) (q : N) (rd : bool) (others : N -> option (list N)) (p : pen) (r : resource sys) : Prop := {
  fp_open : opened (inner r) q rd true (page p) (spot p);
  fp_cap : capacity (buf r) = cap;
  fp_most : cap <= chunk_max pl;
  fp_obliging : obliging (os (inner r));
  fp_dirty : write_dirty (buf r) = (match waiting p with Some _ => true | None => false end);
  fp_bpos : bpos (buf r) = len (waits p);
  fp_mem : take (len (waits p)) (mem (buf r)) = waits p;
  fp_fits : len (waits p) <= cap;
  fp_bare : cap = 0 -> waiting p = None;
  fp_range : 0 <= spot p < 2 ^ 63;
  fp_size : len (page p) < 2 ^ 63;
  fp_others : forall x, x <> q -> disk (os (inner r)) x = others x }.

Lemma file_inked_step : forall pl cap q rd others p r d p', at_page pl cap q rd others p r -> len d <= chunk_max pl ->
  file_inked p d = Some p' -> (cap = 0 \/ waiting p = None) ->
  exists s, file_write_raw pl (inner r) d = Ok (s, len d) /\ at_page pl cap q rd others p' (Resource s (buf r)) /\ waiting p' = waiting p.
Proof.
  intros pl cap q rd others p r d p' A L E N. unfold file_inked in E. destruct (spot p + len d <? 2 ^ 63) eqn:G; [|discriminate].
  injection E as <-. destruct A as [O K Mo B D Bp M F Z0 R Sz Ot]. pose proof (len_nonneg d).
  destruct (raw_write_full pl (inner r) q rd (page p) (spot p) d O ltac:(lia) L B) as (s' & E & X1 & X2 & X3 & X4).
  exists s'. split; [exact E|]. split; [|reflexivity].
  constructor; unfold waits in *; cbn [inner buf page spot waiting]; auto; try lia.
  - rewrite len_put by lia. destruct (len d =? 0); lia.
  - intros x Hx. rewrite X3 by assumption. auto.
Qed.

Lemma file_flush_step : forall pl cap q rd others p r p', at_page pl cap q rd others p r -> file_delivered p = Some p' ->
  exists r', flush (file_ops pl) r = Ok r' /\ at_page pl cap q rd others p' r' /\ waiting p' = None /\ bpos (buf r') = 0.
Proof.
  intros pl cap q rd others p r p' A E. assert (A' := A). destruct A' as [O K Mo B D Bp M F Z0 R Sz Ot]. unfold file_delivered in E.
  unfold flush. rewrite D. unfold waits in *. destruct (waiting p) as [d|] eqn:Wt.
  - assert (L := len_nonneg d). assert (S : slice (mem (buf r)) 0 (bpos (buf r)) = Ok d).
    { unfold slice. change size_of with len. unfold capacity in K. change size_of with len in K. rewrite Bp.
      replace ((0 <=? 0) && (0 <=? len d) && (0 + len d <=? len (mem (buf r)))) with true by lia.
      cbn [Z.to_nat skipn]. unfold take in M. now rewrite M. }
    rewrite S. cbn [bind]. unfold file_ops. cbn [raw_write].
    unfold file_inked in E. cbn [spot page waiting] in E. destruct (spot p + len d <? 2 ^ 63) eqn:G; [|discriminate].
    injection E as <-.
    destruct (raw_write_full pl (inner r) q rd (page p) (spot p) d O ltac:(lia) ltac:(lia) B) as (s' & E & X1 & X2 & X3 & X4).
    rewrite E. cbn [bind]. eexists. split; [reflexivity|]. split; [|split; reflexivity].
    constructor; unfold waits; cbn [inner buf page spot waiting set_write_dirty write_dirty bpos mem]; auto; try reflexivity; try lia.
    + change (len []) with 0. lia.
    + rewrite len_put by lia. destruct (len d =? 0); lia.
    + intros x Hx. rewrite X3 by assumption. auto.
  - injection E as <-. exists r. split; [reflexivity|]. split; [exact A|]. split; [exact Wt|exact Bp].
Qed.

Lemma file_keep_step : forall pl cap q rd others p r d, at_page pl cap q rd others p r -> 0 < cap -> len (waits p) + len d <= cap ->
  exists r', bind (buffer_write (buf r) d) (fun b => Ok (Resource (inner r) b, len d)) = Ok (r', len d) /\
    at_page pl cap q rd others (Pen (page p) (spot p) (Some (waits p ++ d))) r'.
Proof.
  intros pl cap q rd others p r d [O K Mo B D Bp M F Z0 R Sz Ot] C L. pose proof (len_nonneg (waits p)). pose proof (len_nonneg d).
  unfold buffer_write, blit. change size_of with len. unfold capacity in K. change size_of with len in K. rewrite Bp.
  replace ((0 <=? len (waits p)) && (len (waits p) + len d <=? len (mem (buf r)))) with true by lia.
  cbn [bind]. eexists. split; [reflexivity|].
  assert (Pw : firstn (Z.to_nat (len (waits p))) (mem (buf r)) = waits p) by exact M.
  rewrite Pw.
  constructor; cbn [inner buf set_write_dirty write_dirty bpos mem page spot waiting]; auto; try lia.
  - unfold capacity, set_write_dirty. cbn [mem]. change size_of with len. rewrite <- K. unfold len in *. rewrite !app_length, skipn_length. lia.
  - unfold waits at 2. cbn [waiting]. unfold len. rewrite app_length. lia.
  - change (waits (Pen (page p) (spot p) (Some (waits p ++ d)))) with (waits p ++ d). rewrite app_assoc. unfold take, len.
    rewrite Nat2Z.id, firstn_app, firstn_all, Nat.sub_diag, firstn_O. apply app_nil_r.
  - unfold waits. cbn [waiting]. fold (waits p). unfold len. rewrite app_length. unfold len in *. lia.
Qed.

Lemma file_put_step : forall pl cap q rd others p r d p', at_page pl cap q rd others p r -> len d <= chunk_max pl ->
  file_put_down cap p d = Some p' ->
  exists r', write (file_ops pl) r d = Ok (r', len d) /\ at_page pl cap q rd others p' r'.
Proof.
  intros pl cap q rd others p r d p' A Ld E. pose proof (len_nonneg d). pose proof (capacity_nonneg (buf r)) as Cn.
  rewrite (fp_cap _ _ _ _ _ _ _ A) in Cn. unfold file_put_down in E. unfold write. rewrite (fp_cap _ _ _ _ _ _ _ A).
  destruct (Z.eqb_spec cap 0) as [Zc|Zc].
  - replace (0 <? cap) with false by lia. unfold file_ops. cbn [raw_write].
    destruct (file_inked_step _ _ _ _ _ _ _ _ _ A Ld E (or_introl Zc)) as (s & -> & A' & _). cbn [bind]. eauto.
  - replace (0 <? cap) with true by lia. unfold write_buffered. change size_of with len.
    rewrite (fp_cap _ _ _ _ _ _ _ A), (fp_bpos _ _ _ _ _ _ _ A). pose proof (len_nonneg (waits p)).
    destruct (cap <? len (waits p) + len d) eqn:O.
    + destruct (file_delivered p) as [p1|] eqn:Dl; [|discriminate].
      destruct (file_flush_step _ _ _ _ _ _ _ _ A Dl) as (r1 & -> & A1 & W1 & B1). cbn [bind andb].
      destruct (cap <? len d) eqn:O2.
      * unfold file_ops. cbn [raw_write].
        destruct (file_inked_step _ _ _ _ _ _ _ _ _ A1 Ld E (or_intror W1)) as (s & -> & A' & _). cbn [bind]. eauto.
      * injection E as <-. apply (file_keep_step pl cap q rd others p1 r1 d); [exact A1|lia|]. unfold waits. rewrite W1. change (len []) with 0. lia.
    + cbn [bind andb]. replace (cap <? len d) with false in * by lia. injection E as <-.
      apply (file_keep_step pl cap q rd others p r d); [exact A|lia|lia].
Qed.

Lemma page_seek : forall pl cap q rd others p r n o, at_page pl cap q rd others p r ->
  at_page pl cap q rd others (file_moved (clamps_at pl) p n o) (Resource (seek_raw pl (inner r) n (reference o)) (buf r)).
Proof.
  intros pl cap q rd others p r n o A. assert (CO := content_of_opened _ _ _ _ _ _ (fp_open _ _ _ _ _ _ _ A)).
  destruct A as [[(k & h & Lk & H1 & H2 & H3 & H4) Dk] K Mo B D Bp M F Z0 R Sz Ot].
  set (t := match o with Begin => if clamps_at pl then Z.max 0 n else n | Current => spot p + n | End => len (page p) + n end).
  assert (E : seek_raw pl (inner r) n (reference o)
    = Sys (if (0 <=? t) && (t <? 2 ^ 63) then set_handle (os (inner r)) k (Some (move_to h t)) else os (inner r)) (descriptor (inner r)) 0).
  { unfold seek_raw, sys_seek. rewrite Lk, H1, CO, H4. change size_of with len.
    destruct o, pl; cbn [reference clamps_at] in *; fold t; destruct ((0 <=? t) && (t <? 2 ^ 63)); reflexivity. }
  rewrite E. unfold file_moved, file_sought. cbn [place]. fold t.
  constructor; cbn [inner buf os descriptor filled_last page spot waiting waits]; auto.
  - constructor; cbn [os descriptor].
    + destruct ((0 <=? t) && (t <? 2 ^ 63)) eqn:Q; [|exists k, h; tauto].
      exists k, (move_to h t). split; [now apply lookup_set with h|]. cbn [move_to file_name readable writable offset]. tauto.
    + destruct ((0 <=? t) && (t <? 2 ^ 63)); exact Dk.
  - destruct ((0 <=? t) && (t <? 2 ^ 63)); exact B.
  - destruct ((0 <=? t) && (t <? 2 ^ 63)) eqn:Q; lia.
  - intros x Hx. destruct ((0 <=? t) && (t <? 2 ^ 63)); now apply Ot.
Qed.

Lemma page_stale : forall pl cap q rd others p r, at_page pl cap q rd others p r -> waiting p = None ->
  at_page pl cap q rd others p (Resource (inner r) (set_read_dirty (buf r) true)).
Proof.
  intros pl cap q rd others p r [O K Mo B D Bp M F Z0 R Sz Ot] N. unfold waits in *. rewrite N in *.
  constructor; unfold waits; rewrite ?N; cbn [inner buf set_read_dirty write_dirty bpos mem]; auto.
Qed.

Lemma file_stroke_step : forall pl cap q rd others p f x p' a, mode_writes (mode f) = true ->
  at_page pl cap q rd others p (res f) -> for_output x = true -> (forall d, x = Write d -> len d <= chunk_max pl) ->
  file_stroke (clamps_at pl) cap p x = Some (p', a) ->
  exists f', call_file pl f x = Ok (f', Returned a) /\ path f' = path f /\ mode f' = mode f /\ at_page pl cap q rd others p' (res f').
Proof.
  intros pl cap q rd others p f x p' a Mw A W G E. destruct x as [b n|d| |n o|n|n]; cbn [file_stroke] in E; cbn [call_file]; [discriminate| | | | |].
  - destruct (file_put_down cap p d) as [p1|] eqn:P; [|discriminate]. injection E as <- <-.
    destruct (file_put_step _ _ _ _ _ _ _ _ _ A (G d eq_refl) P) as (r' & E & A'). unfold file_write. rewrite E. cbn [bind].
    destruct (mode f) eqn:Md; try discriminate Mw; eexists; (split; [reflexivity|]); cbn [path mode res]; (split; [reflexivity|]); (split; [reflexivity|exact A']).
  - destruct (file_delivered p) as [p1|] eqn:P; [|discriminate]. injection E as <- <-.
    destruct (file_flush_step _ _ _ _ _ _ _ _ A P) as (r' & E & A' & _). unfold file_flush. rewrite E. cbn [bind].
    eexists. split; [reflexivity|]. cbn [path mode res]. split; [reflexivity|]. split; [reflexivity|exact A'].
  - destruct (file_delivered p) as [p1|] eqn:P; [|discriminate]. injection E as <- <-.
    destruct (file_flush_step _ _ _ _ _ _ _ _ A P) as (r' & E & A' & N & _). unfold file_seek. rewrite E. cbn [bind noexcept].
    eexists. split; [reflexivity|]. cbn [path mode res]. split; [reflexivity|]. split; [reflexivity|].
    assert (A'' := page_seek _ _ _ _ _ _ _ n o A'). apply page_stale in A''; [exact A''|exact N].
  - injection E as <- <-. unfold file_go. eexists. split; [reflexivity|]. cbn [path mode res]. split; [reflexivity|]. split; [reflexivity|].
    exact (page_seek _ _ _ _ _ _ _ (- n) Current A).
  - injection E as <- <-. unfold file_go. eexists. split; [reflexivity|]. cbn [path mode res]. split; [reflexivity|]. split; [reflexivity|].
    exact (page_seek _ _ _ _ _ _ _ n Current A).
Qed.

Lemma file_strokes_run : forall pl cap q rd others xs p f p' l, mode_writes (mode f) = true ->
  at_page pl cap q rd others p (res f) -> forallb for_output xs = true -> (forall d, In (Write d) xs -> len d <= chunk_max pl) ->
  file_strokes (clamps_at pl) cap p xs = Some (p', l) ->
  exists f', run_file pl f xs = Ok (f', map Returned l) /\ path f' = path f /\ at_page pl cap q rd others p' (res f').
Proof.
  intros pl cap q rd others. induction xs as [|x xs IH]; intros p f p' l Mw A W G E; cbn [file_strokes] in E; cbn [run_file].
  - injection E as <- <-. exists f. split; [reflexivity|]. split; [reflexivity|exact A].
  - cbn [forallb] in W. apply andb_prop in W as [W1 W2].
    destruct (file_stroke (clamps_at pl) cap p x) as [[p1 a]|] eqn:S; [|discriminate].
    destruct (file_strokes (clamps_at pl) cap p1 xs) as [[p2 l2]|] eqn:T; [|discriminate]. injection E as <- <-.
    destruct (file_stroke_step pl cap q rd others p f x p1 a Mw A W1 (fun d e => G d (or_introl e)) S) as (f1 & E1 & P1 & M1 & A1).
    rewrite E1. cbn [bind].
    destruct (IH p1 f1 p2 l2 ltac:(congruence) A1 W2 (fun d e => G d (or_intror e)) T) as (f2 & E2 & P2 & A2). rewrite E2. cbn [bind map].
    exists f2. split; [reflexivity|]. split; [congruence|exact A2].
Qed.

Lemma fresh_page : forall pl cap q m others l f, mode_writes m = true -> 0 <= cap ->
  keeps pl cap q m others Resting (Store l 0) f -> obliging (os (inner (res f))) ->
  at_page pl cap q (mode_reads m) others (fresh_pen l) (res f).
Proof.
  intros pl cap q m others l f Mw C [[(c & a & O & A0 & I) K M At Fi Ot U] Md] B.
  cbn [in_stage bytes at_] in *. destruct I as (-> & -> & I3 & I4 & I5 & I6). rewrite Mw in O.
  constructor; unfold fresh_pen, waits; cbn [page spot waiting]; auto; try lia; try reflexivity.
Qed.

Lemma page_close : forall pl cap q rd others p f p', at_page pl cap q rd others p (res f) -> file_delivered p = Some p' ->
  exists f', file_close pl f = Ok f' /\ is_open f' = false /\ disk_of f' q = Some (page p') /\
    forall x, x <> q -> disk_of f' x = others x.
Proof.
  intros pl cap q rd others p f p' A E. destruct (file_flush_step _ _ _ _ _ _ _ _ A E) as (r' & F & A' & _).
  unfold file_close, file_flush. rewrite F. cbn [bind noexcept res path mode]. eexists. split; [reflexivity|].
  unfold disk_of, with_sys, is_open. cbn [path res inner os descriptor mode].
  assert (DK : disk (sys_close (os (inner r')) (descriptor (inner r'))) = disk (os (inner r')))
    by (destruct (descriptor (inner r')); reflexivity).
  rewrite DK. split; [reflexivity|]. split; [apply (fp_open _ _ _ _ _ _ _ A')|apply (fp_others _ _ _ _ _ _ _ A')].
Qed.
