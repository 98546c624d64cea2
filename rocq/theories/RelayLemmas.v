From Coq Require Import NArith ZArith List Bool Lia ZifyBool ZifyNat ZifyN.
From Verif Require Import Base Integers UnicodeSpec UnicodeModel UnicodeText ResourceSpec ResourceModel ResourceText
  StreamSpec StreamModel StreamText SharedSpec SharedModel TextFileSpec TextFileModel TextFileText.
From Verif Require Import ResourceLemmas ResourceLemmas2 ResourceLemmas3 ResourceLemmas4 SharedLemmas.
From Verif Require Import StreamLemmas StreamLemmas2 StreamLemmas3 TextFileLemmas TextFileLemmas2 TextFileLemmas3 TextFileLemmas5.
From Verif Require Import FileSpec FileModel FileText FileLemmas FileLemmas2 FileLemmas3 FileLemmas4 FileLemmas5 FileLemmas6 CrashLemmas2 FollowSpec FollowText FollowLemmas FollowLemmas2.
From Verif Require Import RelaySpec RelayText.
Import ListNotations.
Open Scope Z_scope.

Lemma drop_neg : forall n l, n <= 0 -> drop n l = l.
Proof. intros n l H. unfold drop. now replace (Z.to_nat n) with O by lia. Qed.

(* -------------------------------------------------------------------- source *)

(** All that was written is in the container. *)
Definition ready (wcap rcap : Z) (written rest : list N) (s : shared) : Prop :=
  exists g, piped 1 wcap rcap written g s /\ owned s = written /\ 0 <= g <= len written /\ rest = drop g written.

Lemma piped_at : forall w wcap rcap written g s, piped w wcap rcap written g s -> 0 <= g <= len (owned s).
Proof. intros w wcap rcap written g s (po & p & S & Po & O & R & P). exact (sf_at _ _ _ _ _ R). Qed.

Lemma shared_read_ok : forall wcap rcap written g s block n, piped 1 wcap rcap written g s ->
  0 <= n <= len block -> n <= biggest_read rcap ->
  let d := take n (drop g (owned s)) in
  exists s', shared_read s block n = Ok (s', d ++ drop (len d) block, len d) /\
    piped 1 wcap rcap written (g + len d) s' /\ owned s' = owned s.
Proof.
  intros wcap rcap written g s block n (po & p & S & Po & O & R & P) N B d. unfold shared_read.
  assert (Ph : p = Neutral \/ p = Reading) by (destruct p; auto; discriminate).
  destruct (read_step _ _ _ _ _ block n R N) as (r' & X & S').
  - unfold biggest_read in B. destruct (Z.eqb_spec rcap 0); [left|right]; assumption.
  - assumption.
  - unfold next_bytes in *. cbn [at_ bytes] in *. fold d in X, S'. rewrite X. cbn [bind]. eexists. split; [reflexivity|].
    cbn [owned]. split; [|reflexivity]. 
    assert (W : writing (if rcap =? 0 then Neutral else Reading) = false) by (destruct (rcap =? 0); reflexivity).
    exists po. eexists. cbn [writer owned reader]. split; [exact S|]. split; [exact Po|]. split; [exact O|].
    assert (C : content (inner r') = owned s) by (pose proof (SharedLemmas.content_of _ _ _ _ _ S' W) as C; exact C).
    split; [|exact W]. rewrite <- C at 2. rewrite look_same. exact S'.
Qed.

Lemma shared_good_source : forall wcap rcap written, good_source shared_source (biggest_read rcap) (ready wcap rcap written).
Proof.
  intros wcap rcap written. split.
  - intros rest s block n (g & V & O & G & ->) N B. cbn [shared_source source_read].
    destruct (shared_read_ok wcap rcap written g s block n V ltac:(lia) B) as (s' & E & V' & O'). rewrite O in *.
    exists s'. split; [exact E|]. eexists. split; [exact V'|]. split; [congruence|].
    pose proof (piped_at _ _ _ _ _ _ V') as A. rewrite O' in A. split; [exact A|].
    rewrite len_take by lia. rewrite len_drop by lia. rewrite drop_drop by lia. destruct (Z.le_ge_cases n (len written - g)).
    + now rewrite Z.min_l by lia.
    + rewrite Z.min_r by lia. now rewrite !drop_all by lia.
  - intros rest s (g & V & O & G & ->). cbn [shared_source source_at_end]. f_equal.
    rewrite (piped_end _ _ _ _ _ V), O. rewrite len_drop by lia. lia.
Qed.

(** A read with a tied output resource does nothing more if all is in the container. *)
Lemma flush_again : forall s s1, shared_flush s = Ok s1 -> shared_flush s1 = Ok s1.
Proof.
  intros s s1 H. unfold shared_flush in H. destruct (flush container_ops _) as [w| | | |] eqn:E; try discriminate.
  cbn [bind] in H. injection H as <-. unfold shared_flush. cbn [writer owned reader]. rewrite look_same.
  assert (D : write_dirty (buf w) = false).
  { unfold flush in E. destruct (write_dirty (buf (look_at _ _))) eqn:D; [|injection E as <-; exact D].
    destruct (slice _ _ _); try discriminate. cbn [bind] in E. destruct (raw_write _ _ _) as [[c k]| | | |]; try discriminate.
    cbn [bind] in E. injection E as <-. reflexivity. }
  unfold flush. rewrite D. reflexivity.
Qed.

Lemma tied_good_source : forall wcap rcap written, good_source tied_source (biggest_read rcap) (ready wcap rcap written).
Proof.
  intros wcap rcap written. split.
  - intros rest s block n (g & V & O & G & ->) N B. cbn [tied_source source_read]. unfold shared_read_tied.
    destruct (piped_flush _ _ _ _ _ _ V) as (s1 & E1 & V1 & O1). rewrite E1. cbn [bind].
    apply (gs_read _ _ _ (shared_good_source wcap rcap written) _ _ block n); [exists g; auto|assumption..].
  - exact (gs_at_end _ _ _ (shared_good_source wcap rcap written)).
Qed.

(** A character is read from what is in the container after a flush. *)
Lemma tied_character : forall native fuel s s1 o f k qs, shared_flush s = Ok s1 ->
  answer_requests native tied_source fuel (TextInput s o f) ((Character, k) :: qs)
  = answer_requests native tied_source fuel (TextInput s1 o f) ((Character, k) :: qs).
Proof.
  intros native fuel s s1 o f k qs E. pose proof (flush_again _ _ E) as E1.
  assert (U : forall w, read_code_unit native tied_source w (TextInput s o f) = read_code_unit native tied_source w (TextInput s1 o f)).
  { intro w. unfold read_code_unit, text_read, stream_read. cbn [in_res in_order_ in_form tied_source source_read].
    unfold shared_read_tied. now rewrite E, E1. }
  cbn [answer_requests answer_request]. unfold read_filtered_code_point, read_code_point. cbn [in_form].
  unfold read_utf8_code_point, read_utf16_code_point, read_utf32_code_point. now rewrite !U.
Qed.

(* ------------------------------------------------------------ carriage returns *)

Lemma whole_tail : forall c l, whole_lines (c :: l) -> whole_lines l.
Proof. intros c l H a b E. apply (H (c :: a) b). now rewrite E. Qed.

Lemma whole_paired : forall l, whole_lines l -> carriage_returns_paired l.
Proof.
  induction l as [|c l IH]; intro H; [exact I|]. split; [|exact (IH (whole_tail _ _ H))].
  intros ->. destruct (H [] l eq_refl) as [x ->]. reflexivity.
Qed.

Lemma whole_filtered : forall l, whole_lines l -> filtered l = lf_text l.
Proof. intros l H. exact (filtered_lf_text (length l) l (le_n _) (whole_paired l H)). Qed.

Lemma whole_none : forall l, whole_lines l -> ~ In 13%N (lf_text l).
Proof.
  induction l as [|c l IH]; intro H; [intros []|]. specialize (IH (whole_tail _ _ H)).
  destruct l as [|d l].
  - cbn. intros [->|[]]. destruct (H [] [] eq_refl) as [x X]. discriminate.
  - change (lf_text (c :: d :: l)) with (if ((c =? 13) && (d =? 10))%N then lf_text (d :: l) else c :: lf_text (d :: l)).
    destruct ((c =? 13) && (d =? 10))%N eqn:E; [exact IH|]. intros [->|X]; [|exact (IH X)].
    destruct (H [] (d :: l) eq_refl) as [x X]. injection X as -> ->. discriminate.
Qed.

Lemma filtered_append : forall n a b, (length a <= n)%nat -> ~ In 13%N (filtered a) ->
  filtered (a ++ b) = filtered a ++ filtered b.
Proof.
  induction n as [|n IH]; intros a b Hn H; (destruct a as [|c a]; [reflexivity|cbn [length] in Hn]); [lia|].
  cbn [app]. destruct (N.eq_dec c 13) as [->|Nc].
  - destruct a as [|d a]; [elim H; now left|]. cbn [app] in *. rewrite !filtered_cr in *. cbn [app length] in *.
    rewrite (IH a b); [reflexivity|lia|]. intro X. apply H. now right.
  - rewrite !filtered_other in * by assumption. cbn [app]. rewrite (IH a b); [reflexivity|lia|]. intro X. apply H. now right.
Qed.

Lemma obtains_suffix : forall q l a r, obtains q l a r -> exists p, l = p ++ r.
Proof.
  assert (W : forall l w r, next_word l w r -> exists p, l = p ++ r).
  { intros l w r [s w' c r' _ _ _ _|s w' _ _ _].
    - exists (s ++ w' ++ [c]). now rewrite <- !app_assoc.
    - exists (s ++ w'). now rewrite app_nil_r. }
  intros q l a r H. destruct H; eauto using app_nil_r, (@eq_sym (list N)).
  - now exists [c].
  - exists (a ++ [10%N]). now rewrite <- app_assoc.
  - now exists [].
Qed.

Lemma obtains_all_suffix : forall qs l answers r, obtains_all qs l answers r -> exists p, l = p ++ r.
Proof.
  intros qs l answers r H. induction H as [l|q qs l a l' answers r H1 H2 [p IH]]; [now exists []|].
  destruct (obtains_suffix _ _ _ _ H1) as [p1 ->]. rewrite IH. exists (p1 ++ p). now rewrite <- app_assoc.
Qed.

(* -------------------------------------------------------------------- rounds *)

(** Two ends of something: [linked w g full r]: w was written, g bytes of it were read, and
    if full, all of w can be read. *)
Record pipeline {R : Type} (src : source R) (snk : sink R) (biggest most total : Z)
    (linked : list N -> Z -> bool -> R -> Prop) : Prop := {
  pn_put : forall w g full r d, linked w g full r -> len d <= most -> len (w ++ d) < total ->
    exists r' k, sink_write snk r d = Ok (r', k) /\ linked (w ++ d) g false r';
  pn_flush : forall w g full r, linked w g full r -> exists r', sink_flush snk r = Ok r' /\ linked w g true r';
  pn_weak : forall w g r, linked w g true r -> linked w g false r;
  pn_at : forall w g full r, linked w g full r -> 0 <= g <= len w;
  pn_source : forall w, good_source src biggest (fun rest r => exists g, linked w g true r /\ rest = drop g w) }.

Section Pipeline.
Context {R : Type} (native : byte_order) (cs : bool) (src : source R) (snk : sink R) (biggest most total : Z)
  (linked : list N -> Z -> bool -> R -> Prop) (P : pipeline src snk biggest most total linked).

Lemma pipeline_sink : forall w g, good_sink snk (Z.min most (total - len w - 1)) (fun b r => linked (w ++ b) g false r).
Proof.
  intros w g. split.
  - intros b r d H B. pose proof (len_nonneg b). rewrite len_app in B.
    destruct (pn_put _ _ _ _ _ _ P _ _ _ _ d H ltac:(lia)) as (r' & k & E & H'); [rewrite !len_app; lia|].
    exists r', k. rewrite app_assoc. split; assumption.
  - intros b r H. destruct (pn_flush _ _ _ _ _ _ P _ _ _ _ H) as (r' & E & H'). exists r'.
    split; [exact E|exact (pn_weak _ _ _ _ _ _ P _ _ _ H')].
Qed.

(** An entry is small, or the total is. *)
Definition enters (e : encoding) (o : byte_order) (p : entry) (k : ukind) : Prop :=
  can_enter native e o p k /\ (total <= most \/ forall s, entry_text p s -> len (text_bytes e o s) <= most).

Lemma entries_ok : forall e o g ps l w st, entries_text (map fst ps) l -> Forall (fun '(p, k) => enters e o p k) ps ->
  wrote (fun b r => linked b g false r) e o w st -> len (w ++ text_bytes e o l) < total ->
  exists st', make_entries (order_of native) cs snk st ps = Ok st' /\
    wrote (fun b r => linked b g false r) e o (w ++ text_bytes e o l) st'.
Proof.
  intros e o g. induction ps as [|[p k] ps IH]; intros l w st T C H L; cbn [map fst] in T.
  - inversion T; subst. exists st. split; [reflexivity|]. change (text_bytes e o []) with (@nil N). now rewrite app_nil_r.
  - inversion T as [|? s ? l' T1 T2]; subst. pose proof (Forall_inv C) as [C1 C2]. apply Forall_inv_tail in C.
    rewrite text_bytes_app, app_assoc in *.
    assert (L1 : len (w ++ text_bytes e o s) < total)
      by (rewrite len_app in L; pose proof (len_nonneg (text_bytes e o l')); lia).
    pose proof (len_nonneg w). rewrite len_app in L1.
    assert (M : len (text_bytes e o s) <= most) by (destruct C2 as [C2|C2]; [lia|exact (C2 s T1)]).
    assert (Hw : wrote (fun b r => linked (w ++ b) g false r) e o [] st)
      by (destruct H as (Hg & Ho & Hf); split; [now rewrite app_nil_r|split; assumption]).
    destruct (make_entry_ok _ native cs snk _ _ e o p k s [] st (pipeline_sink w g) T1 C1 Hw) as (st1 & E1 & W1); [cbn [app]; lia|].
    cbn [make_entries]. rewrite E1. cbn [bind app] in *. exact (IH l' _ st1 T2 C W1 L).
Qed.

(** The state between two rounds: [w] was written, the characters [l] of it are not read
    yet. *)
Definition between (e : encoding) (o : byte_order) (w l : list N) (n : nat) (full : bool) (r : R)
    (inp : text_input R) (out : text_output R) : Prop :=
  (exists g, linked (text_bytes e o w) g full r /\ text_bytes e o l = drop g (text_bytes e o w)) /\
  Forall scalar l /\ (length l <= n)%nat /\ in_order_ inp = order_of o /\ in_form inp = form_of e /\
  out_order out = order_of o /\ out_form out = form_of e.

Lemma between_weak : forall e o w l n full r inp out, between e o w l n full r inp out -> between e o w l n false r inp out.
Proof.
  intros e o w l n [] r inp out H; [|exact H]. destruct H as ((g & V & L) & H). split; [|exact H].
  exists g. split; [exact (pn_weak _ _ _ _ _ _ P _ _ _ V)|exact L].
Qed.

Lemma relay_entries : forall e o w l n full s inp out ps new,
  between e o w l n full s inp out -> entries_text (map fst ps) new -> Forall (fun '(p, k) => enters e o p k) ps ->
  len (text_bytes e o (w ++ new)) < total ->
  exists out', make_entries (order_of native) cs snk (with_res out s) ps = Ok out' /\
    between e o (w ++ new) (l ++ new) (n + length new) false (out_res out') inp out'.
Proof.
  intros e o w l n full s inp out ps new H T C B. apply between_weak in H.
  destruct H as ((g & V & L) & Sc & Ln & Io & If & Oo & Of).
  destruct (entries_ok e o g ps new (text_bytes e o w) (with_res out s) T C) as (out' & E & V' & Oo' & Of').
  - split; [exact V|]. split; assumption.
  - rewrite text_bytes_app in B. exact B.
  - exists out'. split; [exact E|]. rewrite <- text_bytes_app in V'. pose proof (pn_at _ _ _ _ _ _ P _ _ _ _ V) as G. split.
    + exists g. split; [exact V'|]. rewrite !text_bytes_app, L. rewrite drop_app, (drop_neg (g - _)) by lia. reflexivity.
    + assert (Sn : Forall scalar new).
      { apply (entries_scalar native e o ps new T). eapply Forall_impl; [|exact C]. intros [p k] [C1 _]. exact C1. }
      split; [apply Forall_app; split; assumption|]. rewrite app_length. repeat (split; try assumption; try lia).
Qed.

Lemma relay_flush : forall e o w l n full inp out,
  between e o w l n full (out_res out) inp out ->
  exists out', text_flush snk out = Ok out' /\ between e o w l n true (out_res out') inp out'.
Proof.
  intros e o w l n full inp out ((g & V & L) & K). unfold text_flush.
  destruct (pn_flush _ _ _ _ _ _ P _ _ _ _ V) as (s' & E & V'). rewrite E. cbn [bind]. eexists. split; [reflexivity|].
  split; [exists g; auto|]. exact K.
Qed.

Lemma relay_requests : forall e o w l n s inp out fuel qs answers rest,
  between e o w l n true s inp out -> Z.of_nat (unit_width e) <= biggest -> (n < fuel)%nat ->
  obtains_all (map fst qs) (filtered l) answers rest -> all_can_arrive qs answers ->
  exists inp' l', answer_requests (order_of native) src fuel (TextInput s (in_order_ inp) (in_form inp)) qs
      = Ok (inp', pieces_in qs answers) /\ filtered l' = rest /\
    between e o w l' n true (in_res inp') inp' out.
Proof.
  intros e o w l n s inp out fuel qs answers rest ((g & V & L) & Sc & Ln & Io & If & Oo & Of) B F H C.
  assert (A : after (fun rest r => exists g, linked (text_bytes e o w) g true r /\ rest = drop g (text_bytes e o w)) e o n l
    (TextInput s (in_order_ inp) (in_form inp))).
  { split; [|split; assumption]. split; [|split; assumption]. exists g. cbn [in_res]. auto. }
  pose proof (gives_true _ _ _ (requests_give True native src _ _
    (good_text_source _ True _ _ _ (pn_source _ _ _ _ _ _ P (text_bytes e o w))) e o n fuel B F qs l answers rest _ A H C)) as X.
  destruct X as ([inp' xs] & E & -> & l' & <- & ((g' & V' & L') & Io' & If') & Sc' & Ln').
  exists inp', l'. split; [exact E|]. split; [reflexivity|]. split; [exists g'; auto|].
  repeat (split; try assumption).
Qed.

(** A way to make the requests of a round that needs no flush, or one that does. *)
Definition makes_requests (source_used : source R) (flushing : bool) (good : list (TextFileSpec.request * ukind) -> Prop)
    (e : encoding) (o : byte_order) (fuel : nat) : Prop :=
  forall w l n s inp out qs answers rest, between e o w l n flushing s inp out -> (n < fuel)%nat -> good qs ->
  obtains_all (map fst qs) (filtered l) answers rest -> all_can_arrive qs answers ->
  exists inp' l', answer_requests (order_of native) source_used fuel (TextInput s (in_order_ inp) (in_form inp)) qs
      = Ok (inp', pieces_in qs answers) /\ filtered l' = rest /\
    between e o w l' n flushing (in_res inp') inp' out.

Lemma relay_rounds : forall e o fuel source_used flushing good, makes_requests source_used flushing good e o fuel ->
  forall rounds w l n s inp out text answers,
  between e o w l n flushing s inp out -> ~ In 13%N (filtered l) ->
  Forall (fun r => good (snd r)) rounds ->
  relayed (bare rounds) (filtered l) text answers ->
  Forall (fun r => Forall (fun '(p, k) => enters e o p k) (fst r)) rounds -> rounds_arrive rounds answers ->
  len (text_bytes e o (w ++ text)) < total -> (n + length text < fuel)%nat ->
  exists s' g, run_relay (order_of native) cs source_used snk flushing fuel s inp out rounds = Ok (s', all_pieces rounds answers) /\
    linked (text_bytes e o (w ++ text)) g flushing s'.
Proof.
  intros e o fuel source_used flushing good Mk. induction rounds as [|[ps qs] rounds IH]; intros w l n s inp out text answers H Cr Q R' En Ar L F;
    cbn [bare map] in R'; inversion R' as [|? ? ? ? new a rest text' more T W O R'']; subst.
  - destruct H as ((g & V & _) & _). exists s, g. split; [reflexivity|]. rewrite app_nil_r. exact V.
  - pose proof (Forall_inv En) as En1. apply Forall_inv_tail in En. cbn [fst] in En1.
    pose proof (Forall_inv Q) as Q1. apply Forall_inv_tail in Q. cbn [snd] in Q1.
    unfold rounds_arrive in Ar. cbn [combine] in Ar. pose proof (Forall_inv Ar) as Ar1. apply Forall_inv_tail in Ar. cbn beta iota in Ar1.
    rewrite app_assoc in L. rewrite app_length in F.
    assert (L1 : len (text_bytes e o (w ++ new)) < total)
      by (rewrite text_bytes_app, len_app in L; pose proof (len_nonneg (text_bytes e o text')); lia).
    destruct (relay_entries _ _ _ _ _ _ _ _ _ ps new H T En1 L1) as (out1 & E1 & H1).
    assert (exists out2, (if flushing then text_flush snk out1 else Ok out1) = Ok out2 /\
      between e o (w ++ new) (l ++ new) (n + length new) flushing (out_res out2) inp out2) as (out2 & E2 & H2).
    { destruct flushing; [exact (relay_flush _ _ _ _ _ _ _ _ H1)|]. exists out1. split; [reflexivity|exact H1]. }
    assert (Fl : filtered (l ++ new) = filtered l ++ lf_text new)
      by (rewrite (filtered_append (length l)) by (assumption || lia); now rewrite (whole_filtered _ W)).
    rewrite <- Fl in O.
    destruct (Mk _ _ _ _ _ _ qs a rest H2 ltac:(lia) Q1 O Ar1) as (inp3 & l3 & E3 & <- & H3).
    destruct (IH (w ++ new) l3 (n + length new)%nat (in_res inp3) inp3 out2 text' more H3) as (s' & g & E4 & K); try assumption; [|lia|].
    + destruct (obtains_all_suffix _ _ _ _ O) as [p Pp]. rewrite Fl in Pp. intro X.
      assert (Y : In 13%N (filtered l ++ lf_text new)) by (rewrite Pp; apply in_or_app; now right).
      apply in_app_or in Y. destruct Y as [Y|Y]; [exact (Cr Y)|exact (whole_none _ W Y)].
    + exists s', g. cbn [run_relay]. rewrite E1. cbn [bind]. rewrite E2. cbn [bind]. rewrite E3. cbn [bind]. rewrite E4. cbn [bind].
      split; [reflexivity|]. now rewrite app_assoc.
Qed.

Lemma flushed_requests : forall e o fuel, Z.of_nat (unit_width e) <= biggest -> makes_requests src true (fun _ => True) e o fuel.
Proof. intros e o fuel B w l n s inp out qs answers rest H F _ O C. exact (relay_requests _ _ _ _ _ _ _ _ _ _ _ _ H B F O C). Qed.

End Pipeline.

(* ------------------------------------------------------------------ containers *)

Definition on_container (wcap rcap : Z) (w : list N) (g : Z) (full : bool) (s : shared) : Prop :=
  piped 1 wcap rcap w g s /\ (full = true -> owned s = w).

Lemma same_source : forall (R : Type) (ops : source R) biggest left left', good_source ops biggest left ->
  (forall rest r, left rest r <-> left' rest r) -> good_source ops biggest left'.
Proof.
  intros R ops biggest left left' G I. split.
  - intros rest r block n H B M. apply I in H. destruct (gs_read _ _ _ G rest r block n H B M) as (r' & E & H').
    exists r'. split; [exact E|]. now apply I.
  - intros rest r H. apply I in H. exact (gs_at_end _ _ _ G rest r H).
Qed.

Lemma container_pipeline : forall wcap rcap src, (forall w, good_source src (biggest_read rcap) (ready wcap rcap w)) ->
  pipeline src shared_sink (biggest_read rcap) (2 ^ 62) (2 ^ 62) (on_container wcap rcap).
Proof.
  intros wcap rcap src G. split.
  - intros w g full s d [V _] _ B. rewrite len_app in B. cbn [shared_sink sink_write].
    destruct (piped_put 1 wcap rcap w g s d V (Z.divide_1_l _) ltac:(lia)) as (s' & k & E & V' & _).
    exists s', k. split; [exact E|]. split; [exact V'|discriminate].
  - intros w g full s [V _]. cbn [shared_sink sink_flush]. destruct (piped_flush _ _ _ _ _ _ V) as (s' & E & V' & O).
    exists s'. split; [exact E|]. split; auto.
  - intros w g s [V _]. split; [exact V|discriminate].
  - intros w g full s [V _]. pose proof (piped_at _ _ _ _ _ _ V). pose proof (piped_prefix _ _ _ _ _ _ V). lia.
  - intro w. eapply same_source; [exact (G w)|]. intros rest s. unfold ready, on_container. split.
    + intros (g & V & O & _ & E). exists g. auto.
    + intros (g & [V O] & E). specialize (O eq_refl). exists g. split; [exact V|]. split; [exact O|]. split; [|exact E].
      pose proof (piped_at _ _ _ _ _ _ V). rewrite O in *. assumption.
Qed.

Lemma relay_start : forall wcap rcap e o old, Forall scalar old -> len (text_bytes e o old) < 2 ^ 62 ->
  exists s, shared_seek (share (text_bytes e o old) 1 wcap rcap) 0 FromEnd = Ok s /\
    between (on_container (Z.of_nat wcap) (Z.of_nat rcap)) e o old old (length old) true s
      (TextInput s (order_of o) (form_of e)) (TextOutput s (order_of o) (form_of e)).
Proof.
  intros wcap rcap e o old Sc L. destruct (piped_start 1 wcap rcap (text_bytes e o old)) as (s & E & V & O); [lia|apply Z.divide_1_l|lia|].
  exists s. split; [exact E|]. split; [exists 0; rewrite drop_0; split; [split; auto|reflexivity]|].
  repeat (split; try assumption; try reflexivity).
Qed.

(** With a tied output resource, if a character is asked for first. *)
Definition character_begins (qs : list (TextFileSpec.request * ukind)) : Prop :=
  match map fst qs with [] => True | q :: _ => q = Character end.

Lemma tied_requests : forall native wcap rcap e o fuel, Z.of_nat (unit_width e) <= biggest_read rcap ->
  makes_requests native (on_container wcap rcap) tied_source false character_begins e o fuel.
Proof.
  intros native wcap rcap e o fuel B w l n s inp out qs answers rest H F Q O C.
  destruct qs as [|[q k] qs].
  - inversion O; subst. exists (TextInput s (in_order_ inp) (in_form inp)), l. split; [reflexivity|]. split; [reflexivity|]. exact H.
  - unfold character_begins in Q. cbn [map fst] in Q. subst q. destruct H as ((g & [V _] & L) & K).
    destruct (piped_flush _ _ _ _ _ _ V) as (s1 & E1 & V1 & O1). rewrite (tied_character _ _ _ _ _ _ _ _ E1).
    pose proof (container_pipeline wcap rcap tied_source (tied_good_source wcap rcap)) as Pn.
    assert (H1 : between (on_container wcap rcap) e o w l n true s1 inp out) by (split; [exists g; split; [split; auto|exact L]|exact K]).
    destruct (relay_requests native tied_source shared_sink _ _ _ _ Pn _ _ _ _ _ _ _ _ _ _ _ _ H1 B F O C) as (inp' & l' & E & W & H').
    exists inp', l'. split; [exact E|]. split; [exact W|]. exact (between_weak _ _ _ _ _ _ Pn _ _ _ _ _ _ _ _ _ H').
Qed.

(* ----------------------------------------------------------------------- files *)

Definition on_file (pl : platform) (wcap rcap : Z) (q : N) (mw mr : access_mode) (w : list N) (g : Z) (full : bool) (d : duo) : Prop :=
  exists c, following pl wcap rcap q mw mr (system d) (first_file d) (second_file d) c w g /\ (full = true -> c = w) /\
    len w < 2 ^ 63 /\ 0 <= g <= len w.

Lemma file_pipeline : forall pl wcap rcap q mw mr, mode_writes mw = true -> mode_reads mr = true ->
  pipeline (second_source pl) (first_sink pl) (file_biggest pl rcap) (chunk_max pl) (2 ^ 63) (on_file pl wcap rcap q mw mr).
Proof.
  intros pl wcap rcap q mw mr Mw Mr. split.
  - intros w g full [y f h] d (c & F & _ & Lw & G) B L. cbn [system first_file second_file first_sink sink_write] in *.
    assert (F0 := F). destruct F as [T _ _ _ Ob]. rewrite len_app in L.
    destruct (tail_write _ _ _ _ _ _ _ d T Mw Ob B) as (f1 & c1 & E & B1 & T1 & X1 & _).
    assert (E' : call_file pl (in_world y f) (Write d) = Ok (f1, Returned (Wrote (len d)))) by (cbn [call_file]; rewrite E; reflexivity).
    assert (LC : len c1 <= len w + len d).
    { destruct T1 as [_ _ _ _ _ _ W]. apply (f_equal len) in W. rewrite !len_app in W.
      pose proof (len_nonneg (take (bpos (buf (res f1))) (mem (buf (res f1))))). lia. }
    pose proof (writer_step _ _ _ _ _ _ _ _ _ _ _ _ _ _ _ _ _ F0 E' B1 T1 X1 ltac:(lia)) as F1.
    unfold file_sink. cbn [sink_write]. rewrite E. cbn [returned bind]. eexists. eexists. split; [reflexivity|].
    exists c1. cbn [system first_file second_file]. rewrite len_app. pose proof (len_nonneg d).
    split; [exact F1|]. split; [discriminate|]. lia.
  - intros w g full [y f h] (c & F & _ & Lw & G). cbn [system first_file second_file first_sink sink_flush] in *.
    assert (F0 := F). destruct F as [T _ _ _ Ob].
    destruct (tail_flush _ _ _ _ _ _ _ T Ob) as (f1 & E & B1 & T1 & _ & _).
    assert (E' : call_file pl (in_world y f) Flush = Ok (f1, Returned Done)) by (cbn [call_file]; rewrite E; reflexivity).
    assert (X1 : exists x, w = c ++ x) by (destruct T as [_ _ _ _ _ _ W]; eexists; exact W).
    pose proof (writer_step _ _ _ _ _ _ _ _ _ _ _ _ _ _ _ _ _ F0 E' B1 T1 X1 ltac:(lia)) as F1.
    unfold file_sink. cbn [sink_flush]. rewrite E. cbn [bind]. eexists. split; [reflexivity|].
    exists w. cbn [system first_file second_file]. auto.
  - intros w g d (c & F & _ & H). exists c. split; [exact F|]. split; [discriminate|exact H].
  - intros w g full d (c & _ & _ & _ & G). exact G.
  - intro w. split.
    + intros rest [y f h] block n (g & (c & F & Cw & Lw & G) & ->) N B. specialize (Cw eq_refl). subst c.
      cbn [system first_file second_file second_source source_read] in *.
      destruct F as [T (others & p & K & Pw) (k1 & k2 & D1 & D2 & Nk) Pa Ob].
      unfold file_biggest in B.
      destruct (call_file_step pl rcap q mr others p (Store w g) (in_world y h) (Read block n) K Ob Mr) as (g1 & E & Pa1 & B1 & K1).
      { cbn [file_allowed]. destruct K as [KK _]. pose proof (ff_most _ _ _ _ _ _ _ _ _ KK).
        destruct (Z.eqb_spec rcap 0); repeat split; try lia; auto. }
      { congruence. }
      destruct (call_file_tame _ _ _ _ _ E) as ([T1 (_ & _ & _ & T3 & _)] & _).
      cbn [in_world with_sys res inner os descriptor] in T1, T3.
      cbn [file_call fst snd] in E, K1. unfold next_bytes in E, K1. cbn [bytes at_] in E, K1.
      set (d := take n (drop g w)) in *.
      assert (NW : next_stage rcap p (Read block n) <> InWrites) by (unfold next_stage; destruct (rcap =? 0); discriminate).
      assert (DQ : disk (os (inner (res g1))) q = disk y q).
      { destruct T as [[_ DT] _ _ _ _ _ _]. cbn [in_world with_sys res inner os] in DT. rewrite DT.
        destruct K1 as [KK _]. destruct (clean_disk _ _ _ _ _ _ _ _ _ KK (clean_unless_writing _ _ _ _ _ _ _ _ _ KK NW)) as [[_ Y]|[_ Y]]; exact Y. }
      assert (F1 : following pl wcap rcap q mw mr (os (inner (res g1))) f g1 w w (g + len d)).
      { constructor.
        - eapply tail_in_world; [exact T|exact D1|apply T3; congruence|exact DQ].
        - exists others, (next_stage rcap p (Read block n)). rewrite in_world_id. split; assumption.
        - exists k1, k2. repeat split; try assumption. congruence.
        - rewrite Pa1. exact Pa.
        - exact B1. }
      cbn [call_file] in E. unfold file_source. cbn [source_read]. unfold next_bytes in E. 
      destruct (file_read pl (in_world y h) block n) as [[g2 a]| | | |]; cbn [bind] in E; try discriminate.
      injection E as -> E. destruct a as [[b k]|x]; cbn [answered] in E; [|discriminate]. injection E as -> ->.
      cbn [returned bind]. eexists. split; [reflexivity|].
      assert (Ld : len d = Z.min n (len w - g)) by (unfold d; rewrite len_take, len_drop by lia; lia).
      exists (g + len d). split.
      * exists w. cbn [system first_file second_file]. split; [exact F1|]. split; [auto|]. lia.
      * rewrite drop_drop by lia. destruct (Z.le_ge_cases n (len w - g)).
        -- now replace (len d) with n by lia.
        -- rewrite !drop_all by lia. reflexivity.
    + intros rest [y f h] (g & (c & F & Cw & Lw & G) & ->). specialize (Cw eq_refl). subst c.
      cbn [system first_file second_file second_source source_at_end file_source] in *.
      destruct (reader_at_end _ _ _ _ _ _ _ _ _ _ _ _ F) as (E & _ & _). rewrite E. f_equal. rewrite len_drop by lia. lia.
Qed.

Lemma follow_start : forall pl w q mw mr how wcap rcap e o old, mode_writes mw = true ->
  disk w q = Some (text_bytes e o old) \/ disk w q = None /\ how = Create /\ old = [] -> Forall scalar old ->
  len (text_bytes e o old) < 2 ^ 63 -> obliging w -> Z.of_nat wcap <= chunk_max pl -> Z.of_nat rcap <= chunk_max pl ->
  exists f g, open_both pl w q mw mr how wcap rcap = Ok (f, g) /\
    between (on_file pl (Z.of_nat wcap) (Z.of_nat rcap) q mw mr) e o old old (length old) true (Duo (system_of g) f g)
      (TextInput (Duo (system_of g) f g) (order_of o) (form_of e)) (TextOutput (Duo (system_of g) f g) (order_of o) (form_of e)).
Proof.
  intros pl w q mw mr how wcap rcap e o old Mw D Sc L B C1 C2.
  assert (D' : disk w q = Some (text_bytes e o old) \/ disk w q = None /\ how = Create /\ text_bytes e o old = [])
    by (destruct D as [D|(D1 & D2 & ->)]; auto).
  destruct (both_open pl w q _ mw mr how wcap rcap D' L B C1 C2)
    as (f & g & k1 & k2 & o1 & o2 & E & K1 & K2 & D1 & D2 & Nk & P1 & P2 & Ob & Ot).
  exists f, g. split; [exact E|]. split.
  - exists 0. rewrite drop_0. split; [|reflexivity]. exists (text_bytes e o old). cbn [system first_file second_file].
    split; [|split; [auto|split; [exact L|pose proof (len_nonneg (text_bytes e o old)); lia]]].
    constructor; try assumption.
    + exact (tail_at_end _ _ _ _ _ _ _ K1 Mw).
    + exists o2, Resting. split; [exact K2|discriminate].
    + exists k1, k2. auto.
  - repeat (split; try assumption; try reflexivity).
Qed.

Lemma file_end : forall pl wcap rcap q mw mr w g d, on_file pl wcap rcap q mw mr w g true d -> disk (system d) q = Some w.
Proof.
  intros pl wcap rcap q mw mr w g d (c & F & Cw & _). specialize (Cw eq_refl). subst c.
  destruct (reader_at_end _ _ _ _ _ _ _ _ _ _ _ _ F) as (_ & D & _). exact D.
Qed.
