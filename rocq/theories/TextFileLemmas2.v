(** Files as sources and sinks of text streams. *)
From Coq Require Import NArith ZArith List Bool Lia ZifyBool ZifyNat ZifyN.
From Verif Require Import Base Integers UnicodeSpec UnicodeModel UnicodeText UnicodeLemmas UnicodeLemmas2 UnicodeLemmas3
  NumeralSpec NumberModel NumberText NumberLemmas NumberProps
  ResourceSpec ResourceModel ResourceText ResourceLemmas StreamSpec StreamModel StreamText StreamLemmas StreamLemmas2 StreamLemmas3 StreamLemmas4
  FileSpec FileModel FileText FileLemmas FileLemmas2 FileLemmas3 FileLemmas4 FileLemmas6
  TextFileSpec TextFileModel TextFileText TextFileLemmas.
Import ListNotations.
Open Scope Z_scope.

(* ----------------------------------------------------------------- reading *)

(** The file with contents c is about to give the bytes rest, and the operating system will
    respond as in Pr. *)
Definition file_left (Pr : response -> Prop) (pl : platform) (cap : Z) (q : N) (m : access_mode) (others : N -> option (list N))
    (c : list N) (rest : list N) (f : file) : Prop :=
  exists p s, keeps pl cap q m others p s f /\ path f = Some q /\ p <> InWrites /\ bytes s = c /\ at_ s <= len c /\
    drop (at_ s) c = rest /\ Forall Pr (script (os (inner (res f)))).

(** Responses with which reads give no wrong bytes, and those with which they give all. *)
Definition sound_responses (pl : platform) (sure : Prop) (Pr : response -> Prop) : Prop :=
  (pl = Windows \/ forall r, Pr r -> r = InFull \/ r = Refuse) /\ (sure -> forall r, Pr r -> r <> Refuse).

Definition file_biggest (pl : platform) (cap : Z) : Z := if cap =? 0 then chunk_max pl else cap.

Lemma file_text_source : forall Pr (sure : Prop) pl cap q m others c, sound_responses pl sure Pr -> mode_reads m = true ->
  text_source sure (file_source pl) (file_biggest pl cap) (file_left Pr pl cap q m others c).
Proof.
  intros Pr sure pl cap q m others c [Sp Sf] Mr. split.
  - intros rest f block n (p & s & [K Md] & Pa & Pw & Bs & At & Dr & Fr) B M. unfold file_biggest in M.
    assert (Ns : no_short_read_on_unix pl (os (inner (res f)))).
    { destruct Sp as [Sp|Sp]; [now left|right]. eapply Forall_impl; [|exact Fr]. exact Sp. }
    assert (Nf : sure -> no_failure (os (inner (res f)))).
    { intro X. eapply Forall_impl; [|exact Fr]. exact (Sf X). }
    rewrite Mr in K. pose proof (ff_most _ _ _ _ _ _ _ _ _ K) as Cm. pose proof (ff_at _ _ _ _ _ _ _ _ _ K) as A0.
    destruct (read_file_step pl cap q _ others p s (res f) block n K Ns) as (r' & d & E & Pd & Fd & Sc & K'); try assumption; try lia.
    { destruct (Z.eqb_spec cap 0); lia. }
    { destruct (Z.eqb_spec cap 0); [left|right]; lia. }
    exists (File r' (path f) (mode f)), d. unfold some_prefix in Pd. unfold next_bytes in Pd, Fd. rewrite Bs, Dr in Pd, Fd.
    split; [|split; [exact Pd|split]].
    + cbn [file_source source_read]. unfold file_read. rewrite Md. destruct m; [|discriminate|]; rewrite E; reflexivity.
    + exists (if cap =? 0 then Resting else InReads), (Store (bytes s) (at_ s + len d)).
      assert (Ld : len d <= len c - at_ s).
      { pose proof (len_nonneg rest). assert (len rest = len c - at_ s) by (rewrite <- Dr; rewrite len_drop by lia; lia).
        destruct (len_some_prefix d n rest Pd ltac:(lia)). lia. }
      split; [split; [rewrite Mr; exact K'|exact Md]|]. cbn [path res bytes at_]. split; [exact Pa|].
      split; [destruct (cap =? 0); discriminate|]. split; [exact Bs|]. split; [lia|].
      split; [rewrite <- Dr, drop_drop; [reflexivity|apply len_nonneg|lia]|].
      exact (Sc _ Fr).
    + intro X. exact (Fd (Nf X)).
  - intros rest f (p & s & K & Pa & Pw & Bs & At & Dr & _). cbn [file_source source_at_end].
    rewrite (file_at_end_ok pl cap q m others p s f K Pa Pw). f_equal. subst c.
    destruct K as [K _]. pose proof (ff_at _ _ _ _ _ _ _ _ _ K) as A0.
    rewrite <- Dr, len_drop by lia. lia.
Qed.

Lemma sure_good : forall (R : Type) (ops : source R) biggest left, text_source True ops biggest left ->
  good_source ops biggest left.
Proof.
  intros R ops biggest left G. split; [|exact (ts_at_end _ _ _ _ G)].
  intros rest r block n L B M. destruct (ts_read _ _ _ _ G _ _ _ _ L B M) as (r' & d & E & _ & L' & Sd).
  rewrite <- (Sd I). exists r'. split; [exact E|]. rewrite (Sd I) in L'. rewrite len_take in L' by apply len_nonneg || lia.
  destruct (Z.le_gt_cases n (len rest)).
  - replace (Z.min n (len rest)) with n in L' by lia. exact L'.
  - rewrite drop_all by lia. rewrite drop_all in L' by lia. exact L'.
Qed.

(** Closing a file that is not being written does not need the operating system. *)
Lemma close_reader : forall pl cap q m others p s f, keeps pl cap q m others p s f -> p <> InWrites ->
  exists f', file_close pl f = Ok f' /\ disk_of f' q = Some (bytes s) /\ (forall x, x <> q -> disk_of f' x = others x) /\
    script (os (inner (res f'))) = script (os (inner (res f))).
Proof.
  intros pl cap q m others p s f [[(c & a & O & A0 & I) K CM At Fi Ot U] Md] P.
  assert (Wd : write_dirty (buf (res f)) = false) by (destruct p; cbn [in_stage] in I; tauto).
  assert (C : c = bytes s) by (destruct p; cbn [in_stage] in I; tauto). subst c.
  unfold file_close, file_flush, flush. rewrite Wd. cbn [bind noexcept res path mode].
  eexists. split; [reflexivity|]. unfold disk_of, with_sys. cbn [res inner os descriptor].
  destruct (descriptor (inner (res f))) eqn:D; cbn [sys_close]; unfold set_handle; cbn [disk script]; repeat split; try apply O; assumption.
Qed.

Lemma will_open_file : forall pl w q l m how cap, will_open w q how l -> len l < 2 ^ 63 ->
  response_now w <> Refuse -> Z.of_nat cap <= chunk_max pl ->
  exists f, new_file pl w q m how cap = Ok f /\ path f = Some q /\ script (os (inner (res f))) = tl (script w) /\
    keeps pl (Z.of_nat cap) q m (disk w) Resting (Store l 0) f.
Proof.
  intros pl w q l m how cap D L B C.
  destruct (open_idle pl (Z.of_nat cap) _ q l m how (idle_new w (Some q) m cap) D) as (f1 & E & Pa & K & SC); try assumption.
  exists f1. unfold new_file. rewrite E. split; [reflexivity|]. split; [exact Pa|]. split; [exact SC|exact K].
Qed.

(* ----------------------------------------------------------------- writing *)

(** A file with contents l0 in which the bytes b have been written from p0 on. *)
Definition file_got (pl : platform) (cap : Z) (q : N) (m : access_mode) (others : N -> option (list N))
    (l0 : list N) (p0 : Z) (b : list N) (f : file) : Prop :=
  exists p, keeps pl cap q m others p (Store (put l0 p0 b) (p0 + len b)) f /\ path f = Some q /\ p <> InReads /\
    obliging (os (inner (res f))).

Definition most (pl : platform) (p0 : Z) : Z := Z.min (chunk_max pl) (2 ^ 63 - 1 - p0).

Lemma file_good_sink : forall pl cap q m others l0 p0, mode_writes m = true -> 0 <= p0 ->
  good_sink (file_sink pl) (most pl p0) (file_got pl cap q m others l0 p0).
Proof.
  intros pl cap q m others l0 p0 Mw P0. split.
  - intros b f d (p & [K Md] & Pa & Pr & B) L. unfold most in L. rewrite len_app in L. pose proof (len_nonneg b).
    rewrite Mw in K.
    destruct (write_file_step pl cap q _ others p _ (res f) d K B Pr) as (r' & E & B' & K'); cbn [at_ bytes] in *; try lia.
    exists (File r' (path f) (mode f)), (len d). split.
    + cbn [file_sink sink_write]. unfold file_write. rewrite Md. destruct m; [discriminate| |]; rewrite E; reflexivity.
    + exists (if cap =? 0 then Resting else InWrites). cbn [path res]. rewrite put_app in K' by exact P0.
      rewrite len_app. rewrite Z.add_assoc. split; [split; [rewrite Mw; exact K'|exact Md]|].
      split; [exact Pa|]. split; [destruct (cap =? 0); discriminate|exact B'].
  - intros b f (p & [K Md] & Pa & Pr & B).
    destruct (flush_file_step pl cap q _ _ others p _ (res f) K B) as (r' & E & B' & K'); [intros _; exact Mw|].
    exists (File r' (path f) (mode f)). split.
    + cbn [file_sink sink_flush]. unfold file_flush. rewrite E. reflexivity.
    + exists Resting. cbn [path res]. split; [split; [destruct p; congruence || exact K'|exact Md]|].
      split; [exact Pa|]. split; [discriminate|exact B'].
Qed.

Lemma file_rebase : forall pl cap q m others l0 p0 b f, file_got pl cap q m others l0 p0 b f ->
  file_got pl cap q m others (put l0 p0 b) (p0 + len b) [] f.
Proof.
  intros pl cap q m others l0 p0 b f (p & K & H). exists p. rewrite put_nil. unfold len at 1. cbn [length]. rewrite Z.add_0_r. auto.
Qed.

(** One entry. *)
Lemma entry_visible : forall p s, entry_text p s ->
  match p with EnterInteger _ _ | EnterBoolean _ => Forall visible s | _ => True end.
Proof.
  intros p s H. destruct H as [| |t x s H|b| |]; try exact I.
  - exact (proj1 (numeral_visible x s H)).
  - destruct b; repeat constructor; unfold visible; lia.
Qed.

Lemma format_numeral : forall k cs t x s, standard t -> in_range t x -> (is_signed t = true -> x <> min_of t) ->
  numeral 10 false None x s -> format_integer k cs t x default_integer_format = Ok s.
Proof.
  intros k cs t x s Ht Rx Hm Hn.
  assert (Hr : valid_radix (radix default_integer_format)) by (vm_compute; split; discriminate).
  destruct (C18_canonical_partial k cs t x default_integer_format Ht Rx Hr Hm) as (s' & E & _ & Un).
  rewrite (Un s Hn). exact E.
Qed.

Lemma make_entry_ok : forall (R : Type) native cs (ops : sink R) limit got e o p k s b st,
  good_sink ops limit got -> entry_text p s -> can_enter native e o p k -> wrote got e o b st ->
  len (b ++ text_bytes e o s) <= limit ->
  exists st', make_entry (order_of native) cs ops st p k = Ok st' /\ wrote got e o (b ++ text_bytes e o s) st'.
Proof.
  intros R native cs ops limit got e o p k s b st G T C H L. pose proof H as (_ & O & F). pose proof (entry_visible p s T) as V.
  assert (One : forall c, text_bytes e o [c] = unit_bytes e o (encode1 e c)).
  { intro c. rewrite text_bytes_cons. change (text_bytes e o []) with (@nil N). apply app_nil_r. }
  destruct T as [c|l|t x s Nu|v| |]; cbn [make_entry can_enter] in *.
  - rewrite One in *. exact (write_code_point_ok native ops limit got G e o b c st C H L).
  - exact (write_string_ok native ops limit got G e o k l b st C H L).
  - destruct C as (Ht & Rx & Hm). unfold write_integer. rewrite F, (format_numeral _ cs t x s Ht Rx Hm Nu). cbn [bind].
    destruct (write_string_ok native ops limit got G e o (own_kind (form_of e)) s b st (visible_printable _ _ _ _ _ V) H L)
      as (st' & E & H'). rewrite visible_units in E by exact V. eauto.
  - unfold write_bool. rewrite F.
    assert (Fb : format_bool (own_kind (form_of e)) v default_bool_format = Ok [if v then 49 else 48]%N)
      by (destruct e, v; vm_compute; reflexivity).
    rewrite Fb. cbn [bind].
    destruct (write_string_ok native ops limit got G e o (own_kind (form_of e)) _ b st (visible_printable _ _ _ _ _ V) H L)
      as (st' & E & H'). rewrite visible_units in E by exact V. eauto.
  - rewrite One in *. unfold write_bom. apply (write_code_point_ok native ops limit got G e o b bom st); try assumption.
    split; [unfold scalar, bom; lia|]. intros _. unfold bom. vm_compute. intros [X Y]. apply Y. reflexivity.
  - change (text_bytes e o []) with (@nil N) in *. rewrite app_nil_r in *. unfold text_flush. destruct H as (Hg & _).
    destruct (gk_flush _ _ _ G _ _ Hg) as (r' & E & Hg'). rewrite E. cbn [bind].
    exists (with_res st r'). split; [reflexivity|]. split; [exact Hg'|]. split; assumption.
Qed.

Lemma entries_on_file : forall pl native cs cap q m others e o ps l l0 p0 st,
  mode_writes m = true -> 0 <= p0 -> entries_text (map fst ps) l ->
  Forall (fun '(p, k) => can_enter native e o p k /\ small_entry pl e o p) ps ->
  p0 + len (text_bytes e o l) < 2 ^ 63 ->
  wrote (file_got pl cap q m others l0 p0) e o [] st ->
  exists st', make_entries (order_of native) cs (file_sink pl) st ps = Ok st' /\
    wrote (file_got pl cap q m others l0 p0) e o (text_bytes e o l) st'.
Proof.
  intros pl native cs cap q m others e o. induction ps as [|[p k] ps IH]; intros l l0 p0 st Mw P0 T C L H; cbn [map fst] in T.
  - inversion T; subst. exists st. split; [reflexivity|exact H].
  - inversion T as [|? s ? l' T1 T2]; subst. pose proof (Forall_inv C) as [C1 C2]. apply Forall_inv_tail in C.
    rewrite text_bytes_app in *. rewrite len_app in L. pose proof (len_nonneg (text_bytes e o l')). pose proof (len_nonneg (text_bytes e o s)).
    destruct (make_entry_ok file native cs (file_sink pl) _ _ e o p k s [] st (file_good_sink pl cap q m others l0 p0 Mw P0) T1 C1 H)
      as (st1 & E1 & W1). { cbn [app]. unfold most. specialize (C2 s T1). lia. }
    cbn [app] in W1. cbn [make_entries]. rewrite E1. cbn [bind].
    destruct W1 as (Hg & Ho & Hf).
    destruct (IH l' (put l0 p0 (text_bytes e o s)) (p0 + len (text_bytes e o s)) st1 Mw ltac:(lia) T2 C ltac:(lia))
      as (st2 & E2 & Hg2 & Ho2 & Hf2); [split; [exact (file_rebase _ _ _ _ _ _ _ _ _ Hg)|split; assumption]|].
    exists st2. split; [exact E2|]. split; [|split; assumption].
    destruct Hg2 as (pp & K2 & R2). exists pp. rewrite put_app in K2 by exact P0. rewrite len_app. rewrite Z.add_assoc. auto.
Qed.

Lemma write_text_file_ok : forall pl native cs w q old how cap (appending : bool) m e o ps l,
  will_open w q how old -> obliging w -> Z.of_nat cap <= chunk_max pl -> mode_writes m = true ->
  entries_text (map fst ps) l ->
  Forall (fun '(p, k) => can_enter native e o p k /\ small_entry pl e o p) ps ->
  len old + len (text_bytes e o l) < 2 ^ 63 ->
  exists w', write_text_file pl w q m how cap appending (order_of native) cs e o ps = Ok w' /\
    disk w' q = Some (put old (if appending then len old else 0) (text_bytes e o l)) /\
    (forall x, x <> q -> disk w' x = disk w x) /\ obliging w'.
Proof.
  intros pl native cs w q old how cap appending m e o ps l D B C Mw T Pc L. pose proof (len_nonneg old). pose proof (len_nonneg (text_bytes e o l)).
  unfold write_text_file.
  destruct (new_file_opens pl w q old m how cap D ltac:(lia) B C) as (f & E & Pa & B1 & K). rewrite E. cbn [bind]. clear E.
  set (p0 := if appending then len old else 0).
  assert (P0 : 0 <= p0 <= len old) by (subst p0; destruct appending; lia).
  assert (A : exists f', (if appending then file_seek pl f 0 FromEnd else Ok f) = Ok f' /\
    file_got pl (Z.of_nat cap) q m (disk w) old p0 [] f').
  { destruct appending.
    - destruct (call_file_step pl _ q m (disk w) Resting _ f (SetPosition 0 End) K B1 eq_refl) as (f' & E & Pa' & B2 & K').
      + cbn [file_allowed]. unfold file_target. cbn [bytes]. split; [lia|discriminate].
      + discriminate.
      + cbn [call_file reference] in E. destruct (file_seek pl f 0 FromEnd) as [f1| | | |]; try discriminate. cbn [bind] in E.
        injection E as ->. exists f'. split; [reflexivity|]. unfold next_stage in K'. cbn [file_call fst] in K'. unfold file_target in K'. cbn [bytes] in K'.
        exists Resting. rewrite put_nil. unfold len at 1. cbn [length]. unfold p0. rewrite Z.add_0_r in *.
        split; [destruct (Z.of_nat cap =? 0); exact K'|]. split; [congruence|]. split; [discriminate|exact B2].
    - exists f. split; [reflexivity|]. exists Resting. rewrite put_nil. split; [exact K|]. split; [exact Pa|]. split; [discriminate|exact B1]. }
  destruct A as (f' & E & Hg). rewrite E. cbn [bind]. clear E.
  destruct (entries_on_file pl native cs (Z.of_nat cap) q m (disk w) e o ps l old p0 (TextOutput f' (order_of o) (form_of e)))
    as (st1 & E1 & W1); try assumption; try lia.
  { split; [exact Hg|split; reflexivity]. }
  rewrite E1. cbn [bind]. destruct W1 as (Hg1 & _).
  destruct (gk_flush _ _ _ (file_good_sink pl (Z.of_nat cap) q m (disk w) old p0 Mw ltac:(lia)) _ _ Hg1) as (f2 & E2 & Hg2).
  unfold text_flush. rewrite E2. cbn [bind noexcept with_res out_res].
  destruct Hg2 as (pp & K2 & Pa2 & Pr2 & B2).
  destruct (close_file pl (Z.of_nat cap) q m (disk w) pp _ f2 K2 B2 (fun _ => Mw)) as (f3 & E3 & _ & D3 & O3 & _ & B3 & _).
  unfold destroy. rewrite E3. cbn [bind]. eexists. split; [reflexivity|]. split; [exact D3|]. split; [exact O3|exact B3].
Qed.

Lemma put_over : forall old d, len old <= len d -> put old 0 d = d.
Proof.
  intros old d H. destruct d as [|c d].
  - destruct old; [reflexivity|]. unfold len in H. cbn [length] in H. lia.
  - rewrite put_eq by discriminate. rewrite take_0. rewrite zeros_none by (pose proof (len_nonneg old); lia). cbn [app].
    rewrite drop_all by lia. now rewrite app_nil_r.
Qed.

Lemma put_end : forall old d, put old (len old) d = old ++ d.
Proof.
  intros old d. destruct d as [|c d].
  - now rewrite put_nil, app_nil_r.
  - rewrite put_eq by discriminate. rewrite take_all by lia. rewrite zeros_none by lia.
    rewrite drop_all by (unfold len; cbn [length]; lia). now rewrite app_nil_r.
Qed.

(* ------------------------------------------------- opening, reading, closing *)

Lemma file_biggest_wide : forall pl cap e, wide_enough cap e -> Z.of_nat cap <= chunk_max pl ->
  Z.of_nat (unit_width e) <= file_biggest pl (Z.of_nat cap).
Proof.
  intros pl cap e W C. unfold file_biggest. assert (4 <= chunk_max pl) by (destruct pl; vm_compute; discriminate).
  assert (unit_width e <= 4)%nat by (destruct e; cbn; lia).
  destruct (Z.eqb_spec (Z.of_nat cap) 0); [lia|]. destruct W; lia.
Qed.

Lemma opened_left : forall Pr pl w q cap m c, disk w q = Some c -> len c < 2 ^ 63 ->
  response_now w <> Refuse -> Forall Pr (script w) -> Z.of_nat cap <= chunk_max pl ->
  exists f, new_file pl w q m Fail cap = Ok f /\ file_left Pr pl (Z.of_nat cap) q m (disk w) c c f.
Proof.
  intros Pr pl w q cap m c D L B Fr C.
  destruct (will_open_file pl w q c m Fail cap (or_introl D) L B C) as (f & E & Pa & Sc & K).
  exists f. split; [exact E|]. exists Resting, (Store c 0). split; [exact K|]. split; [exact Pa|]. split; [discriminate|].
  split; [reflexivity|]. cbn [at_]. split; [apply len_nonneg|]. split; [apply drop_0|]. rewrite Sc. now apply Forall_tl.
Qed.

Lemma read_text_file_gives : forall Pr (sure : Prop) pl native w q cap m e o l fuel qs answers rest,
  sound_responses pl sure Pr ->
  disk w q = Some (text_bytes e o l) -> len (text_bytes e o l) < 2 ^ 63 ->
  response_now w <> Refuse -> Forall Pr (script w) ->
  Z.of_nat cap <= chunk_max pl -> wide_enough cap e -> mode_reads m = true ->
  Forall scalar l -> (length l < fuel)%nat ->
  obtains_all (map fst qs) (filtered l) answers rest -> all_can_arrive qs answers ->
  gives sure (read_text_file pl w q m cap false (order_of native) e o fuel qs) (fun '(w', xs) =>
    xs = pieces_in qs answers /\ disk w' q = disk w q /\ (forall x, x <> q -> disk w' x = disk w x)).
Proof.
  intros Pr sure pl native w q cap m e o l fuel qs answers rest Sp D L B Fr C W Mr S F Ob Ca. unfold read_text_file.
  destruct (opened_left Pr pl w q cap m (text_bytes e o l) D L B Fr C) as (f & E & Lf). rewrite E. cbn [bind].
  eapply gives_bind.
  - apply (requests_give sure native (file_source pl) _ _
      (file_text_source Pr sure pl (Z.of_nat cap) q m (disk w) (text_bytes e o l) Sp Mr) e o (length l) fuel
      (file_biggest_wide pl cap e W C) F qs l answers rest); try assumption.
    split; [|split; [exact S|apply le_n]]. split; [exact Lf|split; reflexivity].
  - intros [st1 xs] (-> & l' & _ & (Lf' & _) & _).
    destruct Lf' as (p & s & K' & _ & Pw & Bs & _).
    destruct (close_reader pl (Z.of_nat cap) q m (disk w) p s (in_res st1) K' Pw) as (f' & E' & D' & O' & _).
    unfold destroy. rewrite E'. cbn [bind]. apply gives_ok. split; [reflexivity|]. split; [|exact O'].
    rewrite D. unfold disk_of in D'. rewrite D'. now rewrite Bs.
Qed.
