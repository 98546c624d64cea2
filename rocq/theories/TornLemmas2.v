(** The characters that calls are made for, and what a kill leaves of them. *)
From Coq Require Import NArith ZArith List Bool Lia.
From Coq Require Import ZifyBool ZifyNat ZifyN.
From Verif Require Import Base Integers UnicodeSpec UnicodeModel UnicodeText UnicodeLemmas UnicodeLemmas2 UnicodeLemmas3
  NumeralSpec NumberModel NumberText NumberLemmas NumberProps
  ResourceSpec ResourceModel ResourceText ResourceLemmas StreamSpec StreamModel StreamText StreamLemmas StreamLemmas2 StreamLemmas3 StreamLemmas4
  FileSpec FileModel FileText FileLemmas FileLemmas2 FileLemmas3 FileLemmas4 FileLemmas6
  TextFileSpec TextFileModel TextFileText TextFileLemmas TextFileLemmas2 DataFileText CrashSpec TornSpec TornModel TornLemmas.
Import ListNotations.
Open Scope Z_scope.

Section Spelling.
Context (native : byte_order).

(** The stream has written the characters l, each at once. *)
Definition spelled (e : encoding) (o : byte_order) (l : list N) (st : text_output (list call)) : Prop :=
  spells e o (out_res st) l /\ out_order st = order_of o /\ out_form st = form_of e.

Lemma spell_write : forall e o l t d st, spelled e o l st -> d = text_bytes e o t ->
  exists st', text_write note st d = Ok st' /\ spelled e o (l ++ t) st'.
Proof.
  intros e o l t d st (H & O & F) ->. eexists. split; [reflexivity|]. split; [now apply SpellsMore|]. split; assumption.
Qed.

Lemma spell_reverse : forall e o l c w u st, (0 < w)%nat -> endian_eqb (order_of o) (order_of native) = false ->
  spelled e o l st -> in_order o w u = text_bytes e o [c] ->
  exists st', text_reverse_write note st (to_memory (order_of native) w u) = Ok st' /\ spelled e o (l ++ [c]) st'.
Proof.
  intros e o l c w u st W E H T. rewrite to_memory_in_order. apply (other_order native) in E. subst o.
  unfold text_reverse_write, reverse_write. change size_of with len. rewrite invert_whole.
  - cbn [bind]. apply (spell_write e (opposite native) l [c] _ st H). rewrite in_order_opposite. exact T.
  - intro Z. apply (f_equal (@length N)) in Z. rewrite in_order_length in Z. cbn in Z. lia.
Qed.

Lemma one_bytes : forall e o c, text_bytes e o [c] = unit_bytes e o (encode1 e c).
Proof. intros e o c. rewrite text_bytes_cons. change (text_bytes e o []) with (@nil N). apply app_nil_r. Qed.

Lemma at_once_cons : forall e o c l, at_once native e o (c :: l) -> at_once native e o [c] /\ at_once native e o l.
Proof.
  intros e o c l [H|[H|H]]; [split; now left|split; right; now left|]. inversion H; subst.
  split; right; right; [now repeat constructor|assumption].
Qed.

Lemma at_once_app : forall e o a b, at_once native e o (a ++ b) -> at_once native e o a /\ at_once native e o b.
Proof.
  intros e o a b [H|[H|H]]; [split; now left|split; right; now left|]. apply Forall_app in H. split; right; right; tauto.
Qed.

Lemma spell_code_point : forall e o b c st, StreamText.writable e c -> at_once native e o [c] -> spelled e o b st ->
  exists st', write_code_point (order_of native) note st c = Ok st' /\ spelled e o (b ++ [c]) st'.
Proof.
  intros e o b c st [S W8] L H. pose proof H as (_ & O & F). unfold write_code_point. rewrite F. destruct e; cbn [form_of].
  - unfold write_code_point_in_utf8. rewrite append_to_ok by (split; [exact S|intros _; now apply W8]).
    cbn [bind app]. rewrite units_one. cbn [encoding_of].
    apply (spell_write UTF8 o b [c] _ st H). rewrite one_bytes. symmetry.
    apply unit_bytes_8, Forall_forall; intros u; apply (encode1_range UTF8 c u S).
  - unfold write_code_point_in_utf16. rewrite append_to_ok by (split; [exact S|discriminate]).
    cbn [bind app]. rewrite units_one. cbn [encoding_of]. rewrite O.
    destruct (endian_eqb _ _) eqn:E.
    + apply (same_order native) in E. subst o. apply (spell_write UTF16 native b [c] _ st H). rewrite one_bytes. apply (units_memory_ok native UTF16).
    + assert (C : (c < 0x10000)%N).
      { destruct L as [L|[L|L]]; [congruence| |exact (Forall_inv L)]. subst o. destruct native; discriminate. }
      cbn [encode1]. unfold utf16_of. rewrite (proj2 (N.ltb_lt _ _) C). cbn [length Nat.ltb Nat.leb nth].
      destruct (spell_reverse UTF16 o b c 2 c st ltac:(lia) E H) as (st1 & X & Y).
      { rewrite one_bytes. unfold unit_bytes. cbn [encode1 unit_width]. unfold utf16_of. rewrite (proj2 (N.ltb_lt _ _) C).
        cbn [flat_map]. now rewrite app_nil_r. }
      rewrite X. cbn [bind]. eauto.
  - unfold write_code_point_in_utf32.
    assert (T : in_order o 4 c = text_bytes UTF32 o [c]).
    { rewrite one_bytes. unfold unit_bytes. cbn [encode1 utf32_of unit_width flat_map]. now rewrite app_nil_r. }
    rewrite O. destruct (endian_eqb _ _) eqn:E.
    + apply (same_order native) in E. subst o. rewrite to_memory_in_order. exact (spell_write UTF32 native b [c] _ st H T).
    + exact (spell_reverse UTF32 o b c 4 c st ltac:(lia) E H T).
Qed.

Lemma spell_each : forall e o l b st, Forall (StreamText.writable e) l -> at_once native e o l -> spelled e o b st ->
  exists st', write_each (match e with
   | UTF8 => write_code_point_in_utf8 note
   | UTF16 => write_code_point_in_utf16 (order_of native) note
   | UTF32 => write_code_point_in_utf32 (order_of native) note end) st l = Ok st' /\ spelled e o (b ++ l) st'.
Proof.
  intros e o. induction l as [|c l IH]; intros b st W L H; cbn [write_each].
  - exists st. split; [reflexivity|]. rewrite app_nil_r. exact H.
  - inversion W; subst. destruct (at_once_cons _ _ _ _ L) as [L1 L2].
    destruct (spell_code_point e o b c st) as (st1 & E & H1); try assumption.
    change (c :: l) with ([c] ++ l). rewrite app_assoc.
    assert (X : (match e with
      | UTF8 => write_code_point_in_utf8 note
      | UTF16 => write_code_point_in_utf16 (order_of native) note
      | UTF32 => write_code_point_in_utf32 (order_of native) note end) st c = write_code_point (order_of native) note st c)
      by (unfold write_code_point; destruct H as (_ & _ & F); rewrite F; destruct e; reflexivity).
    rewrite X, E. cbn [bind]. now apply IH.
Qed.

Lemma spell_by_code_point : forall e o k l b st, Forall (StreamText.writable e) l -> Forall (holds k) l -> Forall (single_unit k) l ->
  at_once native e o l -> spelled e o b st ->
  exists st', write_by_code_point (match e with
   | UTF8 => write_code_point_in_utf8 note
   | UTF16 => write_code_point_in_utf16 (order_of native) note
   | UTF32 => write_code_point_in_utf32 (order_of native) note end) k st (units k l) = Ok st' /\
   spelled e o (b ++ l) st'.
Proof.
  intros e o k l b st W Hk Sk L H. unfold write_by_code_point. rewrite visit_ok by assumption.
  destruct (spell_each e o l b st W L H) as (st' & E & H'). rewrite E. cbn [bind]. eauto.
Qed.

Lemma write_string_spelled : forall e o k l b st, Forall (printable native e o k) l -> at_once native e o l -> spelled e o b st ->
  exists st', write_string (order_of native) note k st (units k l) = Ok st' /\ spelled e o (b ++ l) st'.
Proof.
  intros e o k l b st P L H. pose proof H as (_ & O & F). unfold write_string. rewrite F, O.
  destruct k as [cs| | | | |].
  - (* char *)
    assert (P' : Forall (fun c => (c < 128)%N) l) by exact P.
    assert (U : units (KChar cs) l = l).
    { clear. induction l as [|c l IH]; [reflexivity|]. change (c :: units (KChar cs) l = c :: l). now rewrite IH. }
    assert (M : map (widen (KChar cs)) l = l).
    { clear - P'. induction P' as [|c l Hc P' IH]; [reflexivity|]. cbn [map]. rewrite IH. f_equal.
      apply holds_widen. destruct cs; cbn; lia. }
    rewrite U, M. assert (W : Forall (StreamText.writable e) l) by (eapply Forall_impl; [|exact P']; intros; now apply ascii_writable).
    destruct e; cbn [form_of].
    + apply (spell_write UTF8 o b l l st H). symmetry. exact (ascii_bytes o l P').
    + exact (spell_each UTF16 o l b st W L H).
    + exact (spell_each UTF32 o l b st W L H).
  - assert (S : Forall scalar l) by (eapply Forall_impl; [|exact P]; intros c X; exact (proj1 X)).
    destruct e; cbn [form_of].
    + replace (units K8 l) with (text_bytes UTF8 o l); [exact (spell_write UTF8 o b l _ st H eq_refl)|].
      unfold text_bytes, units. cbn [encoding_of]. apply unit_bytes_8.
      exact (units_range K8 l S).
    + apply (spell_by_code_point UTF16 o K8 l b st); try assumption;
        (eapply Forall_impl; [|exact P]); intros c [_ X]; now apply X.
    + apply (spell_by_code_point UTF32 o K8 l b st); try assumption;
        (eapply Forall_impl; [|exact P]); intros c [_ X]; now apply X.
  - assert (S : Forall scalar l) by (eapply Forall_impl; [|exact P]; intros c X; exact (proj1 X)).
    destruct e; cbn [form_of].
    + apply (spell_by_code_point UTF8 o K16 l b st); try assumption;
        (eapply Forall_impl; [|exact P]); intros c [_ X]; now apply X.
    + destruct (endian_eqb _ _) eqn:E.
      * apply (same_order native) in E. subst o. exact (spell_write UTF16 native b l _ st H (units_memory_ok native UTF16 _)).
      * apply (spell_by_code_point UTF16 o K16 l b st); try assumption;
        (eapply Forall_impl; [|exact P]); intros c [_ X]; now apply X.
    + apply (spell_by_code_point UTF32 o K16 l b st); try assumption;
        (eapply Forall_impl; [|exact P]); intros c [_ X]; now apply X.
  - assert (S : Forall scalar l) by (eapply Forall_impl; [|exact P]; intros c X; exact (proj1 X)).
    destruct e; cbn [form_of].
    + apply (spell_by_code_point UTF8 o K32 l b st); try assumption;
        (eapply Forall_impl; [|exact P]); intros c [_ X]; now apply X.
    + apply (spell_by_code_point UTF16 o K32 l b st); try assumption;
        (eapply Forall_impl; [|exact P]); intros c [_ X]; now apply X.
    + destruct (endian_eqb _ _) eqn:E.
      * apply (same_order native) in E. subst o. exact (spell_write UTF32 native b l _ st H (units_memory_ok native UTF32 _)).
      * apply (spell_by_code_point UTF32 o K32 l b st); try assumption;
        (eapply Forall_impl; [|exact P]); intros c [_ X]; now apply X.
  - assert (S : Forall scalar l) by (eapply Forall_impl; [|exact P]; intros c X; exact (proj1 X)).
    destruct e; cbn [form_of].
    + apply (spell_by_code_point UTF8 o KW2 l b st); try assumption;
        (eapply Forall_impl; [|exact P]); intros c [_ X]; now apply X.
    + destruct (endian_eqb _ _) eqn:E.
      * apply (same_order native) in E. subst o. exact (spell_write UTF16 native b l _ st H (units_memory_ok native UTF16 _)).
      * apply (spell_by_code_point UTF16 o KW2 l b st); try assumption;
        (eapply Forall_impl; [|exact P]); intros c [_ X]; now apply X.
    + apply (spell_by_code_point UTF32 o KW2 l b st); try assumption;
        (eapply Forall_impl; [|exact P]); intros c [_ X]; now apply X.
  - assert (S : Forall scalar l) by (eapply Forall_impl; [|exact P]; intros c X; exact (proj1 X)).
    destruct e; cbn [form_of].
    + apply (spell_by_code_point UTF8 o KW4 l b st); try assumption;
        (eapply Forall_impl; [|exact P]); intros c [_ X]; now apply X.
    + apply (spell_by_code_point UTF16 o KW4 l b st); try assumption;
        (eapply Forall_impl; [|exact P]); intros c [_ X]; now apply X.
    + destruct (endian_eqb _ _) eqn:E.
      * apply (same_order native) in E. subst o. exact (spell_write UTF32 native b l _ st H (units_memory_ok native UTF32 _)).
      * apply (spell_by_code_point UTF32 o KW4 l b st); try assumption;
        (eapply Forall_impl; [|exact P]); intros c [_ X]; now apply X.
Qed.

Lemma spell_entry : forall cs e o p k s b st, entry_text p s -> can_enter native e o p k -> at_once native e o s -> spelled e o b st ->
  exists st', make_entry (order_of native) cs note st p k = Ok st' /\ spelled e o (b ++ s) st'.
Proof.
  intros cs e o p k s b st T C L H. pose proof H as (_ & O & F). pose proof (entry_visible p s T) as V.
  destruct T as [c|l|t x s Nu|v| |]; cbn [make_entry can_enter] in *.
  - exact (spell_code_point e o b c st C L H).
  - exact (write_string_spelled e o k l b st C L H).
  - destruct C as (Ht & Rx & Hm). unfold write_integer. rewrite F, (format_numeral _ cs t x s Ht Rx Hm Nu). cbn [bind].
    destruct (write_string_spelled e o (own_kind (form_of e)) s b st (visible_printable _ _ _ _ _ V) L H)
      as (st' & E & H'). rewrite visible_units in E by exact V. eauto.
  - unfold write_bool. rewrite F.
    assert (Fb : format_bool (own_kind (form_of e)) v default_bool_format = Ok [if v then 49 else 48]%N)
      by (destruct e, v; vm_compute; reflexivity).
    rewrite Fb. cbn [bind].
    destruct (write_string_spelled e o (own_kind (form_of e)) _ b st (visible_printable _ _ _ _ _ V) L H)
      as (st' & E & H'). rewrite visible_units in E by exact V. eauto.
  - unfold write_bom. apply (spell_code_point e o b bom st); try assumption.
    split; [unfold scalar, bom; lia|]. intros _. unfold bom. vm_compute. intros [X Y]. apply Y. reflexivity.
  - rewrite app_nil_r. eexists. split; [reflexivity|]. destruct H as (H & _). split; [now apply SpellsFlush|]. split; assumption.
Qed.

Lemma spell_entries : forall cs e o ps l b st, entries_text (map fst ps) l ->
  Forall (fun '(p, k) => can_enter native e o p k) ps -> at_once native e o l -> spelled e o b st ->
  exists st', make_entries (order_of native) cs note st ps = Ok st' /\ spelled e o (b ++ l) st'.
Proof.
  intros cs e o. induction ps as [|[p k] ps IH]; intros l b st T C L H; cbn [map fst] in T.
  - inversion T; subst. exists st. rewrite app_nil_r. split; [reflexivity|exact H].
  - inversion T as [|? s ? l' T1 T2]; subst. pose proof (Forall_inv C) as C1. apply Forall_inv_tail in C.
    destruct (at_once_app _ _ _ _ L) as [L1 L2]. cbn [make_entries].
    destruct (spell_entry cs e o p k s b st T1 C1 L1 H) as (st1 & E1 & H1). rewrite E1. cbn [bind]. rewrite app_assoc.
    exact (IH l' (b ++ s) st1 T2 C L2 H1).
Qed.

End Spelling.

Lemma written_app : forall a b, written (a ++ b) = written a ++ written b.
Proof. intros. apply flat_map_app. Qed.

Lemma spells_written : forall e o cs l, spells e o cs l -> written cs = text_bytes e o l.
Proof.
  intros e o cs l H. induction H as [|cs l t H IH|cs l H IH]; [reflexivity| |]; rewrite written_app, IH; cbn; rewrite app_nil_r.
  - now rewrite text_bytes_app.
  - reflexivity.
Qed.

Lemma spells_part : forall e o cs l, spells e o cs l -> forall kept rest, cs = kept ++ rest ->
  exists l', prefix_of l' l /\ written kept = text_bytes e o l'.
Proof.
  intros e o cs l H. induction H as [|cs l t H IH|cs l H IH]; intros kept rest E.
  - destruct kept; [|discriminate]. exists []. split; [now exists []|reflexivity].
  - destruct rest as [|x rest _] using rev_ind.
    + rewrite app_nil_r in E. subst kept. exists (l ++ t). split; [exists []; now rewrite app_nil_r|].
      apply spells_written. now apply SpellsMore.
    + rewrite app_assoc in E. apply app_inj_tail in E. destruct E as [E _].
      destruct (IH kept rest E) as (l' & [t1 ->] & Wk). exists l'. split; [exists (t1 ++ t); now rewrite app_assoc|exact Wk].
  - destruct rest as [|x rest _] using rev_ind.
    + rewrite app_nil_r in E. subst kept. exists l. split; [exists []; now rewrite app_nil_r|].
      apply spells_written. now apply SpellsFlush.
    + rewrite app_assoc in E. apply app_inj_tail in E. destruct E as [E _]. exact (IH kept rest E).
Qed.

(* ---------------------------------------------------- the calls in any case *)

(** Writes of at most so many bytes, and flushes. *)
Definition plain (most : Z) (c : call) : Prop :=
  match c with Write d => len d <= most | Flush => True | _ => False end.

Definition noted (most : Z) (cs0 : list call) (b : list N) (cs : list call) : Prop :=
  exists more, cs = cs0 ++ more /\ written more = b /\ Forall (plain most) more.

Lemma note_good : forall most cs0, good_sink note most (noted most cs0).
Proof.
  intros most cs0. split.
  - intros b r d (more & -> & W & P) L. eexists _, _. split; [reflexivity|]. exists (more ++ [Write d]).
    split; [now rewrite app_assoc|]. split; [rewrite written_app, W; cbn; now rewrite app_nil_r|].
    apply Forall_app. split; [assumption|]. constructor; [|constructor]. cbn [plain]. rewrite len_app in L. pose proof (len_nonneg b). lia.
  - intros b r (more & -> & W & P). eexists. split; [reflexivity|]. exists (more ++ [Flush]).
    split; [now rewrite app_assoc|]. split; [rewrite written_app, W; cbn; now rewrite app_nil_r|].
    apply Forall_app. split; [assumption|]. constructor; [exact I|constructor].
Qed.

Lemma note_entries : forall pl native cs e o ps l cs0, entries_text (map fst ps) l ->
  Forall (fun '(p, k) => can_enter native e o p k /\ small_entry pl e o p) ps ->
  exists cs', make_entries (order_of native) cs note (TextOutput cs0 (order_of o) (form_of e)) ps
      = Ok (TextOutput (cs0 ++ cs') (order_of o) (form_of e)) /\
    written cs' = text_bytes e o l /\ Forall (plain (chunk_max pl)) cs'.
Proof.
  intros pl native cs e o. induction ps as [|[p k] ps IH]; intros l cs0 T C; cbn [map fst] in T.
  - inversion T; subst. exists []. rewrite app_nil_r. repeat (split; [reflexivity|]). constructor.
  - inversion T as [|? s ? l' T1 T2]; subst. pose proof (Forall_inv C) as [C1 C2]. apply Forall_inv_tail in C.
    destruct (make_entry_ok _ native cs note _ _ e o p k s [] (TextOutput cs0 (order_of o) (form_of e)) (note_good (chunk_max pl) cs0) T1 C1)
      as ([r o1 f1] & E1 & ((more & Er & W & P) & O1 & F1)).
    { split; [exists []; rewrite app_nil_r; repeat (split; [reflexivity|]); constructor|split; reflexivity]. }
    { exact (C2 s T1). }
    cbn [out_res out_order out_form app] in Er, O1, F1, W. subst r o1 f1. cbn [make_entries]. rewrite E1. cbn [bind out_res].
    destruct (IH l' (cs0 ++ more) T2 C) as (cs' & E2 & W2 & P2). rewrite E2. exists (more ++ cs').
    split; [now rewrite app_assoc|]. split; [rewrite written_app, W, W2, text_bytes_app; reflexivity|]. now apply Forall_app.
Qed.

(* ------------------------------------------------------------------ on files *)

Lemma plain_bytes : forall most cs l, Forall (plain most) cs -> file_bytes l cs = put l 0 (written cs).
Proof.
  intros most cs l. unfold file_bytes.
  assert (X : forall cs l p, 0 <= p -> Forall (plain most) cs -> bytes (fst (file_calls (Store l p) cs)) = put l p (written cs)).
  { clear. induction cs as [|c cs IH]; intros l p P H; [symmetry; apply put_nil|]. inversion H as [|? ? H1 H2]; subst.
    destruct c; cbn [plain] in H1; try contradiction; cbn [file_calls file_call bytes at_].
    - destruct (file_calls _ cs) as [s a] eqn:E. cbn [fst]. apply (f_equal fst) in E. cbn [fst] in E. rewrite <- E.
      pose proof (len_nonneg data). rewrite IH by (assumption || lia). unfold written. cbn [flat_map]. now rewrite put_app by lia.
    - destruct (file_calls _ cs) as [s a] eqn:E. cbn [fst]. apply (f_equal fst) in E. cbn [fst] in E. rewrite <- E. now apply IH. }
  intro H. now apply X.
Qed.

Lemma plain_allowed : forall most cap cs l, Forall (plain most) cs -> len (written cs) < 2 ^ 63 ->
  all_file_allowed most cap (Store l 0) Resting cs.
Proof.
  intros most cap cs l.
  assert (X : forall cs l p st, st <> InReads -> 0 <= p -> Forall (plain most) cs -> p + len (written cs) < 2 ^ 63 ->
    all_file_allowed most cap (Store l p) st cs).
  { clear. induction cs as [|c cs IH]; intros l p st S P H L; [exact I|]. inversion H as [|? ? H1 H2]; subst.
    destruct c; cbn [plain] in H1; try contradiction; cbn [all_file_allowed file_allowed file_call fst at_].
    - unfold written in L. cbn [flat_map] in L. fold (written cs) in L. rewrite len_app in L.
      pose proof (len_nonneg data). pose proof (len_nonneg (written cs)). split; [split; [assumption|lia]|].
      apply IH; try assumption; try lia. unfold next_stage. destruct (cap =? 0); discriminate.
    - split; [exact I|]. apply IH; try assumption. unfold next_stage. destruct (cap =? 0); [discriminate|]. destruct st; congruence. }
  intros H L. apply X; try assumption; [discriminate|lia].
Qed.

Lemma plain_permits : forall most m cs, mode_writes m = true -> Forall (plain most) cs -> Forall (fun c => permits m c = true) cs.
Proof. intros most m cs W H. eapply Forall_impl; [|exact H]. intros c P. destruct c; try contradiction; [exact W|reflexivity]. Qed.

Lemma run_calls_file : forall pl cs f f' l, Forall (fun c => match c with Write _ | Flush => True | _ => False end) cs ->
  run_file pl f cs = Ok (f', map Returned l) -> run_calls (file_sink pl) f cs = Ok f'.
Proof.
  intros pl. induction cs as [|c cs IH]; intros f f' l H E; cbn [run_file run_calls] in *; [now injection E as ->|].
  inversion H as [|? ? H1 H2]; subst. destruct c; try contradiction; cbn [call_file file_sink sink_write sink_flush] in *.
  - destruct (file_write pl f data) as [[f1 r]| | | |]; try discriminate. cbn [bind returned] in *.
    destruct (run_file pl f1 cs) as [[f2 l2]| | | |] eqn:E2; try discriminate. cbn [bind] in E.
    destruct l as [|x l]; [discriminate|]. cbn [map] in E.
    assert (A : answered Wrote r = Returned x /\ l2 = map Returned l /\ f2 = f') by (injection E; auto).
    destruct A as (A & -> & ->). unfold returned. destruct r; cbn [answered] in A; [|discriminate]. cbn [bind]. eapply IH; eassumption.
  - destruct (file_flush pl f) as [f1| | | |]; try discriminate. cbn [bind] in *.
    destruct (run_file pl f1 cs) as [[f2 l2]| | | |] eqn:E2; try discriminate. cbn [bind] in E.
    destruct l as [|x l]; [discriminate|]. cbn [map] in E.
    assert (A : l2 = map Returned l /\ f2 = f') by (injection E; auto). destruct A as (-> & ->). eapply IH; eassumption.
Qed.
