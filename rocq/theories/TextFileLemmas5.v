(** Text streams on files that were not opened for it, and what entries consist of. *)
From Coq Require Import NArith ZArith List Bool Lia ZifyBool ZifyNat ZifyN.
From Verif Require Import Base Integers UnicodeSpec UnicodeModel UnicodeText UnicodeLemmas UnicodeLemmas2 UnicodeLemmas3
  NumeralSpec NumberModel NumberText NumberLemmas NumberProps
  ResourceSpec ResourceModel ResourceText ResourceLemmas StreamSpec StreamModel StreamText StreamLemmas StreamLemmas2 StreamLemmas3 StreamLemmas4
  FileSpec FileModel FileText FileLemmas FileLemmas2 FileLemmas3 FileLemmas4 FileLemmas6
  TextFileSpec TextFileModel TextFileText TextFileLemmas TextFileLemmas2 TextFileLemmas3.
Import ListNotations.
Open Scope Z_scope.

(* ------------------------------------------------------- what is written is text *)

Lemma printable_scalar : forall native e o k c, printable native e o k c -> scalar c.
Proof. intros native e o k c H. destruct k; cbn in H; try tauto. unfold scalar. lia. Qed.

Lemma entry_scalar : forall native e o p k s, entry_text p s -> can_enter native e o p k -> Forall scalar s.
Proof.
  intros native e o p k s T C. pose proof (entry_visible p s T) as V.
  destruct T as [c|l|t x s Nu|v| |]; cbn [can_enter] in C.
  - constructor; [exact (proj1 C)|constructor].
  - eapply Forall_impl; [|exact C]. intros c H. exact (printable_scalar _ _ _ _ _ H).
  - eapply Forall_impl; [|exact V]. unfold visible, scalar. intros; lia.
  - eapply Forall_impl; [|exact V]. unfold visible, scalar. intros; lia.
  - constructor; [unfold scalar; lia|constructor].
  - constructor.
Qed.

Lemma entries_scalar : forall native e o ps l, entries_text (map fst ps) l ->
  Forall (fun '(p, k) => can_enter native e o p k) ps -> Forall scalar l.
Proof.
  intros native e o. induction ps as [|[p k] ps IH]; intros l T C; cbn [map fst] in T; inversion T as [|? s ? l' T1 T2]; subst; [constructor|].
  apply Forall_app. split; [exact (entry_scalar _ _ _ _ _ _ T1 (Forall_inv C))|exact (IH l' T2 (Forall_inv_tail C))].
Qed.

(* ------------------------------------------------------------ refused writes *)

(** A sink that takes everything. *)
Definition collector : sink (list N) := Sink _ (fun b d => Ok (b ++ d, len d)) (fun b => Ok b).

Lemma collector_good : forall limit, good_sink collector limit (fun b r => r = b).
Proof.
  intro limit. split.
  - intros b r d -> _. exists (b ++ d), (len d). split; reflexivity.
  - intros b r ->. exists b. split; reflexivity.
Qed.

Lemma entries_collected : forall native cs e o ps l b st, entries_text (map fst ps) l ->
  Forall (fun '(p, k) => can_enter native e o p k) ps -> wrote (fun b (r : list N) => r = b) e o b st ->
  exists st', make_entries (order_of native) cs collector st ps = Ok st' /\ out_res st' = b ++ text_bytes e o l.
Proof.
  intros native cs e o. induction ps as [|[p k] ps IH]; intros l b st T C H; cbn [map fst] in T.
  - inversion T; subst. exists st. split; [reflexivity|]. destruct H as (-> & _). change (text_bytes e o []) with (@nil N). now rewrite app_nil_r.
  - inversion T as [|? s ? l' T1 T2]; subst. pose proof (Forall_inv C) as C1. apply Forall_inv_tail in C.
    destruct (make_entry_ok _ native cs collector _ _ e o p k s b st (collector_good (len (b ++ text_bytes e o s))) T1 C1 H (Z.le_refl _))
      as (st1 & E1 & W1).
    cbn [make_entries]. rewrite E1. cbn [bind]. destruct (IH l' _ st1 T2 C W1) as (st2 & E2 & R2).
    exists st2. split; [exact E2|]. now rewrite R2, text_bytes_app, app_assoc.
Qed.

Section Refused.
Context {R : Type} (ops : sink R) (x : exn) (Inv : R -> Prop).
Context (Wr : forall r d, Inv r -> sink_write ops r d = Throw x).
Context (Fl : forall r, Inv r -> exists r', sink_flush ops r = Ok r' /\ Inv r').

Definition same (s1 : text_output (list N)) (s2 : text_output R) : Prop :=
  out_res s1 = [] /\ Inv (out_res s2) /\ out_order s1 = out_order s2 /\ out_form s1 = out_form s2.

(** When the collector gets through, the other throws, or nothing has been written. *)
Definition mirrors (a : outcome (text_output (list N))) (b : outcome (text_output R)) : Prop :=
  forall s1, a = Ok s1 -> b = Throw x \/ exists s2, b = Ok s2 /\ same s1 s2.

Lemma mirrors_ok : forall s1 s2, same s1 s2 -> mirrors (Ok s1) (Ok s2).
Proof. intros s1 s2 H s E. injection E as <-. right. eauto. Qed.

Lemma mirrors_bind : forall a b f g, mirrors a b -> (forall s1 s2, same s1 s2 -> mirrors (f s1) (g s2)) ->
  mirrors (bind a f) (bind b g).
Proof.
  intros a b f g H K s E. destruct a as [s1| | | |]; cbn [bind] in E; try discriminate.
  destruct (H s1 eq_refl) as [->|(s2 & -> & M)]; [left; reflexivity|]. exact (K s1 s2 M s E).
Qed.

Lemma mirrors_const : forall (A : Type) (a : outcome A) f g, (forall v, mirrors (f v) (g v)) -> mirrors (bind a f) (bind a g).
Proof. intros A a f g K s E. destruct a as [v| | | |]; cbn [bind] in *; try discriminate. exact (K v s E). Qed.

Lemma mirrors_write : forall s1 s2 d, same s1 s2 -> mirrors (text_write collector s1 d) (text_write ops s2 d).
Proof. intros s1 s2 d (_ & I & _) s _. left. unfold text_write, stream_write. now rewrite Wr. Qed.

Lemma mirrors_reverse : forall s1 s2 d, same s1 s2 -> mirrors (text_reverse_write collector s1 d) (text_reverse_write ops s2 d).
Proof.
  intros s1 s2 d (_ & I & _) s E. left. unfold text_reverse_write, reverse_write in *.
  destruct (invert_endianness d (size_of d)) as [d'| | | |]; cbn [bind] in *; try discriminate.
  unfold stream_write. now rewrite Wr.
Qed.

Context (native : endian).

Lemma mirrors_utf8 : forall s1 s2 c, same s1 s2 -> mirrors (write_code_point_in_utf8 collector s1 c) (write_code_point_in_utf8 ops s2 c).
Proof. intros s1 s2 c M. unfold write_code_point_in_utf8. apply mirrors_const. intro d. now apply mirrors_write. Qed.

Lemma mirrors_utf16 : forall s1 s2 c, same s1 s2 ->
  mirrors (write_code_point_in_utf16 native collector s1 c) (write_code_point_in_utf16 native ops s2 c).
Proof.
  intros s1 s2 c M. pose proof M as (_ & _ & Eo & _). unfold write_code_point_in_utf16. apply mirrors_const. intro d. rewrite Eo.
  destruct (endian_eqb _ _); [now apply mirrors_write|]. apply mirrors_bind; [now apply mirrors_reverse|].
  intros t1 t2 M'. destruct (Nat.ltb _ _); [now apply mirrors_reverse|now apply mirrors_ok].
Qed.

Lemma mirrors_utf32 : forall s1 s2 c, same s1 s2 ->
  mirrors (write_code_point_in_utf32 native collector s1 c) (write_code_point_in_utf32 native ops s2 c).
Proof.
  intros s1 s2 c M. pose proof M as (_ & _ & Eo & _). unfold write_code_point_in_utf32. rewrite Eo.
  destruct (endian_eqb _ _); [now apply mirrors_write|now apply mirrors_reverse].
Qed.

Lemma mirrors_code_point : forall s1 s2 c, same s1 s2 -> mirrors (write_code_point native collector s1 c) (write_code_point native ops s2 c).
Proof.
  intros s1 s2 c M. pose proof M as (_ & _ & _ & Ef). unfold write_code_point. rewrite Ef.
  destruct (out_form s2); [now apply mirrors_utf8|now apply mirrors_utf16|now apply mirrors_utf32].
Qed.

Lemma mirrors_each : forall f g, (forall s1 s2 c, same s1 s2 -> mirrors (f s1 c) (g s2 c)) -> forall l s1 s2, same s1 s2 ->
  mirrors (write_each f s1 l) (write_each g s2 l).
Proof.
  intros f g K. induction l as [|c l IH]; intros s1 s2 M; cbn [write_each]; [now apply mirrors_ok|].
  apply mirrors_bind; [now apply K|]. exact IH.
Qed.

Lemma mirrors_by_code_point : forall f g k u, (forall s1 s2 c, same s1 s2 -> mirrors (f s1 c) (g s2 c)) -> forall s1 s2, same s1 s2 ->
  mirrors (write_by_code_point f k s1 u) (write_by_code_point g k s2 u).
Proof.
  intros f g k u K s1 s2 M. unfold write_by_code_point. destruct (visit k u) as [l r].
  apply mirrors_bind; [now apply mirrors_each|]. intros t1 t2 M'. apply mirrors_const. intros _. now apply mirrors_ok.
Qed.

Lemma mirrors_string : forall k u s1 s2, same s1 s2 -> mirrors (write_string native collector k s1 u) (write_string native ops k s2 u).
Proof.
  intros k u s1 s2 M. pose proof M as (_ & _ & Eo & Ef). unfold write_string. rewrite Ef, Eo.
  destruct (out_form s2), k; try destruct (endian_eqb _ _);
    first [now apply mirrors_write | apply mirrors_each; [|exact M] | apply mirrors_by_code_point; [|exact M]];
    intros; first [now apply mirrors_utf8 | now apply mirrors_utf16 | now apply mirrors_utf32].
Qed.

Lemma mirrors_entry : forall cs p k s1 s2, same s1 s2 -> mirrors (make_entry native cs collector s1 p k) (make_entry native cs ops s2 p k).
Proof.
  intros cs p k s1 s2 M. pose proof M as (_ & _ & _ & Ef). destruct p; cbn [make_entry].
  - now apply mirrors_code_point.
  - now apply mirrors_string.
  - unfold write_integer. rewrite Ef. apply mirrors_const. intro u. now apply mirrors_string.
  - unfold write_bool. rewrite Ef. apply mirrors_const. intro u. now apply mirrors_string.
  - unfold write_bom. now apply mirrors_code_point.
  - unfold text_flush. destruct M as (E1 & I & Eo & _). destruct (Fl _ I) as (r' & E & I'). rewrite E. cbn [collector sink_flush bind].
    apply mirrors_ok. split; [exact E1|]. split; [exact I'|]. split; [exact Eo|exact Ef].
Qed.

Lemma mirrors_entries : forall cs ps s1 s2, same s1 s2 -> mirrors (make_entries native cs collector s1 ps) (make_entries native cs ops s2 ps).
Proof.
  intros cs. induction ps as [|[p k] ps IH]; intros s1 s2 M; cbn [make_entries]; [now apply mirrors_ok|].
  apply mirrors_bind; [now apply mirrors_entry|exact IH].
Qed.
End Refused.

Lemma entries_refused : forall (R : Type) (ops : sink R) x (Inv : R -> Prop) native cs e o ps l r,
  (forall r d, Inv r -> sink_write ops r d = Throw x) -> (forall r, Inv r -> exists r', sink_flush ops r = Ok r' /\ Inv r') ->
  Inv r -> entries_text (map fst ps) l -> Forall (fun '(p, k) => can_enter native e o p k) ps -> l <> [] ->
  make_entries (order_of native) cs ops (TextOutput r (order_of o) (form_of e)) ps = Throw x.
Proof.
  intros R ops x Inv native cs e o ps l r Wr Fl I T C Ne.
  destruct (entries_collected native cs e o ps l [] (TextOutput [] (order_of o) (form_of e)) T C) as (st & E & Er).
  { split; [reflexivity|split; reflexivity]. }
  destruct (mirrors_entries ops x Inv Wr Fl (order_of native) cs ps (TextOutput [] (order_of o) (form_of e)) (TextOutput r (order_of o) (form_of e))
    (conj eq_refl (conj I (conj eq_refl eq_refl))) st E) as [H|(s2 & _ & (H & _))]; [exact H|].
  exfalso. rewrite Er in H. cbn [app] in H. destruct l as [|c l]; [now apply Ne|].
  pose proof (text_bytes_ne e o c l) as X. rewrite H in X. discriminate.
Qed.

(** A file opened for reading. *)
Lemma file_flush_read_only : forall pl f, mode f = ReadOnly -> write_dirty (buf (res f)) = false ->
  exists f', file_flush pl f = Ok f' /\ mode f' = ReadOnly /\ write_dirty (buf (res f')) = false.
Proof.
  intros pl f M D. unfold file_flush, flush. rewrite D. cbn [bind]. eexists. split; [reflexivity|]. split; [exact M|exact D].
Qed.

Lemma read_only_refuses : forall pl f native cs e o ps l, mode f = ReadOnly -> write_dirty (buf (res f)) = false ->
  entries_text (map fst ps) l -> Forall (fun '(p, k) => can_enter native e o p k) ps -> l <> [] ->
  make_entries (order_of native) cs (file_sink pl) (TextOutput f (order_of o) (form_of e)) ps = Throw InvalidAccessMode.
Proof.
  intros pl f native cs e o ps l M D T C Ne.
  apply (entries_refused _ _ _ (fun f => mode f = ReadOnly /\ write_dirty (buf (res f)) = false) native cs e o ps l); try assumption.
  - intros f1 d [M1 _]. cbn [file_sink sink_write]. unfold file_write. now rewrite M1.
  - intros f1 [M1 D1]. destruct (file_flush_read_only pl f1 M1 D1) as (f2 & E & M2 & D2). exists f2. split; [exact E|split; assumption].
  - split; assumption.
Qed.

(* ------------------------------------------------------------ refused reads *)

Lemma write_only_refuses : forall pl f native e o q k fuel, mode f = WriteOnly -> q <> AtEnd -> (0 < fuel)%nat ->
  q = Character \/ file_is_at_end pl f = Ok false ->
  answer_request native (file_source pl) fuel (TextInput f o e) q k = Throw InvalidAccessMode.
Proof.
  intros pl f native e o q k fuel M Q F A.
  assert (Rc : read_filtered_code_point native (file_source pl) (TextInput f o e) = Throw InvalidAccessMode).
  { unfold read_filtered_code_point, read_code_point. cbn [in_form].
    destruct e; unfold read_utf8_code_point, read_utf16_code_point, read_utf32_code_point, read_code_unit, text_read, stream_read;
      cbn [in_res in_order_ file_source source_read]; unfold file_read; rewrite M; reflexivity. }
  destruct A as [->|A].
  { cbn [answer_request]. rewrite Rc. reflexivity. }
  destruct fuel as [|fuel]; [lia|].
  assert (Te : text_at_end (file_source pl) (TextInput f o e) = Ok false) by exact A.
  destruct q; cbn [answer_request]; try congruence; unfold read_line, read_integer, read_bool, read_word, read_all;
    cbn [append_line append_all skip_whitespace]; rewrite ?Te; cbn [bind]; rewrite Rc; reflexivity.
Qed.
