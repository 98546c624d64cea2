(** The calls that streams make. *)
From Coq Require Import NArith ZArith List Bool Lia.
From Coq Require Import ZifyBool ZifyNat ZifyN.
From Verif Require Import Base Integers UnicodeSpec UnicodeModel UnicodeText UnicodeLemmas UnicodeLemmas2 UnicodeLemmas3
  NumeralSpec NumberModel NumberText NumberLemmas NumberProps
  ResourceSpec ResourceModel ResourceText ResourceLemmas StreamSpec StreamModel StreamText StreamLemmas StreamLemmas2 StreamLemmas3 StreamLemmas4
  FileSpec FileModel FileText FileLemmas FileLemmas2 FileLemmas3 FileLemmas4 FileLemmas6
  TextFileSpec TextFileModel TextFileText TextFileLemmas TextFileLemmas2 DataFileText CrashSpec TornSpec TornModel.
Import ListNotations.
Open Scope Z_scope.

(* ------------------------------------- streams do nothing but these calls *)

(** The calls on a resource. *)
Fixpoint run_calls {R : Type} (ops : sink R) (r : R) (cs : list call) : outcome R :=
  match cs with
  | [] => Ok r
  | Write d :: cs => bind (sink_write ops r d) (fun '(r, _) => run_calls ops r cs)
  | Flush :: cs => bind (sink_flush ops r) (fun r => run_calls ops r cs)
  | _ :: cs => run_calls ops r cs
  end.

Lemma run_calls_app : forall R (ops : sink R) a b r, run_calls ops r (a ++ b) = bind (run_calls ops r a) (fun r => run_calls ops r b).
Proof.
  intros R ops. induction a as [|c a IH]; intros b r; [reflexivity|]. destruct c; cbn [app run_calls]; try apply IH.
  - destruct (sink_write ops r data) as [[r' k]| | | |]; cbn [bind]; try reflexivity. apply IH.
  - destruct (sink_flush ops r) as [r'| | | |]; cbn [bind]; try reflexivity. apply IH.
Qed.

Section Follow.
Context {R : Type} (ops : sink R).

(** b is a with the resource r in place of the list of calls cs0. *)
Definition follows (o : endian) (f : encoding_form) (a : text_output (list call) -> outcome (text_output (list call)))
    (b : text_output R -> outcome (text_output R)) : Prop :=
  forall cs0 r st, a (TextOutput cs0 o f) = Ok st ->
    exists cs, st = TextOutput (cs0 ++ cs) o f /\
      b (TextOutput r o f) = bind (run_calls ops r cs) (fun r => Ok (TextOutput r o f)).

Lemma follow_nothing : forall o f, follows o f (fun st => Ok st) (fun st => Ok st).
Proof. intros o f cs0 r st E. injection E as <-. exists []. now rewrite app_nil_r. Qed.

Lemma follow_then : forall o f a a' b b', follows o f a b -> follows o f a' b' ->
  follows o f (fun st => bind (a st) a') (fun st => bind (b st) b').
Proof.
  intros o f a a' b b' F F' cs0 r st E. destruct (a (TextOutput cs0 o f)) as [st1| | | |] eqn:E1; try discriminate. cbn [bind] in E.
  destruct (F cs0 r st1 E1) as (cs & -> & X). destruct (F' (cs0 ++ cs) r st E) as (cs' & -> & _).
  exists (cs ++ cs'). split; [now rewrite app_assoc|]. rewrite X, run_calls_app.
  destruct (run_calls ops r cs) as [r1| | | |]; cbn [bind]; try reflexivity.
  destruct (F' (cs0 ++ cs) r1 _ E) as (cs2 & Y & Z).
  rewrite Z. apply (f_equal out_res) in Y. cbn [out_res] in Y. apply app_inv_head in Y. now subst cs2.
Qed.

Lemma follow_value : forall A o f (x : outcome A) a b, (forall v, x = Ok v -> follows o f (fun st => a st v) (fun st => b st v)) ->
  follows o f (fun st => bind x (a st)) (fun st => bind x (b st)).
Proof. intros A o f x a b H cs0 r st E. destruct x as [v| | | |]; try discriminate. exact (H v eq_refl cs0 r st E). Qed.

Lemma follow_write : forall o f d, follows o f (fun st => text_write note st d) (fun st => text_write ops st d).
Proof.
  intros o f d cs0 r st E. cbn in E. injection E as <-. exists [Write d]. split; [reflexivity|]. unfold text_write, stream_write.
  cbn [out_res run_calls]. destruct (sink_write ops r d) as [[r' k]| | | |]; reflexivity.
Qed.

Lemma follow_reverse : forall o f d, follows o f (fun st => text_reverse_write note st d) (fun st => text_reverse_write ops st d).
Proof.
  intros o f d cs0 r st E. unfold text_reverse_write, reverse_write in *.
  destruct (invert_endianness d (size_of d)) as [d'| | | |]; try discriminate. cbn [bind] in *.
  exact (follow_write o f d' cs0 r st E).
Qed.

Lemma follow_flush : forall o f, follows o f (fun st => text_flush note st) (fun st => text_flush ops st).
Proof.
  intros o f cs0 r st E. cbn in E. injection E as <-. exists [Flush]. split; [reflexivity|]. unfold text_flush.
  cbn [out_res run_calls]. destruct (sink_flush ops r) as [r'| | | |]; reflexivity.
Qed.

Context (native : endian).

Lemma follow_utf8 : forall o f c, follows o f (fun st => write_code_point_in_utf8 note st c) (fun st => write_code_point_in_utf8 ops st c).
Proof. intros o f c. apply follow_value. intros d _. apply follow_write. Qed.

Lemma follow_utf16 : forall o f c, follows o f (fun st => write_code_point_in_utf16 native note st c) (fun st => write_code_point_in_utf16 native ops st c).
Proof.
  intros o f c. apply (follow_value _ o f (append_to K16 [] c)). intros d _ cs0 r st. cbn [out_order].
  destruct (endian_eqb o native).
  - apply (follow_write o f).
  - apply (follow_then o f (fun st => text_reverse_write note st _) _ (fun st => text_reverse_write ops st _) _).
    + apply follow_reverse.
    + destruct (Nat.ltb 1 (length d)); [apply follow_reverse|apply follow_nothing].
Qed.

Lemma follow_utf32 : forall o f c, follows o f (fun st => write_code_point_in_utf32 native note st c) (fun st => write_code_point_in_utf32 native ops st c).
Proof.
  intros o f c cs0 r st. unfold write_code_point_in_utf32. cbn [out_order].
  destruct (endian_eqb o native); [apply (follow_write o f)|apply (follow_reverse o f)].
Qed.

Lemma follow_code_point : forall o f c, follows o f (fun st => write_code_point native note st c) (fun st => write_code_point native ops st c).
Proof.
  intros o f c cs0 r st. unfold write_code_point. cbn [out_form].
  destruct f; [apply (follow_utf8 o utf8)|apply (follow_utf16 o utf16)|apply (follow_utf32 o utf32)].
Qed.

Lemma follow_each : forall o f a b l, (forall c, follows o f (fun st => a st c) (fun st => b st c)) ->
  follows o f (fun st => write_each a st l) (fun st => write_each b st l).
Proof.
  intros o f a b l H. induction l as [|c l IH]; [apply follow_nothing|]. cbn [write_each].
  exact (follow_then o f (fun st => a st c) (fun st => write_each a st l) (fun st => b st c) (fun st => write_each b st l) (H c) IH).
Qed.

Lemma follow_by_code_point : forall o f a b k s, (forall c, follows o f (fun st => a st c) (fun st => b st c)) ->
  follows o f (fun st => write_by_code_point a k st s) (fun st => write_by_code_point b k st s).
Proof.
  intros o f a b k s H. unfold write_by_code_point. destruct (visit k s) as [l r].
  apply (follow_then o f (fun st => write_each a st l) (fun st => bind r (fun _ => Ok st)) (fun st => write_each b st l) (fun st => bind r (fun _ => Ok st))).
  - now apply follow_each.
  - apply (follow_value _ o f r (fun st _ => Ok st) (fun st _ => Ok st)). intros v _. apply follow_nothing.
Qed.

Lemma follow_string : forall o f k s, follows o f (fun st => write_string native note k st s) (fun st => write_string native ops k st s).
Proof.
  intros o f k s cs0 r st. unfold write_string. cbn [out_form out_order].
  pose proof (follow_write o f) as W.
  pose proof (fun k => follow_by_code_point o f _ _ k s (follow_utf8 o f)) as B8.
  pose proof (fun k => follow_by_code_point o f _ _ k s (follow_utf16 o f)) as B16.
  pose proof (fun k => follow_by_code_point o f _ _ k s (follow_utf32 o f)) as B32.
  pose proof (fun l => follow_each o f _ _ l (follow_utf16 o f)) as E16.
  pose proof (fun l => follow_each o f _ _ l (follow_utf32 o f)) as E32.
  destruct f, k; try destruct (endian_eqb o native); first [apply W|apply B8|apply B16|apply B32|apply E16|apply E32].
Qed.

Lemma follow_entry : forall cs o f p k, follows o f (fun st => make_entry native cs note st p k) (fun st => make_entry native cs ops st p k).
Proof.
  intros cs o f p k. destruct p as [c|l|t x|v| |]; cbn [make_entry].
  - apply follow_code_point.
  - apply follow_string.
  - intros cs0 r st. unfold write_integer. cbn [out_form].
    apply (follow_value _ o f (format_integer _ cs t x default_integer_format) (fun st s => write_string native note _ st s) (fun st s => write_string native ops _ st s)).
    intros s _. apply follow_string.
  - intros cs0 r st. unfold write_bool. cbn [out_form].
    apply (follow_value _ o f (format_bool _ v default_bool_format) (fun st s => write_string native note _ st s) (fun st s => write_string native ops _ st s)).
    intros s _. apply follow_string.
  - apply follow_code_point.
  - apply follow_flush.
Qed.

Lemma follow_entries : forall cs o f ps, follows o f (fun st => make_entries native cs note st ps) (fun st => make_entries native cs ops st ps).
Proof.
  intros cs o f. induction ps as [|[p k] ps IH]; [apply follow_nothing|]. cbn [make_entries].
  exact (follow_then o f (fun st => make_entry native cs note st p k) (fun st => make_entries native cs note st ps)
    (fun st => make_entry native cs ops st p k) (fun st => make_entries native cs ops st ps) (follow_entry cs o f p k) IH).
Qed.

End Follow.

Lemma run_calls_note : forall cs cs0, Forall (fun c => match c with Write _ | Flush => True | _ => False end) cs ->
  run_calls note cs0 cs = Ok (cs0 ++ cs).
Proof.
  induction cs as [|c cs IH]; intros cs0 H; cbn [run_calls]; [now rewrite app_nil_r|]. inversion H as [|? ? H1 H2]; subst.
  destruct c; try contradiction; cbn [note sink_write sink_flush bind]; rewrite IH by assumption; now rewrite <- app_assoc.
Qed.

(** Values. *)
Lemma follow_values : forall R (ops : sink R) native order vs cs0 r cs, send_values native note order cs0 vs = Ok cs ->
  exists cs', cs = cs0 ++ cs' /\ send_values native ops order r vs = run_calls ops r cs'.
Proof.
  intros R ops native order. induction vs as [|[w v] vs IH]; intros cs0 r cs E; cbn [send_values] in *.
  - injection E as <-. exists []. now rewrite app_nil_r.
  - assert (D : exists d, data_write native note order cs0 (to_memory native w v) = Ok (cs0 ++ [Write d]) /\
       data_write native ops order r (to_memory native w v) = bind (sink_write ops r d) (fun '(r, _) => Ok r)).
    { unfold data_write in *. destruct (endian_eqb order native).
      - eexists. split; reflexivity.
      - unfold reverse_write in *. destruct (invert_endianness _ _) as [d| | | |]; try discriminate. eexists. split; reflexivity. }
    destruct D as (d & D1 & D2). rewrite D1 in E. cbn [bind] in E. rewrite D2. cbn [run_calls].
    destruct (IH (cs0 ++ [Write d]) r cs E) as (cs' & -> & _). exists (Write d :: cs'). split; [now rewrite <- app_assoc|].
    cbn [run_calls]. destruct (sink_write ops r d) as [[r' k]| | | |]; cbn [bind]; try reflexivity.
    destruct (IH (cs0 ++ [Write d]) r' _ E) as (cs2 & Y & Z). apply app_inv_head in Y. now subst cs2.
Qed.
