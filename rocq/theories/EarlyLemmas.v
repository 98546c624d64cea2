From Coq Require Import NArith ZArith List Bool Lia ZifyBool ZifyNat ZifyN.
From Verif Require Import Base Integers UnicodeSpec UnicodeModel UnicodeText UnicodeLemmas UnicodeLemmas2 UnicodeLemmas3 ResourceSpec ResourceModel ResourceText
  StreamSpec StreamModel StreamText SharedSpec SharedModel TextFileSpec TextFileModel TextFileText.
From Verif Require Import ResourceLemmas ResourceLemmas2 SharedLemmas.
From Verif Require Import StreamLemmas StreamLemmas2 StreamLemmas3 TextFileLemmas TextFileLemmas2 TextFileLemmas3 TextFileLemmas5.
From Verif Require Import RecoverSpec RecoverModel RecoverLemmas RecoverLemmas2 RelaySpec RelayText RelayLemmas EarlySpec EarlyText.
Import ListNotations.
Open Scope Z_scope.

(* ---------------------------------------------------------------------- texts *)

Lemma whole_suffix : forall a b, whole_lines (a ++ b) -> whole_lines b.
Proof. induction a as [|c a IH]; intros b H; [exact H|]. exact (IH b (whole_tail _ _ H)). Qed.

Lemma whole_app : forall a b, whole_lines a -> whole_lines b -> whole_lines (a ++ b).
Proof.
  intros a b Ha Hb p r E. revert p a Ha E. induction p as [|x p IH]; intros a Ha E; (destruct a as [|c a]; [exact (Hb _ _ E)|]).
  - injection E as -> E. destruct (Ha [] a eq_refl) as [z ->]. exists (z ++ b). exact (eq_sym E).
  - injection E as -> E. exact (IH a (whole_tail _ _ Ha) E).
Qed.

Lemma none_whole : forall l, ~ In 13%N l -> whole_lines l.
Proof. intros l H a b ->. elim H. apply in_or_app. right. now left. Qed.

Lemma lf_app : forall a b, whole_lines a -> whole_lines b -> lf_text (a ++ b) = lf_text a ++ lf_text b.
Proof.
  intros a b A B. rewrite <- !whole_filtered by (assumption || now apply whole_app).
  apply (filtered_append (length a)); [lia|]. rewrite (whole_filtered a A). exact (whole_none a A).
Qed.

Lemma text_bytes_empty : forall e o l, text_bytes e o l = [] -> l = [].
Proof.
  intros e o [|c l] H; [reflexivity|]. rewrite text_bytes_cons in H. apply app_eq_nil in H. destruct H as [H _].
  unfold unit_bytes in H. pose proof (encode1_nonempty e c) as Ne. destruct (encode1 e c) as [|u us]; [congruence|].
  cbn [flat_map] in H. apply app_eq_nil in H. destruct H as [H _]. apply (f_equal (@length N)) in H.
  destruct e, o; cbn in H; discriminate.
Qed.

Lemma prefixes : forall (a b c d : list N), a ++ b = c ++ d -> (exists x, c = a ++ x) \/ (exists x, a = c ++ x).
Proof.
  induction a as [|y a IH]; intros b c d E; [left; now exists c|]. destruct c as [|z c]; [right; now exists (y :: a)|].
  injection E as -> E. destruct (IH _ _ _ E) as [[x ->]|[x ->]]; [left|right]; now exists x.
Qed.

(** If more bytes are read from the text W, whose parts are a and b, the longer of them goes on. *)
Lemma longer_part : forall e o a b c d, a ++ b = c ++ d -> len (text_bytes e o a) <= len (text_bytes e o c) -> exists x, c = a ++ x.
Proof.
  intros e o a b c d E L. destruct (prefixes _ _ _ _ E) as [X|[x ->]]; [exact X|]. rewrite text_bytes_app, len_app in L.
  assert (Z : text_bytes e o x = []) by (destruct (text_bytes e o x); [reflexivity|unfold len in L; cbn [length] in L; lia]).
  rewrite (text_bytes_empty _ _ _ Z). exists []. now rewrite !app_nil_r.
Qed.

(* --------------------------------------------------------------------- source *)

Definition visible (wcap rcap : Z) (written own rest : list N) (s : shared) : Prop :=
  exists g, piped 1 wcap rcap written g s /\ owned s = own /\ rest = drop g own.

Lemma visible_source : forall wcap rcap written own, good_source shared_source (biggest_read rcap) (visible wcap rcap written own).
Proof.
  intros wcap rcap written own. split.
  - intros rest s block n (g & V & O & ->) N B. cbn [shared_source source_read]. pose proof (piped_at _ _ _ _ _ _ V) as G. rewrite O in G.
    destruct (shared_read_ok wcap rcap written g s block n V ltac:(lia) B) as (s' & E & V' & O'). rewrite O in *.
    exists s'. split; [exact E|]. eexists. split; [exact V'|]. split; [congruence|].
    rewrite len_take by lia. rewrite len_drop by lia. rewrite drop_drop by lia. destruct (Z.le_ge_cases n (len own - g)).
    + now rewrite Z.min_l by lia.
    + rewrite Z.min_r by lia. now rewrite !drop_all by lia.
  - intros rest s (g & V & O & ->). cbn [shared_source source_at_end]. f_equal. pose proof (piped_at _ _ _ _ _ _ V) as G. rewrite O in G.
    rewrite (piped_end _ _ _ _ _ V), O. rewrite len_drop by lia. lia.
Qed.

Section Attempt.
Context {R : Type} (native : byte_order) (ops : source R) (biggest : Z) (left : list N -> R -> Prop).
Context (G : good_source ops biggest left) (e : encoding) (o : byte_order) (B : Z.of_nat (unit_width e) <= biggest).
Local Notation before := (@before R left e o).

Lemma attempt_nothing : forall st, before [] st ->
  exists st', kept_filtered (order_of native) ops st = (st', Throw ReadPastEnd) /\ before [] st'.
Proof.
  intros st H. pose proof H as (_ & _ & Fm).
  destruct (take_short native ops biggest left G e o (unit_width e) [] st H) as (st' & E & H'); [destruct e; cbn; lia|exact B|destruct e; cbn; lia|].
  exists st'. split; [|exact H']. unfold kept_filtered, kept_code_point. rewrite Fm.
  destruct e; cbn [form_of unit_width] in *; unfold kept_utf8_code_point, kept_utf16_code_point, kept_utf32_code_point; rewrite E; reflexivity.
Qed.

Lemma attempt_character : forall l st, Forall scalar l -> whole_lines l -> l <> [] -> before (text_bytes e o l) st ->
  exists st' c a b, kept_filtered (order_of native) ops st = (st', Ok c) /\ before (text_bytes e o b) st' /\
    l = a ++ b /\ lf_text l = c :: lf_text b.
Proof.
  intros [|c l] st S W Ne H; [congruence|]. clear Ne. pose proof (Forall_inv S) as Sc. apply Forall_inv_tail in S. rewrite text_bytes_cons in H.
  destruct (whole_char native ops biggest left G e o B c _ st Sc H) as (st1 & E1 & H1).
  unfold kept_filtered. rewrite E1. cbn [then_]. destruct (N.eqb_spec c 13) as [->|Nc].
  - destruct (W [] l eq_refl) as [b ->]. unfold text_at_end. pose proof (Forall_inv S) as Sl. rewrite text_bytes_cons in H1.
    rewrite (gs_at_end _ _ _ G _ _ (proj1 H1)).
    assert (Nz : (len (unit_bytes e o (encode1 e 10) ++ text_bytes e o b) =? 0) = false).
    { rewrite len_app. pose proof (len_nonneg (text_bytes e o b)). destruct e, o; vm_compute (len (unit_bytes _ _ _)); lia. }
    rewrite Nz. cbn [then_ negb].
    destruct (whole_char native ops biggest left G e o B 10%N _ st1 Sl H1) as (st2 & E2 & H2).
    exists st2, 10%N, [13; 10]%N, b. split; [exact E2|]. split; [exact H2|]. split; [reflexivity|].
    assert (Wb : whole_lines b) by exact (whole_tail _ _ (whole_tail _ _ W)).
    rewrite <- (whole_filtered _ W), <- (whole_filtered _ Wb). apply filtered_cr.
  - exists st1, c, [c], l. split; [reflexivity|]. split; [exact H1|]. split; [reflexivity|].
    rewrite <- (whole_filtered _ W), <- (whole_filtered _ (whole_tail _ _ W)). now apply filtered_other.
Qed.
End Attempt.

(* ----------------------------------------------------------------------- sink *)

(** At least n bytes are in the container. *)
Definition growing (wcap rcap n : Z) (w : list N) (g : Z) (full : bool) (s : shared) : Prop :=
  piped 1 wcap rcap w g s /\ (full = true -> owned s = w) /\ n <= len (owned s).

Lemma growing_pipeline : forall wcap rcap n,
  pipeline shared_source shared_sink (biggest_read rcap) (2 ^ 62) (2 ^ 62) (growing wcap rcap n).
Proof.
  intros wcap rcap n. split.
  - intros w g full s d (V & _ & L) _ B. rewrite len_app in B. cbn [shared_sink sink_write].
    destruct (piped_put 1 wcap rcap w g s d V (Z.divide_1_l _) ltac:(lia)) as (s' & k & E & V' & L').
    exists s', k. split; [exact E|]. split; [exact V'|]. split; [discriminate|lia].
  - intros w g full s (V & _ & L). cbn [shared_sink sink_flush]. destruct (piped_flush _ _ _ _ _ _ V) as (s' & E & V' & O).
    exists s'. split; [exact E|]. split; [exact V'|]. split; [auto|]. rewrite O. pose proof (piped_prefix _ _ _ _ _ _ V). lia.
  - intros w g s (V & _ & L). split; [exact V|]. split; [discriminate|exact L].
  - intros w g full s (V & _). pose proof (piped_at _ _ _ _ _ _ V). pose proof (piped_prefix _ _ _ _ _ _ V). lia.
  - intro w. destruct (Z.le_gt_cases n (len w)) as [Hn|Hn].
    + eapply same_source; [exact (shared_good_source wcap rcap w)|]. intros rest s. unfold ready, growing. split.
      * intros (g & V & O & _ & E). exists g. split; [split; [exact V|split; [auto|congruence]]|exact E].
      * intros (g & (V & O & _) & E). specialize (O eq_refl). exists g. split; [exact V|]. split; [exact O|]. split; [|exact E].
        pose proof (piped_at _ _ _ _ _ _ V). rewrite O in *. assumption.
    + split.
      * intros rest s block m (g & (V & O & L) & _). specialize (O eq_refl). rewrite O in L. lia.
      * intros rest s (g & (V & O & L) & _). specialize (O eq_refl). rewrite O in L. lia.
Qed.

(* -------------------------------------------------------------------- program *)

Definition whole_deed (d : deed) : Prop := match d with Says l => whole_lines l | _ => True end.

Section Program.
Context (native : byte_order) (cs : bool) (e : encoding) (o : byte_order) (wcap rcap : Z).

(** [P] was read, [U] is still to be read, [V] of it is in the container. *)
Record underway (P U V : list N) (s : shared) (inp : text_input shared) (out : text_output shared) : Prop := {
  uw_pipe : piped 1 wcap rcap (text_bytes e o (P ++ U)) (len (text_bytes e o P)) s;
  uw_own : owned s = text_bytes e o (P ++ V);
  uw_part : exists B, U = V ++ B;
  uw_lines : whole_lines (P ++ V);
  uw_in : in_order_ inp = order_of o /\ in_form inp = form_of e;
  uw_out : out_order out = order_of o /\ out_form out = form_of e }.

(** Entries leave whole characters and line ends in the container. *)
Definition enters_well (fit : action -> Prop) (ok : N -> Prop) : Prop :=
  forall ps l P U V s inp out, fit (Enters ps) -> entries_text (map fst ps) l -> can_say native e o (Enters ps) ->
  whole_lines (P ++ U ++ l) -> Forall ok (P ++ U ++ l) -> len (text_bytes e o ((P ++ U) ++ l)) < 2 ^ 62 ->
  underway P U V s inp out ->
  exists out' x, make_entries (order_of native) cs shared_sink (with_res out s) ps = Ok out' /\
    underway P (U ++ l) (V ++ x) (out_res out') inp out'.

Context (fit : action -> Prop) (ok : N -> Prop) (Roomy : Z.of_nat (unit_width e) <= biggest_read rcap) (Well : enters_well fit ok).

Lemma program_runs : forall actions deeds P U V s inp out sure, Forall2 says actions deeds ->
  Forall (can_say native e o) actions -> Forall fit actions -> Forall whole_deed deeds ->
  Forall scalar (P ++ U) -> whole_lines (P ++ U) -> Forall ok (P ++ U ++ said deeds) ->
  len (text_bytes e o (P ++ U ++ said deeds)) < 2 ^ 62 ->
  underway P U V s inp out -> (sure <= length (lf_text V))%nat ->
  exists s' events rest, run_early (order_of native) cs s inp out actions = Ok (s', events) /\
    patient sure (lf_text U) deeds events rest.
Proof.
  induction actions as [|a actions IH]; intros deeds P U V s inp out sure T C Ft Wd Sc W K L H Su; inversion T as [|? d ? deeds' T1 T2]; subst.
  - exists s, [], (lf_text U). split; [reflexivity|constructor].
  - pose proof (Forall_inv C) as C1. apply Forall_inv_tail in C. pose proof (Forall_inv Ft) as F1. apply Forall_inv_tail in Ft. pose proof (Forall_inv Wd) as W1. apply Forall_inv_tail in Wd.
    assert (K0 : Forall ok (P ++ U)) by (rewrite app_assoc in K; apply Forall_app in K; tauto).
    assert (H0 := H). destruct H as [Hp Ho [B Hb] Hl Hi Hout].
    assert (Wv : whole_lines V) by exact (whole_suffix _ _ Hl).
    assert (Wu : whole_lines U) by exact (whole_suffix _ _ W).
    assert (Wb : whole_lines B) by (rewrite Hb in Wu; exact (whole_suffix _ _ Wu)).
    destruct T1 as [ps l Tx| |]; cbn [said flat_map app can_say whole_deed] in *.
    + fold (said deeds') in *. rewrite (app_assoc U), (app_assoc P) in K, L.
      assert (L1 : len (text_bytes e o ((P ++ U) ++ l)) < 2 ^ 62).
      { rewrite <- app_assoc. rewrite text_bytes_app, len_app in L. pose proof (len_nonneg (text_bytes e o (said deeds'))). lia. }
      assert (W2 : whole_lines (P ++ U ++ l)) by (rewrite app_assoc; exact (whole_app _ _ W W1)).
      assert (K1 : Forall ok (P ++ U ++ l)) by (apply Forall_app in K; tauto).
      destruct (Well ps l P U V s inp out F1 Tx C1 W2 K1 L1 H0) as (out' & x & E & H1).
      destruct (IH deeds' P (U ++ l) (V ++ x) (out_res out') inp out' sure T2 C Ft Wd) as (s' & events & rest & E' & H'); try assumption.
      * rewrite app_assoc. apply Forall_app. split; [exact Sc|exact (entries_scalar native e o ps l Tx C1)].
      * rewrite app_assoc. exact K.
      * rewrite app_assoc. exact L.
      * pose proof (whole_suffix _ _ (uw_lines _ _ _ _ _ _ H1)) as Wvx. rewrite (lf_app _ _ Wv (whole_suffix _ _ Wvx)), app_length. lia.
      * exists s', events, rest. cbn [run_early]. rewrite E. cbn [bind]. split; [exact E'|]. constructor.
        now rewrite <- (lf_app _ _ Wu W1).
    + destruct (piped_flush _ _ _ _ _ _ Hp) as (s1 & E1 & V1 & O1).
      destruct (IH deeds' P U U s1 inp (with_res out s1) (length (lf_text U)) T2 C Ft Wd) as (s' & events & rest & E' & H'); try assumption; [|lia|].
      * constructor; try assumption. exists []. now rewrite app_nil_r.
      * exists s', events, rest. cbn [run_early]. unfold text_flush. cbn [with_res out_res shared_sink sink_flush]. rewrite E1. cbn [bind].
        split; [exact E'|]. now constructor.
    + assert (Bf : @before shared (visible wcap rcap (text_bytes e o (P ++ U)) (owned s)) e o (text_bytes e o V)
        (TextInput s (in_order_ inp) (in_form inp))).
      { split; [|exact Hi]. exists (len (text_bytes e o P)). split; [exact Hp|]. split; [reflexivity|].
        rewrite Ho, text_bytes_app. now rewrite drop_app_exact. }
      pose proof (visible_source wcap rcap (text_bytes e o (P ++ U)) (owned s)) as Gs.
      destruct V as [|v0 V0].
      * destruct (attempt_nothing native _ _ _ Gs e o Roomy _ Bf) as (inp' & E1 & (g' & V1 & O1 & D1) & I1).
        assert (G' : g' = len (text_bytes e o P)).
        { pose proof (piped_at _ _ _ _ _ _ V1) as A. rewrite O1 in A. apply (f_equal len) in D1. rewrite len_drop in D1 by lia.
          rewrite Ho, app_nil_r in *. change (len []) with 0 in D1. lia. }
        subst g'. cbn [lf_text length] in Su. assert (sure = 0%nat) by lia. subst sure.
        destruct (IH deeds' P U [] (in_res inp') inp' out 0%nat T2 C Ft Wd) as (s' & events & rest & E' & H'); try assumption.
        -- constructor; try assumption; [congruence|now exists B].
        -- exists s', (Failed ReadPastEnd :: events), rest. cbn [run_early]. rewrite E1, E'. split; [reflexivity|]. now constructor.
      * set (V := v0 :: V0) in *.
        assert (Sv : Forall scalar V) by (rewrite Hb in Sc; apply Forall_app in Sc; destruct Sc as [_ Sc]; apply Forall_app in Sc; tauto).
        destruct (attempt_character native _ _ _ Gs e o Roomy V _ Sv Wv ltac:(discriminate) Bf)
          as (inp' & c & a & b & E1 & ((g' & V1 & O1 & D1) & I1) & Ev & Lv).
        assert (Wv2 : whole_lines b) by (rewrite Ev in Wv; exact (whole_suffix _ _ Wv)).
        assert (G' : g' = len (text_bytes e o (P ++ a))).
        { pose proof (piped_at _ _ _ _ _ _ V1) as A. rewrite O1 in A. apply (f_equal len) in D1. rewrite len_drop in D1 by lia.
          rewrite Ho, Ev, !text_bytes_app, !len_app in *. lia. }
        subst g'. clearbody V. subst V U. rewrite <- !app_assoc in *.
        assert (X : forall z, P ++ a ++ z = (P ++ a) ++ z) by (intro z; apply app_assoc).
        rewrite X in Hp, Ho, Hl, W, Sc, K, K0, L, V1. 
        destruct (IH deeds' (P ++ a) (b ++ B) b (in_res inp') inp' out (sure - 1)%nat T2 C Ft Wd) as (s' & events & rest & E' & H');
          try assumption; try (rewrite <- (app_assoc b); assumption).
        -- constructor; try assumption; [congruence|now exists B].
        -- rewrite Lv in Su. cbn [length] in Su. lia.
        -- exists s', (Got c :: events), rest. cbn [run_early]. rewrite E1, E'. split; [reflexivity|].
           rewrite app_assoc, (lf_app _ _ Wv Wb), Lv. cbn [app]. constructor. now rewrite <- (lf_app _ _ Wv2 Wb).
Qed.
End Program.

(* ------------------------------------------------------------------ two cases *)

Lemma no_return : forall l, Forall (fun c => c <> 13%N) l -> whole_lines l.
Proof. intros l H. apply none_whole. intro X. rewrite Forall_forall in H. exact (H _ X eq_refl). Qed.

Lemma ascii_well : forall native cs o wcap rcap,
  enters_well native cs UTF8 o wcap rcap (fun _ => True) (fun c => (c < 128)%N /\ c <> 13%N).
Proof.
  intros native cs o wcap rcap ps l P U V s inp out _ Tx C1 W2 K1 L1 [Hp Ho [B Hb] Hl Hi Hout]. rewrite text_bytes_app in L1.
  destruct (entries_ok native cs shared_source shared_sink _ _ _ _ (growing_pipeline wcap rcap (len (owned s))) UTF8 o
    (len (text_bytes UTF8 o P)) ps l (text_bytes UTF8 o (P ++ U)) (with_res out s) Tx) as (out' & E & (Hp' & _ & Hn) & Hoo); [| |exact L1|].
  { eapply Forall_impl; [|exact C1]. intros [p k] Cp. split; [exact Cp|]. left. lia. }
  { split; [|exact Hout]. split; [exact Hp|]. split; [discriminate|cbn; lia]. }
  rewrite <- text_bytes_app, <- app_assoc in Hp'.
  assert (K2 : Forall (fun c => c < 128)%N (P ++ U ++ l)) by (eapply Forall_impl; [|exact K1]; intros c [X _]; exact X).
  assert (K3 : Forall (fun c => c <> 13)%N (P ++ U ++ l)) by (eapply Forall_impl; [|exact K1]; intros c [_ X]; exact X).
  destruct (piped_prefix _ _ _ _ _ _ Hp') as (Pf & Pl). rewrite (ascii_bytes o _ K2) in Pf, Pl.
  assert (E2 : P ++ U ++ l = owned (out_res out') ++ drop (len (owned (out_res out'))) (P ++ U ++ l))
    by (rewrite Pf at 1; symmetry; apply take_drop).
  set (A := owned (out_res out')) in *. set (D := drop (len A) (P ++ U ++ l)) in *. clearbody D. clear Pf Pl.
  rewrite E2 in K2, K3. apply Forall_app in K2, K3.
  assert (Eo : text_bytes UTF8 o A = A) by (apply ascii_bytes; tauto).
  assert (exists x, A = (P ++ V) ++ x) as [x Ex].
  { apply (longer_part UTF8 o (P ++ V) (B ++ l) A D); [rewrite <- E2, Hb, <- !app_assoc; reflexivity|]. rewrite Eo, <- Ho. exact Hn. }
  exists out', x. split; [exact E|]. rewrite <- app_assoc in Ex. rewrite Ex in *. constructor; try assumption.
  - fold A. rewrite Ex. symmetry. exact Eo.
  - exists D. rewrite <- !app_assoc in E2. apply app_inv_head in E2. rewrite <- app_assoc. exact E2.
  - apply no_return. tauto.
Qed.

Lemma unbuffered_all : forall rcap w g s, piped 1 0 rcap w g s -> owned s = w.
Proof.
  intros rcap w g s (po & p & S & Po & O & R & P). rewrite O. destruct S as [W E K D A B U I].
  destruct Po as [-> | ->]; cbn [in_phase bytes at_] in I.
  - tauto.
  - destruct I as (I1 & I2 & I3 & I4 & I5 & I6 & I7 & I8). rewrite I8. assert (Z : bpos (buf (writer s)) = 0) by lia. rewrite Z.
    unfold take. cbn [Z.to_nat firstn]. now rewrite app_nil_r.
Qed.

(** What is in the container after a write. *)
Lemma put_whole : forall wcap rcap w g s d s' k, piped 1 wcap rcap w g s -> shared_write s d = Ok (s', k) ->
  piped 1 wcap rcap (w ++ d) g s' -> owned s' = owned s \/ owned s' = w \/ owned s' = w ++ d.
Proof.
  intros wcap rcap w g s d s' k V E V'. assert (E0 := E). unfold shared_write, write in E.
  destruct (piped_flush _ _ _ _ _ _ V) as (s1 & E1 & V1 & O1). unfold shared_flush in E1.
  destruct (0 <? capacity _) eqn:Cp.
  - unfold write_buffered in E. destruct (capacity (buf (look_at (writer s) (owned s))) <? _) eqn:Big.
    + destruct (flush container_ops (look_at (writer s) (owned s))) as [r1| | | |] eqn:Fl; try discriminate.
      cbn [bind andb] in E, E1. injection E1 as <-. cbn [owned] in O1.
      destruct (capacity (buf (look_at (writer s) (owned s))) <? size_of d) eqn:Huge.
      * right. right. destruct (piped_flush _ _ _ _ _ _ V') as (s2 & E2 & _ & O2).
        assert (Dr : write_dirty (buf r1) = false).
        { unfold flush in Fl. destruct (write_dirty (buf (look_at _ _))) eqn:D; [|injection Fl as <-; exact D].
          destruct (slice _ _ _); try discriminate. cbn [bind] in Fl. destruct (raw_write _ _ _) as [[c k0]| | | |]; try discriminate.
          cbn [bind] in Fl. injection Fl as <-. reflexivity. }
        destruct (raw_write _ _ _) as [[c k0]| | | |]; try discriminate. cbn [bind] in E. injection E as <- <-.
        unfold shared_flush in E2. cbn [writer owned reader inner] in E2. rewrite look_same in E2. unfold flush in E2. cbn [buf] in E2.
        rewrite Dr in E2. cbn [bind] in E2. injection E2 as <-. exact O2.
      * right. left. destruct (buffer_write _ _); try discriminate. cbn [bind] in E. injection E as <- <-. exact O1.
    + left. cbn [bind andb] in E. destruct (buffer_write _ _); try discriminate. cbn [bind] in E. injection E as <- <-. reflexivity.
  - right. right. assert (wcap = 0).
    { destruct V as (po & p & S & _). destruct S as [_ _ Kc _ _ _ _ _]. unfold look_at in Cp. cbn [buf] in Cp. rewrite Kc in Cp.
      unfold capacity in Kc. change size_of with len in Kc. pose proof (len_nonneg (mem (buf (writer s)))). lia. }
    subst wcap. exact (unbuffered_all _ _ _ _ V').
Qed.

(** Such an entry is one write. *)
Lemma one_piece : forall (R : Type) (snk : sink R) native cs e o p k l (st : text_output R), in_one_piece native e o p k -> entry_text p l ->
  can_enter native e o p k -> out_order st = order_of o -> out_form st = form_of e ->
  make_entry (order_of native) cs snk st p k = text_write snk st (text_bytes e o l).
Proof.
  intros R snk native cs e o p k l st H T C O F. destruct p; try contradiction; inversion T; subst; cbn [make_entry in_one_piece can_enter] in *.
  - destruct C as [S W8]. rewrite text_bytes_cons. change (text_bytes e o []) with (@nil N). rewrite app_nil_r.
    unfold write_code_point. rewrite F. destruct e; cbn [form_of].
    + unfold write_code_point_in_utf8. rewrite append_to_ok by (split; [exact S|intros _; now apply W8]).
      cbn [bind app]. rewrite units_one. cbn [encoding_of]. f_equal. symmetry.
      apply unit_bytes_8, Forall_forall. intros u. apply (encode1_range UTF8 c u S).
    + unfold write_code_point_in_utf16. rewrite append_to_ok by (split; [exact S|discriminate]).
      cbn [bind app]. rewrite units_one. cbn [encoding_of]. rewrite O. destruct (endian_eqb _ _) eqn:E.
      * apply same_order in E. subst o. now rewrite (units_memory_ok native UTF16).
      * destruct (H eq_refl) as [->|Hb]; [destruct native; discriminate|]. apply other_order in E. subst o.
        unfold unit_bytes. cbn [encode1 unit_width]. unfold utf16_of, bmp in *. replace (c <? 0x10000)%N with true by lia.
        cbn [flat_map length Nat.ltb Nat.leb nth]. rewrite app_nil_r. unfold text_reverse_write, reverse_write. change size_of with len.
        rewrite to_memory_in_order, invert_whole by (intro Z; apply (f_equal (@length N)) in Z; rewrite in_order_length in Z; discriminate).
        rewrite in_order_opposite. cbn [bind]. unfold text_write. now destruct (stream_write _ _ _).
    + unfold write_code_point_in_utf32, unit_bytes. cbn [encode1 utf32_of unit_width flat_map]. rewrite app_nil_r, O.
      destruct (endian_eqb _ _) eqn:E.
      * apply same_order in E. subst o. now rewrite to_memory_in_order.
      * apply other_order in E. subst o. unfold text_reverse_write, reverse_write. change size_of with len.
        rewrite to_memory_in_order, invert_whole by (intro Z; apply (f_equal (@length N)) in Z; rewrite in_order_length in Z; discriminate).
        rewrite in_order_opposite. reflexivity.
  - unfold write_string. rewrite F, O. destruct e, k; try discriminate; cbn [form_of copied] in *; rewrite ?H.
    + f_equal. unfold text_bytes, units. cbn [encoding_of]. symmetry. apply unit_bytes_8. apply (units_range K8).
      eapply Forall_impl; [|exact C]. intros c X. exact (proj1 X).
    + apply same_order in H. subst o. now rewrite (units_memory_ok native UTF16).
    + apply same_order in H. subst o. now rewrite (units_memory_ok native UTF16).
    + apply same_order in H. subst o. now rewrite (units_memory_ok native UTF32).
    + apply same_order in H. subst o. now rewrite (units_memory_ok native UTF32).
Qed.

Lemma whole_well : forall native cs e o wcap rcap,
  enters_well native cs e o wcap rcap (says_in_pieces native e o) (fun c => c <> 13%N).
Proof.
  intros native cs e o wcap rcap ps. induction ps as [|[p k] ps IH]; intros l P U V s inp out Ft Tx C1 W2 K1 L1 H0;
    cbn [map fst] in Tx; inversion Tx as [|? t ? l' T1 T2]; subst.
  - exists (with_res out s), []. rewrite !app_nil_r. split; [reflexivity|]. destruct H0. constructor; assumption.
  - cbn [says_in_pieces can_say] in *. pose proof (Forall_inv Ft) as F1. apply Forall_inv_tail in Ft.
    pose proof (Forall_inv C1) as Cp. apply Forall_inv_tail in C1. cbn beta iota in F1, Cp.
    destruct H0 as [Hp Ho [B Hb] Hl Hi [Oo Of]].
    rewrite (app_assoc U) in W2, K1. rewrite (app_assoc (P ++ U)) in L1. rewrite (app_assoc P) in W2, K1.
    assert (L2 : len (text_bytes e o (P ++ U) ++ text_bytes e o t) < 2 ^ 62).
    { rewrite <- text_bytes_app. rewrite text_bytes_app, len_app in L1. pose proof (len_nonneg (text_bytes e o l')). lia. }
    rewrite len_app in L2.
    destruct (piped_put 1 wcap rcap _ _ s (text_bytes e o t) Hp (Z.divide_1_l _) ltac:(lia)) as (s1 & k1 & E1 & V1 & _).
    pose proof (put_whole _ _ _ _ _ _ _ _ Hp E1 V1) as Cases. rewrite <- !text_bytes_app, <- !app_assoc in V1, Cases.
    assert (K2 : Forall (fun c => c <> 13%N) (P ++ U ++ t)) by (apply Forall_app in K1; tauto).
    assert (exists x, underway e o wcap rcap P (U ++ t) (V ++ x) s1 inp (with_res (with_res out s) s1)) as [x H1].
    { assert (Sub : forall x D, U ++ t = V ++ x ++ D -> owned s1 = text_bytes e o (P ++ V ++ x) ->
        underway e o wcap rcap P (U ++ t) (V ++ x) s1 inp (with_res (with_res out s) s1)).
      { intros x D Ex Ow. constructor; try assumption.
        - exists D. rewrite <- app_assoc. exact Ex.
        - apply no_return. rewrite Ex, !app_assoc in K2. apply Forall_app in K2. destruct K2 as [K2 _]. rewrite <- !app_assoc in K2. exact K2.
        - split; assumption. }
      destruct Cases as [Cs|[Cs|Cs]].
      - exists []. apply (Sub [] (B ++ t)); [rewrite Hb; now rewrite <- app_assoc|]. rewrite app_nil_r. congruence.
      - exists B. apply (Sub B t); [rewrite Hb; now rewrite <- app_assoc|]. rewrite <- Hb. exact Cs.
      - exists (B ++ t). apply (Sub (B ++ t) []); [rewrite Hb, app_nil_r; now rewrite <- app_assoc|]. rewrite (app_assoc V), <- Hb. exact Cs. }
    assert (E2 : make_entry (order_of native) cs shared_sink (with_res out s) p k = Ok (with_res (with_res out s) s1)).
    { rewrite (one_piece _ _ native cs e o p k t) by assumption. unfold text_write, stream_write. cbn [with_res out_res shared_sink sink_write].
      rewrite E1. reflexivity. }
    destruct (IH l' P (U ++ t) (V ++ x) s1 inp (with_res (with_res out s) s1)) as (out' & y & E3 & H3); try assumption.
    + rewrite app_assoc. exact W2.
    + rewrite app_assoc. exact K1.
    + rewrite <- (app_assoc P U t) in L1. exact L1.
    + exists out', (x ++ y). cbn [make_entries]. rewrite E2. cbn [bind]. split; [exact E3|]. rewrite <- app_assoc in H3. rewrite <- app_assoc in H3. exact H3.
Qed.

(** Without a buffer, everything can be read at once. *)
Section Prompt.
Context (native : byte_order) (cs : bool) (e : encoding) (o : byte_order) (rcap : Z)
  (Roomy : Z.of_nat (unit_width e) <= biggest_read rcap).

Lemma prompt_flush : forall P U s inp out, underway e o 0 rcap P U U s inp out ->
  exists s', shared_flush s = Ok s' /\ underway e o 0 rcap P U U s' inp (with_res out s').
Proof.
  intros P U s inp out [Hp Ho Hb Hl Hi Hout]. destruct (piped_flush _ _ _ _ _ _ Hp) as (s1 & E1 & V1 & O1).
  exists s1. split; [exact E1|]. constructor; assumption.
Qed.

Lemma prompt_runs : forall actions deeds P U s inp out, Forall2 says actions deeds ->
  Forall (can_say native e o) actions -> Forall whole_deed deeds ->
  Forall scalar (P ++ U) -> whole_lines (P ++ U) ->
  len (text_bytes e o (P ++ U ++ said deeds)) < 2 ^ 62 ->
  underway e o 0 rcap P U U s inp out ->
  exists s' events rest, run_early (order_of native) cs s inp out actions = Ok (s', events) /\
    patient (length (lf_text U)) (lf_text U) (at_once deeds) events rest.
Proof.
  induction actions as [|a actions IH]; intros deeds P U s inp out T C Wd Sc W L H; inversion T as [|? d ? deeds' T1 T2]; subst.
  - exists s, [], (lf_text U). split; [reflexivity|constructor].
  - pose proof (Forall_inv C) as C1. apply Forall_inv_tail in C. pose proof (Forall_inv Wd) as W1. apply Forall_inv_tail in Wd.
    assert (Wu : whole_lines U) by exact (whole_suffix _ _ W).
    destruct T1 as [ps l Tx| |]; cbn [said flat_map app can_say whole_deed] in *.
    + fold (said deeds') in *. destruct H as [Hp Ho _ Hl Hi Hout]. rewrite (app_assoc U), (app_assoc P) in L.
      assert (L1 : len (text_bytes e o (P ++ U) ++ text_bytes e o l) < 2 ^ 62).
      { rewrite <- text_bytes_app, <- app_assoc. rewrite text_bytes_app, len_app in L.
        pose proof (len_nonneg (text_bytes e o (said deeds'))). lia. }
      destruct (entries_ok native cs shared_source shared_sink _ _ _ _ (growing_pipeline 0 rcap 0) e o
        (len (text_bytes e o P)) ps l (text_bytes e o (P ++ U)) (with_res out s) Tx) as (out' & E & (Hp' & _ & _) & Hoo); [| |exact L1|].
      { eapply Forall_impl; [|exact C1]. intros [p k] Cp. split; [exact Cp|]. left. lia. }
      { split; [|exact Hout]. split; [exact Hp|]. split; [discriminate|apply len_nonneg]. }
      rewrite <- text_bytes_app, <- app_assoc in Hp'.
      assert (W2 : whole_lines (P ++ U ++ l)) by (rewrite app_assoc; exact (whole_app _ _ W W1)).
      destruct (IH deeds' P (U ++ l) (out_res out') inp out' T2 C Wd) as (s' & events & rest & E' & H'); try assumption.
      * rewrite app_assoc. apply Forall_app. split; [exact Sc|exact (entries_scalar native e o ps l Tx C1)].
      * rewrite app_assoc. exact L.
      * constructor; try assumption; [exact (unbuffered_all _ _ _ _ Hp')|]. exists []. now rewrite app_nil_r.
      * exists s', events, rest. cbn [run_early]. rewrite E. cbn [bind]. split; [exact E'|].
        cbn [at_once flat_map app]. constructor. constructor. rewrite <- (lf_app _ _ Wu W1). exact H'.
    + destruct (prompt_flush _ _ _ _ _ H) as (s1 & E1 & H1).
      destruct (IH deeds' P U s1 inp (with_res out s1) T2 C Wd Sc W L H1) as (s' & events & rest & E' & H').
      exists s', events, rest. cbn [run_early]. unfold text_flush. cbn [with_res out_res shared_sink sink_flush]. rewrite E1. cbn [bind].
      split; [exact E'|]. cbn [at_once flat_map app]. now constructor.
    + destruct H as [Hp Ho _ Hl Hi Hout].
      assert (Bf : @before shared (visible 0 rcap (text_bytes e o (P ++ U)) (owned s)) e o (text_bytes e o U)
        (TextInput s (in_order_ inp) (in_form inp))).
      { split; [|exact Hi]. exists (len (text_bytes e o P)). split; [exact Hp|]. split; [reflexivity|].
        rewrite Ho, text_bytes_app. now rewrite drop_app_exact. }
      pose proof (visible_source 0 rcap (text_bytes e o (P ++ U)) (owned s)) as Gs.
      destruct U as [|u0 U0].
      * destruct (attempt_nothing native _ _ _ Gs e o Roomy _ Bf) as (inp' & E1 & (g' & V1 & O1 & D1) & I1).
        assert (G' : g' = len (text_bytes e o P)).
        { pose proof (piped_at _ _ _ _ _ _ V1) as A. rewrite O1 in A. apply (f_equal len) in D1. rewrite len_drop in D1 by lia.
          rewrite Ho, app_nil_r in *. change (len []) with 0 in D1. lia. }
        subst g'. 
        destruct (IH deeds' P [] (in_res inp') inp' out T2 C Wd Sc W L) as (s' & events & rest & E' & H').
        -- constructor; try assumption; [congruence|now exists []].
        -- exists s', (Failed ReadPastEnd :: events), rest. cbn [run_early]. rewrite E1, E'. split; [reflexivity|].
           cbn [at_once flat_map app]. exact (PatientFails _ _ _ _ H').
      * set (U := u0 :: U0) in *.
        assert (Sv : Forall scalar U) by (apply Forall_app in Sc; tauto).
        destruct (attempt_character native _ _ _ Gs e o Roomy U _ Sv Wu ltac:(discriminate) Bf)
          as (inp' & c & a & b & E1 & ((g' & V1 & O1 & D1) & I1) & Ev & Lv).
        assert (G' : g' = len (text_bytes e o (P ++ a))).
        { pose proof (piped_at _ _ _ _ _ _ V1) as A. rewrite O1 in A. apply (f_equal len) in D1. rewrite len_drop in D1 by lia.
          rewrite Ho, Ev, !text_bytes_app, !len_app in *. lia. }
        subst g'. clearbody U. subst U. rewrite <- !app_assoc in *.
        assert (X : forall z, P ++ a ++ z = (P ++ a) ++ z) by (intro z; apply app_assoc).
        rewrite X in Hp, Ho, Hl, W, Sc, L, V1.
        destruct (IH deeds' (P ++ a) b (in_res inp') inp' out T2 C Wd) as (s' & events & rest & E' & H'); try assumption.
        -- constructor; try assumption; [congruence|]. exists []. now rewrite app_nil_r.
        -- exists s', (Got c :: events), rest. cbn [run_early]. rewrite E1, E'. split; [reflexivity|].
           rewrite Lv. cbn [at_once flat_map app length]. constructor. now replace (S (length (lf_text b)) - 1)%nat with (length (lf_text b)) by lia.
Qed.
End Prompt.
