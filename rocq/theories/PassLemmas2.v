(** Containers and files as passages (C167, C168). *)
From Coq Require Import NArith ZArith List Bool Lia ZifyBool ZifyNat ZifyN.
From Verif Require Import Base Integers UnicodeModel ResourceSpec ResourceModel ResourceText
  FileSpec FileModel FileText StreamSpec StreamModel StreamText SharedSpec SharedModel TextFileModel.
From Verif Require Import ResourceLemmas ResourceLemmas2 FileLemmas FileLemmas2 FileLemmas3 FileLemmas4 FileLemmas5 FileLemmas6.
From Verif Require Import CrashLemmas2 TextFileLemmas2 SharedLemmas StreamLemmas FollowSpec FollowText FollowLemmas FollowLemmas2 RelayText RelayLemmas.
From Verif Require EarlyLemmas.
From Verif Require Import PassSpec PassText PassLemmas.
Import ListNotations.
Open Scope Z_scope.

(* ------------------------------------------------------------------ containers *)

Definition in_container (wcap rcap : Z) (w own : list N) (g : Z) (s : shared) : Prop :=
  piped 1 wcap rcap w g s /\ owned s = own.

Lemma container_passage : forall wcap rcap,
  passage shared_source shared_sink (biggest_read rcap) (2 ^ 62) (2 ^ 62) (in_container wcap rcap).
Proof.
  intros wcap rcap. split.
  - intros w own g s d [H O] _ L. destruct (piped_put 1 wcap rcap _ _ s d H (Z.divide_1_l _) ltac:(lia)) as (s' & k & E & V & _).
    pose proof (EarlyLemmas.put_whole _ _ _ _ _ _ _ _ H E V) as C.
    exists s', k, (owned s'). rewrite <- O. split; [exact E|]. split; [split; [exact V|reflexivity]|exact C].
  - intros w own g s [H O]. destruct (piped_flush _ _ _ _ _ _ H) as (s' & E & V & O'). exists s'. split; [exact E|]. now split.
  - intros w own g s [H O]. rewrite <- O. exact (piped_at _ _ _ _ _ _ H).
  - intros w own. apply (same_source _ _ _ _ _ (EarlyLemmas.visible_source wcap rcap w own)).
    intros rest s. unfold EarlyLemmas.visible, in_container. split.
    + intros (g & A & B & C). exists g. auto.
    + intros (g & (A & B) & C). exists g. auto.
Qed.

(* ----------------------------------------------------------------------- files *)

(** A write to a file is never split. *)
Lemma tail_write_whole : forall pl cap q m c written f d, tail pl cap q m c written f -> mode_writes m = true ->
  obliging (os (inner (res f))) -> len d <= chunk_max pl ->
  exists f' c', file_write pl f d = Ok (f', Returned (len d)) /\ obliging (os (inner (res f'))) /\
    tail pl cap q m c' (written ++ d) f' /\ (c' = c \/ c' = written \/ c' = written ++ d).
Proof.
  intros pl cap q m c written f d T Mw B L. assert (T0 := T). destruct T as [O M K CM P Cl W].
  assert (exists r' c', write (file_ops pl) (res f) d = Ok (r', len d) /\ obliging (os (inner r')) /\
    tail pl cap q m c' (written ++ d) (File r' (path f) m) /\ (c' = c \/ c' = written \/ c' = written ++ d)) as (r' & c' & E & B' & T' & X).
  { pose proof (len_nonneg d). unfold write. rewrite K. destruct (0 <? cap) eqn:Z.
    - unfold write_buffered. change size_of with len. rewrite K.
      destruct (cap <? bpos (buf (res f)) + len d) eqn:Full; cbn [andb].
      + destruct (tail_flush _ _ _ _ _ _ _ T0 B) as (f1 & E1 & B1 & T1 & D1 & P1). unfold file_flush in E1.
        destruct (flush (file_ops pl) (res f)) as [r1| | | |]; cbn [bind] in E1; try discriminate. injection E1 as <-.
        cbn [bind]. cbn [res] in *. destruct (cap <? len d) eqn:Big.
        * destruct (tail_raw _ _ _ _ _ _ d T1 D1 B1 L) as (s' & E2 & B2 & T2). cbn [res] in E2. rewrite E2. cbn [bind].
          eexists _, (written ++ d). split; [reflexivity|]. split; [exact B2|]. cbn [res mode] in T2.
          split; [specialize (T2 (path f)); rewrite M in T2; exact T2|]. auto.
        * assert (LM : len (mem (buf r1)) = cap) by (destruct T1 as [_ _ <- _ _ _ _]; reflexivity).
          assert (P0 : bpos (buf r1) = 0) by (destruct T1 as [_ _ _ _ _ Cl1 _]; exact (Cl1 D1)).
          destruct (buffer_write (buf r1) d) as [b'| | | |] eqn:Eb; [|unfold buffer_write in Eb; rewrite blit_ok in Eb by lia; discriminate..].
          assert (Y := buffer_after _ _ _ Eb ltac:(lia) ltac:(lia)).
          cbn [bind]. eexists _, written. split; [reflexivity|]. split; [exact B1|].
          destruct T1 as [O1 M1 K1 CM1 PP Cl1 W1]. cbn [res mode] in *.
          unfold buffer_write in Eb. rewrite blit_ok in Eb by lia. cbn [bind] in Eb. injection Eb as <-.
          split; [constructor; cbn [res inner buf mode set_write_dirty bpos write_dirty mem capacity]; change size_of with len; try assumption; try lia; try discriminate; try congruence|].
          -- unfold capacity in *. cbn [mem set_write_dirty]. change size_of with len in *. rewrite len_overwrite by lia. lia.
          -- cbn [set_write_dirty mem bpos] in Y. change size_of with len in Y. rewrite Y, P0, take_0. reflexivity.
          -- auto.
      + cbn [bind]. assert (LM : len (mem (buf (res f))) = cap) by (rewrite <- K; reflexivity).
        destruct (buffer_write (buf (res f)) d) as [b'| | | |] eqn:Eb; [|unfold buffer_write in Eb; rewrite blit_ok in Eb by lia; discriminate..].
        assert (Y := buffer_after _ _ _ Eb ltac:(lia) ltac:(lia)).
        eexists _, c. split; [reflexivity|]. split; [exact B|]. split; [|auto].
        unfold buffer_write in Eb. rewrite blit_ok in Eb by lia. cbn [bind] in Eb. injection Eb as <-.
        constructor; cbn [res inner buf mode set_write_dirty bpos write_dirty mem capacity]; change size_of with len; try assumption; try lia; try discriminate; try reflexivity.
        * unfold capacity in *. cbn [mem set_write_dirty]. change size_of with len in *. rewrite len_overwrite by lia. lia.
        * cbn [set_write_dirty mem bpos] in Y. change size_of with len in Y. rewrite W, Y, <- app_assoc. reflexivity.
    - assert (P0 : bpos (buf (res f)) = 0) by lia.
      assert (D : c = written) by (rewrite P0, take_0, app_nil_r in W; congruence).
      unfold file_ops. cbn [raw_write].
      destruct (raw_write_full pl (inner (res f)) q _ c (len c) d O (len_nonneg _) L B) as (s' & E & X1 & X2 & X3 & X4).
      rewrite E. cbn [bind]. eexists _, (c ++ d). split; [reflexivity|]. split; [exact X4|]. rewrite put_end, <- len_app in X1.
      split; [|rewrite D; auto]. constructor; cbn [res inner buf mode]; try assumption; try reflexivity.
      now rewrite P0, take_0, app_nil_r, D. }
  exists (File r' (path f) m), c'. unfold file_write. rewrite M.
  destruct m; try discriminate; rewrite E; cbn [bind]; split; [reflexivity| |reflexivity|]; cbn [res path]; auto.
Qed.

Definition in_file (pl : platform) (wcap rcap : Z) (q : N) (mw mr : access_mode) (w own : list N) (g : Z) (d : duo) : Prop :=
  following pl wcap rcap q mw mr (system d) (first_file d) (second_file d) own w g /\ len w < 2 ^ 63 /\ 0 <= g <= len own.

Lemma file_passage : forall pl wcap rcap q mw mr, mode_writes mw = true -> mode_reads mr = true ->
  passage (second_source pl) (first_sink pl) (file_biggest pl rcap) (chunk_max pl) (2 ^ 63) (in_file pl wcap rcap q mw mr).
Proof.
  intros pl wcap rcap q mw mr Mw Mr. split.
  - intros w own g [y f h] d (F & Lw & G) B L. cbn [system first_file second_file first_sink sink_write] in *.
    assert (F0 := F). destruct F as [T _ _ _ Ob].
    destruct (tail_write_whole _ _ _ _ _ _ _ d T Mw Ob B) as (f1 & c1 & E & B1 & T1 & C1).
    assert (E' : call_file pl (in_world y f) (Write d) = Ok (f1, Returned (Wrote (len d)))) by (cbn [call_file]; rewrite E; reflexivity).
    assert (X1 : exists x, c1 = own ++ x).
    { destruct T as [_ _ _ _ _ _ W]. destruct C1 as [-> |[-> | ->]].
      - exists []. now rewrite app_nil_r.
      - eexists. exact W.
      - eexists. rewrite W, <- app_assoc. reflexivity. }
    assert (LC : len c1 <= len w + len d).
    { destruct T1 as [_ _ _ _ _ _ W]. apply (f_equal len) in W. rewrite !len_app in W.
      pose proof (len_nonneg (take (bpos (buf (res f1))) (mem (buf (res f1))))). lia. }
    pose proof (writer_step _ _ _ _ _ _ _ _ _ _ _ _ _ _ _ _ _ F0 E' B1 T1 X1 ltac:(lia)) as F1.
    unfold file_sink. cbn [sink_write]. rewrite E. cbn [returned bind]. eexists. eexists. exists c1. split; [reflexivity|].
    split; [|exact C1]. unfold in_file. cbn [system first_file second_file]. split; [exact F1|]. rewrite len_app. split; [exact L|].
    destruct X1 as (x & ->). rewrite len_app. pose proof (len_nonneg x). lia.
  - intros w own g [y f h] (F & Lw & G). cbn [system first_file second_file first_sink sink_flush] in *.
    assert (F0 := F). destruct F as [T _ _ _ Ob].
    destruct (tail_flush _ _ _ _ _ _ _ T Ob) as (f1 & E & B1 & T1 & _ & _).
    assert (E' : call_file pl (in_world y f) Flush = Ok (f1, Returned Done)) by (cbn [call_file]; rewrite E; reflexivity).
    assert (X1 : exists x, w = own ++ x) by (destruct T as [_ _ _ _ _ _ W]; eexists; exact W).
    pose proof (writer_step _ _ _ _ _ _ _ _ _ _ _ _ _ _ _ _ _ F0 E' B1 T1 X1 ltac:(lia)) as F1.
    unfold file_sink. cbn [sink_flush]. rewrite E. cbn [bind]. eexists. split; [reflexivity|].
    unfold in_file. cbn [system first_file second_file]. split; [exact F1|]. split; [exact Lw|].
    destruct X1 as (x & ->). rewrite len_app. pose proof (len_nonneg x). lia.
  - intros w own g d (_ & _ & G). exact G.
  - intros w own. split.
    + intros rest [y f h] block n (g & (F & Lw & G) & ->) N B.
      cbn [system first_file second_file second_source source_read] in *.
      destruct F as [T (others & p & K & Pw) (k1 & k2 & D1 & D2 & Nk) Pa Ob].
      unfold file_biggest in B.
      destruct (call_file_step pl rcap q mr others p (Store own g) (in_world y h) (Read block n) K Ob Mr) as (g1 & E & Pa1 & B1 & K1).
      { cbn [file_allowed]. destruct K as [KK _]. pose proof (ff_most _ _ _ _ _ _ _ _ _ KK).
        destruct (Z.eqb_spec rcap 0); repeat split; try lia; auto. }
      { congruence. }
      destruct (call_file_tame _ _ _ _ _ E) as ([T1 (_ & _ & _ & T3 & _)] & _).
      cbn [in_world with_sys res inner os descriptor] in T1, T3.
      cbn [file_call fst snd] in E, K1. unfold next_bytes in E, K1. cbn [bytes at_] in E, K1.
      set (d := take n (drop g own)) in *.
      assert (NW : next_stage rcap p (Read block n) <> InWrites) by (unfold next_stage; destruct (rcap =? 0); discriminate).
      assert (DQ : disk (os (inner (res g1))) q = disk y q).
      { destruct T as [[_ DT] _ _ _ _ _ _]. cbn [in_world with_sys res inner os] in DT. rewrite DT.
        destruct K1 as [KK _]. destruct (clean_disk _ _ _ _ _ _ _ _ _ KK (clean_unless_writing _ _ _ _ _ _ _ _ _ KK NW)) as [[_ Y]|[_ Y]]; exact Y. }
      assert (F1 : following pl wcap rcap q mw mr (os (inner (res g1))) f g1 own w (g + len d)).
      { constructor.
        - eapply tail_in_world; [exact T|exact D1|apply T3; congruence|exact DQ].
        - exists others, (next_stage rcap p (Read block n)). rewrite in_world_id. split; assumption.
        - exists k1, k2. repeat split; try assumption. congruence.
        - rewrite Pa1. exact Pa.
        - exact B1. }
      cbn [call_file] in E. unfold file_source. cbn [source_read]. unfold next_bytes in E.
      destruct (file_read pl (in_world y h) block n) as [[g2 a]| | | |]; cbn [bind] in E; try discriminate.
      injection E as -> E. destruct a as [[b k]|x]; cbn [answered] in E; [|discriminate]. injection E as -> ->.
      cbn [returned bind]. eexists. split; [reflexivity|].
      assert (Ld : len d = Z.min n (len own - g)) by (unfold d; rewrite len_take, len_drop by lia; lia).
      exists (g + len d). split.
      * unfold in_file. cbn [system first_file second_file]. split; [exact F1|]. lia.
      * rewrite drop_drop by lia. destruct (Z.le_ge_cases n (len own - g)).
        -- now replace (len d) with n by lia.
        -- rewrite !drop_all by lia. reflexivity.
    + intros rest [y f h] (g & (F & Lw & G) & ->).
      cbn [system first_file second_file second_source source_at_end file_source] in *.
      destruct (reader_at_end _ _ _ _ _ _ _ _ _ _ _ _ F) as (E & _ & _). rewrite E. f_equal. rewrite len_drop by lia. lia.
Qed.

Lemma in_file_disk : forall pl wcap rcap q mw mr w own g d, in_file pl wcap rcap q mw mr w own g d -> disk (system d) q = Some own.
Proof.
  intros pl wcap rcap q mw mr w own g d (F & _). destruct (reader_at_end _ _ _ _ _ _ _ _ _ _ _ _ F) as (_ & D & _). exact D.
Qed.

Lemma in_file_start : forall pl w q mw mr how wcap rcap l, mode_writes mw = true ->
  disk w q = Some l \/ disk w q = None /\ how = Create /\ l = [] ->
  len l < 2 ^ 63 -> obliging w -> Z.of_nat wcap <= chunk_max pl -> Z.of_nat rcap <= chunk_max pl ->
  exists f g, open_both pl w q mw mr how wcap rcap = Ok (f, g) /\
    in_file pl (Z.of_nat wcap) (Z.of_nat rcap) q mw mr l l 0 (Duo (system_of g) f g).
Proof.
  intros pl w q mw mr how wcap rcap l Mw D L B C1 C2.
  destruct (both_open pl w q _ mw mr how wcap rcap D L B C1 C2)
    as (f & g & k1 & k2 & o1 & o2 & E & K1 & K2 & D1 & D2 & Nk & P1 & P2 & Ob & Ot).
  exists f, g. split; [exact E|]. unfold in_file. cbn [system first_file second_file].
  split; [|split; [exact L|pose proof (len_nonneg l); lia]].
  constructor; try assumption.
  - exact (tail_at_end _ _ _ _ _ _ _ K1 Mw).
  - exists o2, Resting. split; [exact K2|discriminate].
  - exists k1, k2. auto.
Qed.

(* --------------------------------------------------------------- whole values *)

Lemma held_whole : forall (R : Type) native size (holds : list N -> list N -> Z -> R -> Prop) P U V s all,
  holding native size holds P U V s -> P ++ U = all -> whole_values native size all (value_bytes native size 0 (P ++ V)).
Proof.
  intros R native size holds P U V s all [_ [B H]] E. exists (length (P ++ V)). rewrite <- E, H, app_assoc, firstn_app, Nat.sub_diag, firstn_all.
  cbn [firstn]. now rewrite app_nil_r.
Qed.
