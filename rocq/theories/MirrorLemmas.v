(** Lemmas for C170: a program in the other byte order is the program in the byte order of
    the machine with mirrored values. *)
From Coq Require Import NArith ZArith List Bool Lia ZifyBool ZifyNat ZifyN.
From Verif Require Import Base Integers UnicodeModel ResourceSpec ResourceModel ResourceText
  FileSpec FileModel FileText StreamSpec StreamModel StreamText SharedSpec SharedModel TextFileModel FollowText RelayText.
From Verif Require Import ResourceLemmas StreamLemmas StreamLemmas2 PassSpec PassText PassLemmas MirrorSpec MirrorText.
Import ListNotations.
Open Scope Z_scope.

(* -------------------------------------------------------------------- mirrors *)

Lemma value_little : forall d, Forall (fun b => (b < 256)%N) d ->
  (value_of d < 256 ^ N.of_nat (length d))%N /\ little (length d) (value_of d) = d.
Proof.
  induction d as [|b d IH]; intro H; [cbn; split; [lia|reflexivity]|].
  pose proof (Forall_inv H) as Hb. cbn beta in Hb. destruct (IH (Forall_inv_tail H)) as [B E]. cbn [length little value_of]. split.
  - rewrite Nat2N.inj_succ, N.pow_succ_r'. lia.
  - rewrite N.mul_comm, N.mod_add, N.mod_small by lia. rewrite N.div_add, N.div_small by lia. cbn. now rewrite E.
Qed.

Lemma little_length : forall w v, length (little w v) = w.
Proof. induction w as [|w IH]; intro v; [reflexivity|]. cbn [little length]. now rewrite IH. Qed.

Lemma little_bytes : forall w v, Forall (fun b => (b < 256)%N) (little w v).
Proof. induction w as [|w IH]; intro v; constructor; [apply N.mod_lt; lia|apply IH]. Qed.

Lemma mirror_fits : forall w v, (mirror w v < 256 ^ N.of_nat w)%N.
Proof.
  intros w v. pose proof (value_little (rev (little w v)) (Forall_rev (little_bytes w v))) as [B _].
  now rewrite rev_length, little_length in B.
Qed.

Lemma mirror_bytes : forall o w v, in_order o w (mirror w v) = in_order (opposite o) w v.
Proof.
  intros o w v. pose proof (value_little (rev (little w v)) (Forall_rev (little_bytes w v))) as [_ E].
  rewrite rev_length, little_length in E. fold (mirror w v) in E.
  destruct o; cbn [in_order opposite]; rewrite E; [reflexivity|apply rev_involutive].
Qed.

Lemma mirrored_app : forall size a i b, mirrored size i (a ++ b) = mirrored size i a ++ mirrored size (i + length a) b.
Proof.
  intros size a. induction a as [|v a IH]; intros i b; cbn [mirrored app length]; [now rewrite Nat.add_0_r|].
  rewrite IH. now rewrite Nat.add_succ_comm.
Qed.

Lemma mirrored_length : forall size l i, length (mirrored size i l) = length l.
Proof. intros size l. induction l as [|v l IH]; intro i; cbn [mirrored length]; [reflexivity|]. now rewrite IH. Qed.

Lemma mirrored_firstn : forall size k l i, mirrored size i (firstn k l) = firstn k (mirrored size i l).
Proof.
  intros size k. induction k as [|k IH]; intros [|v l] i; cbn [mirrored firstn]; try reflexivity. now rewrite IH.
Qed.

Lemma mirrored_values : forall size acts i, all_values (mirrored_acts size i acts) = mirrored size i (all_values acts).
Proof.
  intros size acts. induction acts as [|[v| |] acts IH]; intro i; cbn [mirrored_acts all_values flat_map app mirrored]; try exact (IH i); [reflexivity|].
  f_equal. exact (IH (S i)).
Qed.

Lemma mirrored_bytes : forall o size l i, value_bytes o size i (mirrored size i l) = value_bytes (opposite o) size i l.
Proof.
  intros o size l. induction l as [|v l IH]; intro i; cbn [mirrored value_bytes]; [reflexivity|]. now rewrite mirror_bytes, IH.
Qed.

Lemma mirrored_fits : forall size l, values_fit size (mirrored size 0 l).
Proof.
  intros size l. assert (X : forall l i k v, nth_error (mirrored size i l) k = Some v -> (v < 256 ^ N.of_nat (size (i + k)%nat))%N).
  { clear l. induction l as [|u l IH]; intros i k v H; cbn [mirrored] in H; [destruct k; discriminate|].
    destruct k as [|k]; cbn [nth_error] in H.
    - injection H as <-. rewrite Nat.add_0_r. apply mirror_fits.
    - rewrite <- Nat.add_succ_comm. exact (IH (S i) k v H). }
  intros k v H. exact (X l 0%nat k v H).
Qed.

(* --------------------------------------------------------- blocks keep their size *)

Definition keeps {S : Type} (ops : raw S) : Prop :=
  forall s dst off n rr s' dst' k, raw_read ops s dst off n rr = Ok (s', dst', k) -> length dst' = length dst.

Lemma blit_keeps : forall m off d m', blit m off d = Ok m' -> length m' = length m.
Proof.
  intros m off d m' E. unfold blit in E. destruct (_ && _) eqn:C; [|discriminate]. injection E as <-.
  change size_of with len in *. unfold len in *. rewrite !app_length, firstn_length, skipn_length. lia.
Qed.

Lemma memcpy_keeps : forall m off src soff n m', memcpy m off src soff n = Ok m' -> length m' = length m.
Proof.
  intros m off src soff n m' E. unfold memcpy in E. destruct (slice src soff n); try discriminate. exact (blit_keeps _ _ _ _ E).
Qed.

Lemma buffer_read_keeps : forall b dst off n b' dst' k, buffer_read b dst off n = Ok (b', dst', k) -> length dst' = length dst.
Proof.
  intros b dst off n b' dst' k E. unfold buffer_read in E. destruct (memcpy _ _ _ _ _) eqn:M; try discriminate. cbn [bind] in E.
  injection E as _ <- _. exact (memcpy_keeps _ _ _ _ _ _ M).
Qed.

Lemma read_keeps : forall (S : Type) (ops : raw S) r dst n r' dst' k, keeps ops -> read ops r dst n = Ok (r', dst', k) -> length dst' = length dst.
Proof.
  intros S ops r dst n r' dst' k K E. unfold read in E. destruct (0 <? capacity (buf r)).
  - unfold read_buffered in E.
    destruct (if read_dirty (buf r) then _ else _) as [r1| | | |]; try discriminate. cbn [bind] in E.
    destruct (filled (buf r1) <? _).
    + set (difference := as_size _) in E.
      assert (X : forall q, (if 0 <? difference then
            bind (buffer_read (buf r1) dst 0 difference) (fun '(b, dst, k) => Ok (Resource (inner r1) b, dst, k, as_size (n - k)))
          else Ok (r1, dst, 0, n)) = Ok q -> length (snd (fst (fst q))) = length dst).
      { intros q Q. destruct (0 <? difference); [|injection Q as <-; reflexivity].
        destruct (buffer_read _ _ _ _) as [[[b d1] k1]| | | |] eqn:B; try discriminate. cbn [bind] in Q. injection Q as <-.
        exact (buffer_read_keeps _ _ _ _ _ _ _ B). }
      destruct (if 0 <? difference then _ else _) as [[[[r2 d2] b2] n2]| | | |]; try discriminate. specialize (X _ eq_refl). cbn [fst snd] in X.
      cbn [bind] in E. destruct (capacity (buf r2) <? n2).
      * destruct (raw_read _ _ _ _ _ _) as [[[s3 d3] k3]| | | |] eqn:Rr; try discriminate. cbn [bind] in E. injection E as _ <- _.
        rewrite (K _ _ _ _ _ _ _ _ Rr). exact X.
      * destruct (fill ops r2) as [[r3 b3]| | | |]; try discriminate. cbn [bind] in E.
        destruct (buffer_read _ _ _ _) as [[[b d1] k1]| | | |] eqn:B; try discriminate. cbn [bind] in E. injection E as _ <- _.
        rewrite (buffer_read_keeps _ _ _ _ _ _ _ B). exact X.
    + destruct (buffer_read _ _ _ _) as [[[b d1] k1]| | | |] eqn:B; try discriminate. cbn [bind] in E. injection E as _ <- _.
      exact (buffer_read_keeps _ _ _ _ _ _ _ B).
  - destruct (raw_read _ _ _ _ _ _) as [[[s3 d3] k3]| | | |] eqn:Rr; try discriminate. cbn [bind] in E. injection E as _ <- _.
    exact (K _ _ _ _ _ _ _ _ Rr).
Qed.

Lemma container_keeps : keeps container_ops.
Proof.
  intros c dst off n rr c' dst' k E. cbn [container_ops raw_read] in E. unfold container_read in E.
  destruct (memcpy _ _ _ _ _) eqn:M; try discriminate. cbn [bind] in E. injection E as _ <- _. exact (memcpy_keeps _ _ _ _ _ _ M).
Qed.

Lemma unix_block_keeps : forall fuel w fd dst off n total w' dst' k,
  unix_block fuel w fd dst off n total = Ok (w', dst', k) -> length dst' = length dst.
Proof.
  induction fuel as [|fuel IH]; intros w fd dst off n total w' dst' k E; cbn [unix_block] in E.
  - discriminate.
  - destruct (sys_read w fd n) as [w1 [[|x d]|]]; try (injection E as _ <- _; reflexivity).
    destruct (blit _ _ _) as [d1| | | |] eqn:B; try discriminate. cbn [bind] in E. pose proof (blit_keeps _ _ _ _ B) as X.
    destruct (_ =? n); [injection E as _ <- _; exact X|]. rewrite (IH _ _ _ _ _ _ _ _ _ E). exact X.
Qed.

Lemma windows_block_keeps : forall fuel w fd dst off n total w' dst' k,
  windows_block fuel w fd dst off n total = Ok (w', dst', k) -> length dst' = length dst.
Proof.
  induction fuel as [|fuel IH]; intros w fd dst off n total w' dst' k E; cbn [windows_block] in E.
  - discriminate.
  - destruct (sys_read w fd _) as [w1 [d|]]; try (injection E as _ <- _; reflexivity).
    destruct (blit _ _ _) as [d1| | | |] eqn:B; try discriminate. cbn [bind] in E. pose proof (blit_keeps _ _ _ _ B) as X.
    destruct (_ || _); [injection E as _ <- _; exact X|]. rewrite (IH _ _ _ _ _ _ _ _ _ E). exact X.
Qed.

Lemma read_block_keeps : forall pl w fd dst off n w' dst' k, read_block pl w fd dst off n = Ok (w', dst', k) -> length dst' = length dst.
Proof.
  intros pl w fd dst off n w' dst' k E. unfold read_block in E. destruct pl; [eapply unix_block_keeps|eapply windows_block_keeps]; exact E.
Qed.

Lemma read_blocks_keeps : forall pl fuel w fd dst off n total w' dst' k,
  read_blocks pl fuel w fd dst off n total = Ok (w', dst', k) -> length dst' = length dst.
Proof.
  intros pl fuel. induction fuel as [|fuel IH]; intros w fd dst off n total w' dst' k E; cbn [read_blocks] in E;
    (destruct (n <=? 0); [injection E as _ <- _; reflexivity|]); [discriminate|].
  destruct (read_block _ _ _ _ _ _) as [[[w1 d1] k1]| | | |] eqn:B; try discriminate. cbn [bind] in E.
  pose proof (read_block_keeps _ _ _ _ _ _ _ _ _ B) as X. destruct (k1 =? _).
  - rewrite (IH _ _ _ _ _ _ _ _ _ E). exact X.
  - injection E as _ <- _. exact X.
Qed.

Lemma file_keeps : forall pl, keeps (file_ops pl).
Proof.
  intros pl s dst off n rr s' dst' k E. cbn [file_ops raw_read] in E. unfold file_read_raw in E.
  match type of E with bind ?x _ = _ => destruct x as [[[w1 d1] k1]| | | |] eqn:B; try discriminate end. cbn [bind] in E.
  injection E as _ <- _. exact (read_blocks_keeps _ _ _ _ _ _ _ _ _ _ _ B).
Qed.

Definition keeps_blocks {R : Type} (src : source R) : Prop :=
  forall r block n r' block' k, source_read src r block n = Ok (r', block', k) -> length block' = length block.

Lemma shared_keeps : keeps_blocks shared_source.
Proof.
  intros s block n s' block' k E. cbn [shared_source source_read] in E. unfold shared_read in E.
  destruct (read _ _ _ _) as [[[r1 d1] k1]| | | |] eqn:B; try discriminate. cbn [bind] in E. injection E as _ <- _.
  exact (read_keeps _ _ _ _ _ _ _ _ container_keeps B).
Qed.

Lemma second_keeps : forall pl, keeps_blocks (second_source pl).
Proof.
  intros pl d block n d' block' k E. cbn [second_source file_source source_read] in E. unfold file_read in E.
  destruct (mode _); cbn [returned bind] in E; try discriminate;
    (destruct (read _ _ _ _) as [[[r1 d1] k1]| | | |] eqn:B; try discriminate; cbn [returned bind] in E; injection E as _ <- _;
     exact (read_keeps _ _ _ _ _ _ _ _ (file_keeps pl) B)).
Qed.

(* ------------------------------------------------------------------- the program *)

Section Run.
Context {R : Type} (native : byte_order) (src : source R) (snk : sink R) (size : nat -> nat)
  (Keeps : keeps_blocks src) (Pos : forall i, (0 < size i)%nat).
Notation other := (order_of (opposite native)).

Lemma other_differs : endian_eqb other (order_of native) = false.
Proof. destruct native; reflexivity. Qed.
Lemma own_same : endian_eqb (order_of native) (order_of native) = true.
Proof. destruct native; reflexivity. Qed.

Lemma other_write : forall s i v, data_write (order_of native) snk other s (to_memory (order_of native) (size i) v) =
  data_write (order_of native) snk (order_of native) s (to_memory (order_of native) (size i) (mirror (size i) v)).
Proof.
  intros s i v. unfold data_write. rewrite other_differs, own_same. rewrite !to_memory_in_order, mirror_bytes.
  unfold reverse_write. change size_of with len. rewrite invert_whole.
  - cbn [bind]. f_equal. destruct native; cbn [in_order opposite]; [reflexivity|apply rev_involutive].
  - intro X. apply (f_equal len) in X. rewrite len_in_order in X. specialize (Pos i). change (len []) with 0 in X. lia.
Qed.

Lemma other_read : forall s i, kept_data_read (order_of native) src other s (size i) =
  kept_data_read (order_of native) src (order_of native) s (size i).
Proof.
  intros s i. unfold kept_data_read, stream_read. rewrite other_differs, own_same. cbn [negb].
  destruct (source_read src s _ _) as [[[r b] k]| | | |] eqn:E; cbn [bind]; try reflexivity.
  pose proof (Keeps _ _ _ _ _ _ E) as Lb. rewrite repeat_length in Lb.
  assert (Ln : Z.of_nat (size i) = len b) by (unfold len; lia).
  assert (Ne : b <> []) by (intros ->; specialize (Pos i); cbn in Lb; lia).
  rewrite Ln, invert_whole by exact Ne. cbn [bind]. destruct (k <? len b); [reflexivity|].
  replace (len b) with (len (rev b)) by (unfold len; now rewrite rev_length).
  rewrite invert_whole by (intro X; apply (f_equal (@length N)) in X; rewrite rev_length in X; destruct b; [congruence|discriminate]).
  now rewrite rev_involutive.
Qed.

Lemma other_run : forall acts s put got, run_pass (order_of native) other src snk size s put got acts =
  run_pass (order_of native) (order_of native) src snk size s put got (mirrored_acts size put acts).
Proof.
  induction acts as [|[v| |] acts IH]; intros s put got; cbn [mirrored_acts run_pass]; [reflexivity|..].
  - rewrite other_write. destruct (data_write _ _ _ _ _); cbn [bind]; try reflexivity. apply IH.
  - destruct (sink_flush _ _); cbn [bind]; try reflexivity. apply IH.
  - rewrite other_read. destruct (kept_data_read _ _ _ _ _) as [s1 [d|[]| | |]]; try reflexivity; now rewrite IH.
Qed.
End Run.
