(** Byte order, and what streams need of their resources. *)
From Coq Require Import NArith ZArith List Bool Lia ZifyBool ZifyNat ZifyN.
From Verif Require Import Base Integers UnicodeSpec UnicodeModel ResourceSpec ResourceModel ResourceText
  ResourceLemmas ResourceLemmas2 ResourceLemmas3 ResourceLemmas4 StreamSpec StreamModel StreamText.
Import ListNotations.
Open Scope Z_scope.

(* -------------------------------------------------------------- byte order *)

Lemma endian_eqb_eq : forall a b, endian_eqb a b = true <-> a = b.
Proof. now intros [|] [|]. Qed.

Lemma low_bytes_little : forall w v, low_bytes w v = little w v.
Proof. induction w as [|w IH]; intro v; cbn; [reflexivity|now rewrite IH]. Qed.

Lemma to_memory_in_order : forall o w v, to_memory (order_of o) w v = in_order o w v.
Proof. intros [|] w v; cbn; now rewrite low_bytes_little. Qed.

Lemma little_length : forall w v, length (little w v) = w.
Proof. induction w as [|w IH]; intro v; cbn; [reflexivity|now rewrite IH]. Qed.

Lemma in_order_length : forall o w v, length (in_order o w v) = w.
Proof. intros [|] w v; cbn; rewrite ?rev_length; apply little_length. Qed.

Lemma len_in_order : forall o w v, len (in_order o w v) = Z.of_nat w.
Proof. intros. unfold len. now rewrite in_order_length. Qed.

Lemma in_order_opposite : forall o w v, rev (in_order o w v) = in_order (opposite o) w v.
Proof. intros [|] w v; cbn; [reflexivity|apply rev_involutive]. Qed.

Lemma from_low_little : forall w v, (v < 256 ^ N.of_nat w)%N -> from_low_bytes (little w v) = v.
Proof.
  induction w as [|w IH]; intros v H.
  - cbn in *. lia.
  - cbn [little from_low_bytes]. rewrite IH.
    + pose proof (N.div_mod v 256 ltac:(lia)). lia.
    + replace (N.of_nat (S w)) with (N.succ (N.of_nat w)) in H by lia. rewrite N.pow_succ_r' in H.
      apply N.div_lt_upper_bound; lia.
Qed.

Lemma from_memory_in_order : forall o w v, (v < 256 ^ N.of_nat w)%N ->
  from_memory (order_of o) (in_order o w v) = v.
Proof. intros [|] w v H; cbn; rewrite ?rev_involutive; now apply from_low_little. Qed.

(* ----------------------------------------------------------------- inversion *)

Lemma slice_mid : forall a x b, slice (a ++ x :: b) (len a) 1 = Ok [x].
Proof.
  intros. rewrite slice_ok.
  - f_equal. change (skipn (Z.to_nat (len a)) (a ++ x :: b)) with (drop (len a) (a ++ x :: b)).
    now rewrite drop_app_exact.
  - apply len_nonneg.
  - lia.
  - rewrite len_app. unfold len at 3. cbn [length]. lia.
Qed.

Lemma blit_mid : forall a x y b, blit (a ++ x :: b) (len a) [y] = Ok (a ++ y :: b).
Proof.
  intros. rewrite blit_ok.
  - f_equal. unfold overwrite. rewrite take_app_exact. cbn [app]. f_equal. f_equal.
    change (a ++ x :: b) with (a ++ [x] ++ b). rewrite app_assoc.
    replace (len a + len [y]) with (len (a ++ [x])) by (rewrite len_app; reflexivity). apply drop_app_exact.
  - apply len_nonneg.
  - rewrite len_app. unfold len at 2 4. cbn [length]. lia.
Qed.

Lemma invert_loop_ok : forall n m a c fuel, (length m <= n)%nat -> (length m < fuel)%nat ->
  invert_loop fuel (a ++ m ++ c) (len a) (len a + len m - 1) = Ok (a ++ rev m ++ c).
Proof.
  induction n as [|n IH]; intros m a c fuel Hm Hf.
  - destruct m; [|cbn in Hm; lia]. destruct fuel as [|fuel]; [lia|]. cbn [invert_loop rev app].
    replace (len a <? len a + len [] - 1) with false by (unfold len; cbn; lia). reflexivity.
  - destruct fuel as [|fuel]; [lia|]. cbn [invert_loop].
    destruct m as [|x m]; [|destruct m as [|y' m'] using rev_ind].
    + replace (len a <? len a + len [] - 1) with false by (unfold len; cbn; lia). reflexivity.
    + replace (len a <? len a + len [x] - 1) with false by (unfold len; cbn; lia). reflexivity.
    + clear IHm'. rename y' into y, m' into m. rename m into k. rename y into z.
      assert (E : len a + len (x :: k ++ [z]) - 1 = len (a ++ x :: k)).
      { unfold len. rewrite app_length. cbn [length]. rewrite app_length. cbn [length]. lia. }
      rewrite E. replace (len a <? len (a ++ x :: k)) with true
        by (rewrite len_app; unfold len; cbn [length]; lia).
      assert (E1 : forall u v : N, a ++ (u :: k ++ [v]) ++ c = (a ++ u :: k) ++ v :: c).
      { intros. rewrite <- app_assoc. cbn. now rewrite <- app_assoc. }
      assert (E2 : forall u v : N, (a ++ u :: k) ++ v :: c = a ++ u :: (k ++ v :: c)).
      { intros. now rewrite <- app_assoc. }
      rewrite E1. rewrite E2 at 1. rewrite slice_mid. cbn [bind].
      rewrite slice_mid. cbn [bind]. rewrite E2, blit_mid. cbn [bind].
      rewrite <- E2.
      replace (len (a ++ x :: k)) with (len (a ++ z :: k)) by (rewrite !len_app; reflexivity).
      rewrite blit_mid. cbn [bind]. rewrite E2.
      replace (a ++ z :: k ++ x :: c) with ((a ++ [z]) ++ k ++ (x :: c)) by (now rewrite <- app_assoc).
      replace (len a + 1) with (len (a ++ [z])) by (rewrite len_app; reflexivity).
      replace (len (a ++ z :: k) - 1) with (len (a ++ [z]) + len k - 1)
        by (rewrite !len_app; unfold len; cbn [length]; lia).
      rewrite IH.
      * f_equal. cbn [rev]. rewrite rev_app_distr. cbn. rewrite <- !app_assoc. reflexivity.
      * cbn [length] in Hm. rewrite app_length in Hm. cbn [length] in Hm. lia.
      * cbn [length] in Hf. rewrite app_length in Hf. cbn [length] in Hf. lia.
Qed.

Lemma invert_ok : forall m c, m <> [] -> invert_endianness (m ++ c) (len m) = Ok (rev m ++ c).
Proof.
  intros m c H. unfold invert_endianness.
  replace (len m =? 0) with false by (destruct m; [congruence|unfold len; cbn [length]; lia]).
  assert (F : (length m < S (Z.to_nat (len m)))%nat) by (unfold len; lia).
  exact (invert_loop_ok (length m) m [] c _ (le_n _) F).
Qed.

Lemma invert_whole : forall m, m <> [] -> invert_endianness m (len m) = Ok (rev m).
Proof. intros m H. rewrite <- (app_nil_r m) at 1. rewrite invert_ok by assumption. now rewrite app_nil_r. Qed.

(* --------------------------------------------------- sources and sinks *)

(** [left rest r]: rest is what the resource still has to give. *)
Record good_source {R : Type} (ops : source R) (biggest : Z) (left : list N -> R -> Prop) : Prop := {
  gs_read : forall rest r block n, left rest r -> 0 < n <= len block -> n <= biggest ->
    exists r', source_read ops r block n
      = Ok (r', take n rest ++ drop (len (take n rest)) block, len (take n rest)) /\ left (drop n rest) r';
  gs_at_end : forall rest r, left rest r -> source_at_end ops r = Ok (len rest =? 0) }.

(** The same without reads past the end. *)
Record good_reader {R : Type} (ops : source R) (biggest : Z) (left : list N -> R -> Prop) : Prop := {
  gr_read : forall rest r block n, left rest r -> 0 < n <= len block -> n <= biggest -> n <= len rest ->
    exists r', source_read ops r block n = Ok (r', take n rest ++ drop n block, n) /\ left (drop n rest) r' }.

Lemma source_reader : forall (R : Type) (ops : source R) biggest left, good_source ops biggest left ->
  good_reader ops biggest left.
Proof.
  intros R ops biggest left G. split. intros rest r block n L Nb B Nr.
  destruct (gs_read _ _ _ G rest r block n L Nb B) as (r' & E & L'). exists r'. split; [|exact L'].
  rewrite E. assert (Lt : len (take n rest) = n) by (rewrite len_take by lia; lia). now rewrite Lt.
Qed.
Coercion source_reader : good_source >-> good_reader.

(** [got b r]: b is what the resource was given. *)
Record good_sink {R : Type} (ops : sink R) (limit : Z) (got : list N -> R -> Prop) : Prop := {
  gk_write : forall b r d, got b r -> len (b ++ d) <= limit ->
    exists r' k, sink_write ops r d = Ok (r', k) /\ got (b ++ d) r';
  gk_flush : forall b r, got b r -> exists r', sink_flush ops r = Ok r' /\ got b r' }.

(** Container resources. *)
Definition container_left (cap : Z) (rest : list N) (r : resource container) : Prop :=
  exists l p, stands_for 1 cap p (Store l (len l - len rest)) r /\ (p = Neutral \/ p = Reading) /\
    drop (len l - len rest) l = rest.

Definition biggest_read (cap : Z) : Z := if cap =? 0 then 2 ^ 62 else cap.

Lemma container_good_source : forall cap, good_source container_source (biggest_read cap) (container_left cap).
Proof.
  intro cap. split.
  - intros rest r block n (l & p & S & P & E) Np B. cbn [container_source source_read].
    assert (N : 0 <= n <= len block) by lia.
    destruct (read_step _ _ _ _ _ block n S N) as (r' & X & S').
    + unfold biggest_read in B. destruct (Z.eqb_spec cap 0); [left|right]; assumption.
    + assumption.
    + unfold next_bytes in *. cbn [at_ bytes] in *. rewrite E in *. exists r'. split; [exact X|].
      exists l. pose proof (sf_at _ _ _ _ _ S) as A. cbn [at_ bytes] in A.
      pose proof (len_nonneg rest). rewrite len_take in * by lia.
      assert (D : len l - len (drop n rest) = len l - len rest + Z.min n (len rest)).
      { rewrite len_drop by lia. lia. }
      rewrite D. eexists. split; [exact S'|]. split; [destruct (cap =? 0); auto|].
      rewrite <- E at 3. rewrite <- drop_drop by lia. rewrite E. destruct (Z.le_ge_cases n (len rest)).
      * now rewrite Z.min_l by lia.
      * rewrite Z.min_r by lia. now rewrite !drop_all by lia.
  - intros rest r (l & p & S & P & E). cbn [container_source source_at_end]. f_equal.
    rewrite (at_end_ok _ _ _ _ _ S); [|now left|destruct P as [-> | ->]; discriminate]. cbn [at_ bytes]. lia.
Qed.

Lemma container_left_new : forall cap l, len l * 2 < 2 ^ 63 ->
  container_left (Z.of_nat cap) l (new_resource l 1 cap).
Proof.
  intros cap l B. exists l, Neutral. rewrite Z.sub_diag. split; [|split; [now left|apply drop_0]].
  apply fresh; [lia|apply Z.divide_1_l|lia].
Qed.

Definition container_got (cap : Z) (b : list N) (r : resource container) : Prop :=
  exists p, stands_for 1 cap p (Store b (len b)) r /\ (p = Neutral \/ p = Appending).

Lemma container_good_sink : forall cap, good_sink container_sink (2 ^ 62 - 1) (container_got cap).
Proof.
  intro cap. split.
  - intros b r d (p & S & P) B. cbn [container_sink sink_write].
    assert (Np : next_phase cap (Store b (len b)) p (Write d) = Neutral \/
                 next_phase cap (Store b (len b)) p (Write d) = Appending).
    { unfold next_phase. cbn [at_ bytes]. rewrite Z.eqb_refl. destruct (cap =? 0); destruct P as [-> | ->]; auto. }
    destruct (write_step _ _ _ _ _ d S) as (r' & E & S').
    + destruct P; congruence.
    + cbn [bytes at_]. rewrite overwrite_end. lia.
    + cbn [bytes at_]. destruct Np as [-> | ->]; [right|]; try split; try reflexivity; apply Z.divide_1_l.
    + exists r'. eexists. split; [exact E|]. cbn [bytes at_] in S'. rewrite overwrite_end in S'.
      replace (len b + len d) with (len (b ++ d)) in S' by apply len_app. eexists. split; [exact S'|exact Np].
  - intros b r (p & S & P). cbn [container_sink sink_flush].
    destruct (flush_step _ _ _ _ _ S) as (r' & E & S'). exists r'. split; [exact E|].
    exists Neutral. split; [destruct P as [-> | ->]; exact S'|now left].
Qed.

Lemma container_got_new : forall cap, container_got (Z.of_nat cap) [] (new_resource [] 1 cap).
Proof.
  intros cap. exists Neutral. split; [|now left]. change (len []) with 0.
  apply fresh; [lia|apply Z.divide_1_l|cbn; lia].
Qed.

Lemma container_got_flushed : forall cap b r, container_got cap b r ->
  exists r', sink_flush container_sink r = Ok r' /\ content (inner r') = b /\ container_got cap b r'.
Proof.
  intros cap b r G. destruct G as (p & S & P). cbn [container_sink sink_flush].
  destruct (flush_step _ _ _ _ _ S) as (r' & E & S'). exists r'.
  assert (S'' : stands_for 1 cap Neutral (Store b (len b)) r') by (destruct P as [-> | ->]; exact S').
  split; [exact E|]. split; [|exists Neutral; auto]. destruct S'' as [_ _ _ _ _ _ _ I]. cbn [in_phase bytes] in I. tauto.
Qed.

(* ------------------------------------------------------------ data streams *)

Section Values.
Context {R : Type}.

Lemma stream_read_ok : forall (o ord : byte_order) (ops : source R) biggest left d rest r w,
  good_reader ops biggest left -> left (d ++ rest) r -> length d = w -> (0 < w)%nat -> Z.of_nat w <= biggest ->
  exists r', stream_read (order_of o) ops (order_of ord) r (repeat 0%N w) (Z.of_nat w)
    = Ok (r', (if endian_eqb (order_of ord) (order_of o) then d else rev d), Z.of_nat w) /\ left rest r'.
Proof.
  intros o ord ops biggest left d rest r w G L D W B. unfold stream_read.
  assert (Ld : len d = Z.of_nat w) by (unfold len; lia).
  destruct (gr_read _ _ _ G _ _ (repeat 0%N w) (Z.of_nat w) L) as (r' & E & L').
  - unfold len. rewrite repeat_length. lia.
  - exact B.
  - rewrite len_app. pose proof (len_nonneg rest). lia.
  - rewrite E. cbn [bind]. rewrite <- Ld in *. rewrite take_app_exact, drop_app_exact in *.
    rewrite drop_all by (unfold len at 1; rewrite repeat_length; lia). rewrite app_nil_r.
    exists r'. split; [|exact L']. destruct (endian_eqb _ _); cbn [negb bind]; [reflexivity|].
    rewrite invert_whole by (destruct d; [cbn in D; lia|discriminate]). reflexivity.
Qed.

Lemma data_read_ok : forall (o ord : byte_order) (ops : source R) biggest left d rest r w,
  good_source ops biggest left -> left (d ++ rest) r -> length d = w -> (0 < w)%nat -> Z.of_nat w <= biggest ->
  exists r', data_read (order_of o) ops (order_of ord) r w = Ok (r', d) /\ left rest r'.
Proof.
  intros o ord ops biggest left d rest r w G L D W B. unfold data_read.
  destruct (stream_read_ok o ord ops biggest left d rest r w G L D W B) as (r' & E & L').
  rewrite E. cbn [bind]. rewrite Z.ltb_irrefl. exists r'. split; [|exact L'].
  destruct (endian_eqb _ _); cbn [negb bind]; [reflexivity|].
  replace (Z.of_nat w) with (len (rev d)) by (unfold len; rewrite rev_length; lia).
  rewrite invert_whole by (intro H; apply (f_equal (@length N)) in H; rewrite rev_length in H; cbn in H; lia).
  now rewrite rev_involutive.
Qed.

Lemma data_write_ok : forall (o ord : byte_order) (ops : sink R) limit got b r w v,
  good_sink ops limit got -> got b r -> (0 < w)%nat -> len (b ++ in_order ord w v) <= limit ->
  exists r', data_write (order_of o) ops (order_of ord) r (to_memory (order_of o) w v) = Ok r' /\
    got (b ++ in_order ord w v) r'.
Proof.
  intros o ord ops limit got b r w v G H W B. unfold data_write, reverse_write, stream_write.
  rewrite to_memory_in_order. destruct (endian_eqb _ _) eqn:E.
  - assert (ord = o) by (destruct o, ord; cbn in E; congruence). subst ord.
    destruct (gk_write _ _ _ G _ _ _ H B) as (r' & k & X & Y). rewrite X. cbn [bind]. eauto.
  - assert (ord = opposite o) by (destruct o, ord; cbn in E; try discriminate; reflexivity). subst ord.
    change size_of with len. rewrite invert_whole.
    + cbn [bind]. rewrite in_order_opposite. destruct (gk_write _ _ _ G _ _ _ H B) as (r' & k & X & Y).
      rewrite X. cbn [bind]. eauto.
    + intro X. apply (f_equal (@length N)) in X. rewrite in_order_length in X. cbn in X. lia.
Qed.

End Values.
