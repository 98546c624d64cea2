(** Lemmas for C152: every failure uses up a response of the system. *)
From Coq Require Import NArith ZArith List Bool Lia.
From Coq Require Import ZifyBool ZifyNat ZifyN.
From Verif Require Import Base Integers ResourceSpec ResourceModel ResourceText FileSpec FileModel FileText.
From Verif Require Import ResourceLemmas ResourceLemmas2 FileLemmas FileLemmas2 FileLemmas3 FileLemmas4 FileLemmas5 FileLemmas6.
Import ListNotations.
Open Scope Z_scope.

(** Responses left, never more. *)
Definition left_of (w : world) : nat := length (script w).
Definition no_more (s s' : sys) : Prop := (left_of (os s') <= left_of (os s))%nat.
(** One fewer, if there was one. *)
Definition fewer (w w' : world) : Prop := (left_of w' <= left_of w - 1)%nat.

Lemma no_more_refl : forall s, no_more s s.
Proof. intros. unfold no_more. lia. Qed.

Lemma no_more_trans : forall a b c, no_more a b -> no_more b c -> no_more a c.
Proof. unfold no_more. intros. lia. Qed.

Lemma left_tl : forall w w', script w' = tl (script w) -> fewer w w'.
Proof. intros w w' E. unfold fewer, left_of. rewrite E. destruct (script w); cbn [tl length]; lia. Qed.

Lemma respond_left : forall w r w', respond w = (r, w') -> fewer w w'.
Proof. intros w r w' H. rewrite respond_eq in H. injection H as <- <-. now apply left_tl. Qed.

Lemma sys_read_left : forall w fd n w' r, sys_read w fd n = (w', r) -> (left_of w' <= left_of w)%nat.
Proof.
  intros w fd n w' r H. unfold sys_read in H. destruct (lookup w fd) as [[k h]|]; [|injection H as <- <-; lia].
  destruct (readable h); [|injection H as <- <-; lia]. destruct (respond w) as [a w1] eqn:E. apply respond_left in E. unfold fewer in E.
  destruct a; injection H as <- <-; unfold left_of in *; cbn [set_handle script]; lia.
Qed.

Lemma sys_write_left : forall w fd d w' r, sys_write w fd d = (w', r) -> (left_of w' <= left_of w)%nat.
Proof.
  intros w fd d w' r H. unfold sys_write in H. destruct (lookup w fd) as [[k h]|]; [|injection H as <- <-; lia].
  destruct (writable h); [|injection H as <- <-; lia]. destruct (respond w) as [a w1] eqn:E. apply respond_left in E. unfold fewer in E.
  destruct a; injection H as <- <-; unfold left_of in *; cbn [set_handle set_content script]; lia.
Qed.

Lemma seek_left : forall pl s n pr, left_of (os (seek_raw pl s n pr)) = left_of (os s).
Proof.
  intros. unfold seek_raw. cbn [os]. unfold sys_seek. destruct (lookup (os s) (descriptor s)) as [[k h]|]; [|reflexivity].
  match goal with |- context [if ?b then _ else _] => destruct b end; reflexivity.
Qed.

Lemma unix_block_left : forall fuel w fd dst off n t w' dst' k, unix_block fuel w fd dst off n t = Ok (w', dst', k) ->
  (left_of w' <= left_of w)%nat.
Proof.
  induction fuel as [|fuel IH]; intros w fd dst off n t w' dst' k H; [discriminate|]. cbn [unix_block] in H.
  destruct (sys_read w fd n) as [w1 [[|x d]|]] eqn:E; apply sys_read_left in E; try (injection H as <- _ _; lia).
  destruct (blit dst off (x :: d)); cbn [bind] in H; try discriminate.
  match type of H with (if ?b then _ else _) = _ => destruct b end; [injection H as <- _ _; lia|]. apply IH in H. lia.
Qed.

Lemma windows_block_left : forall fuel w fd dst off n t w' dst' k, windows_block fuel w fd dst off n t = Ok (w', dst', k) ->
  (left_of w' <= left_of w)%nat.
Proof.
  induction fuel as [|fuel IH]; intros w fd dst off n t w' dst' k H; [discriminate|]. cbn [windows_block] in H.
  destruct (sys_read w fd (n - t)) as [w1 [d|]] eqn:E; apply sys_read_left in E; [|injection H as <- _ _; lia].
  destruct (blit dst (off + t) d); cbn [bind] in H; try discriminate.
  match type of H with (if ?b then _ else _) = _ => destruct b end; [injection H as <- _ _; lia|]. apply IH in H. lia.
Qed.

Lemma read_block_left : forall pl w fd dst off n w' dst' k, read_block pl w fd dst off n = Ok (w', dst', k) ->
  (left_of w' <= left_of w)%nat.
Proof. intros pl w fd dst off n w' dst' k H. unfold read_block in H. destruct pl; [eapply unix_block_left|eapply windows_block_left]; exact H. Qed.

Lemma read_block_fewer : forall pl w fd dst off n w' dst' k i h, lookup w fd = Some (i, h) -> readable h = true -> 0 <= n ->
  read_block pl w fd dst off n = Ok (w', dst', k) -> fewer w w'.
Proof.
  intros pl w fd dst off n w' dst' k i h L R N H. unfold read_block in H.
  destruct (sys_read_cases w fd i h n L R N) as (w1 & r & E & _ & Sc & _). apply left_tl in Sc. unfold fewer in *.
  destruct pl.
  - destruct (block_fuel w fd); [discriminate|]. cbn [unix_block] in H. rewrite E in H.
    destruct r as [[|x d]|]; try (injection H as <- _ _; lia).
    destruct (blit dst off (x :: d)); cbn [bind] in H; try discriminate.
    match type of H with (if ?b then _ else _) = _ => destruct b end; [injection H as <- _ _; lia|]. apply unix_block_left in H. lia.
  - destruct (block_fuel w fd); [discriminate|]. cbn [windows_block] in H. rewrite Z.sub_0_r, E in H.
    destruct r as [d|]; [|injection H as <- _ _; lia].
    destruct (blit dst (off + 0) d); cbn [bind] in H; try discriminate.
    match type of H with (if ?b then _ else _) = _ => destruct b end; [injection H as <- _ _; lia|]. apply windows_block_left in H. lia.
Qed.

Lemma read_blocks_left : forall pl fuel w fd dst off n t w' dst' k, read_blocks pl fuel w fd dst off n t = Ok (w', dst', k) ->
  (left_of w' <= left_of w)%nat.
Proof.
  intros pl. induction fuel as [|fuel IH]; intros w fd dst off n t w' dst' k H; cbn [read_blocks] in H;
    (destruct (n <=? 0); [injection H as <- _ _; lia|]); [discriminate|].
  destruct (read_block pl w fd dst off (Z.min n (chunk_max pl))) as [[[w1 d1] k1]| | | |] eqn:E; cbn [bind] in H; try discriminate.
  apply read_block_left in E. match type of H with (if ?b then _ else _) = _ => destruct b end; [|injection H as <- _ _; lia].
  apply IH in H. lia.
Qed.

Lemma chunk_max_pos : forall pl, 0 < chunk_max pl.
Proof. intros []; vm_compute; reflexivity. Qed.

Lemma read_blocks_fewer : forall pl fuel w fd dst off n t w' dst' k i h, lookup w fd = Some (i, h) -> readable h = true -> 0 < n ->
  read_blocks pl fuel w fd dst off n t = Ok (w', dst', k) -> fewer w w'.
Proof.
  intros pl fuel w fd dst off n t w' dst' k i h L R N H. pose proof (chunk_max_pos pl).
  destruct fuel as [|fuel]; cbn [read_blocks] in H; replace (n <=? 0) with false in H by lia; [discriminate|].
  destruct (read_block pl w fd dst off (Z.min n (chunk_max pl))) as [[[w1 d1] k1]| | | |] eqn:E; cbn [bind] in H; try discriminate.
  assert (M : 0 <= Z.min n (chunk_max pl)) by lia. apply (read_block_fewer _ _ _ _ _ _ _ _ _ _ _ L R M) in E. unfold fewer in *.
  match type of H with (if ?b then _ else _) = _ => destruct b end; [|injection H as <- _ _; lia].
  apply read_blocks_left in H. lia.
Qed.

Lemma write_blocks_left : forall pl fuel w fd d n t w' k, write_blocks pl fuel w fd d n t = Ok (w', k) -> (left_of w' <= left_of w)%nat.
Proof.
  intros pl. induction fuel as [|fuel IH]; intros w fd d n t w' k H; cbn [write_blocks] in H;
    (destruct (n <=? 0); [injection H as <- _; lia|]); [discriminate|].
  destruct (sys_write w fd _) as [w1 r] eqn:E. apply sys_write_left in E.
  match type of H with (if ?b then _ else _) = _ => destruct b end; [|injection H as <- _; lia]. apply IH in H. lia.
Qed.

Lemma raw_read_left : forall pl s dst off n rr s' dst' k, raw_read (file_ops pl) s dst off n rr = Ok (s', dst', k) -> no_more s s'.
Proof.
  intros pl s dst off n rr s' dst' k H. unfold file_ops in H. cbn [raw_read] in H. unfold file_read_raw in H.
  set (s1 := match rr with FillBuffer => _ | LeanRetrieval => _ end) in H.
  assert (T : left_of (os s1) = left_of (os s)).
  { unfold s1. destruct rr; [reflexivity|]. destruct (0 <? filled_last s); [apply seek_left|reflexivity]. }
  destruct (read_blocks pl (chunk_count pl n) (os s1) (descriptor s1) dst off n 0) as [[[w1 d1] k1]| | | |] eqn:E; cbn [bind] in H; try discriminate.
  apply read_blocks_left in E. injection H as <- _ _. unfold no_more. pose proof (seek_left pl (Sys w1 (descriptor s1) (filled_last s1)) (- k1) FromCurrent) as Q.
  unfold seek_raw in Q. cbn [os descriptor] in Q. destruct rr; cbn [os]; lia.
Qed.

Lemma raw_write_left : forall pl s d s' k, raw_write (file_ops pl) s d = Ok (s', k) -> no_more s s'.
Proof.
  intros pl s d s' k H. unfold file_ops in H. cbn [raw_write] in H. unfold file_write_raw in H.
  destruct (write_blocks pl (chunk_count pl (size_of d)) (os s) (descriptor s) d (size_of d) 0) as [[w1 k1]| | | |] eqn:E; cbn [bind] in H; try discriminate.
  apply write_blocks_left in E. injection H as <- _. exact E.
Qed.

Lemma read_left : forall pl r dst n r' dst' k, read (file_ops pl) r dst n = Ok (r', dst', k) -> no_more (inner r) (inner r').
Proof.
  intros. eapply (read_kept (file_ops pl) no_more); eauto using no_more_refl, no_more_trans, raw_read_left.
Qed.

(** A fill calls the system. *)
Lemma raw_read_fewer : forall pl s q wr c a dst off n rr s' dst' k, opened s q true wr c a -> 0 < n ->
  0 <= a -> 0 <= filled_last s -> a + filled_last s < 2 ^ 63 ->
  raw_read (file_ops pl) s dst off n rr = Ok (s', dst', k) -> fewer (os s) (os s').
Proof.
  intros pl s q wr c a dst off n rr s' dst' k O N A F B H. unfold file_ops in H. cbn [raw_read] in H. unfold file_read_raw in H.
  set (s1 := match rr with FillBuffer => _ | LeanRetrieval => _ end) in H.
  assert (T : left_of (os s1) = left_of (os s) /\ exists a1, opened s1 q true wr c a1).
  { unfold s1. destruct rr; [eauto|]. destruct (0 <? filled_last s); [|eauto]. split; [apply seek_left|].
    destruct (seek_current pl s q true wr c a (filled_last s) O ltac:(lia)) as (K1 & _). eauto. }
  destruct T as (T & a1 & [(i & h & L & _ & H2 & _) _]).
  destruct (read_blocks pl (chunk_count pl n) (os s1) (descriptor s1) dst off n 0) as [[[w1 d1] k1]| | | |] eqn:E; cbn [bind] in H; try discriminate.
  apply (read_blocks_fewer _ _ _ _ _ _ _ _ _ _ _ _ _ L H2 N) in E. injection H as <- _ _. unfold fewer in *.
  pose proof (seek_left pl (Sys w1 (descriptor s1) (filled_last s1)) (- k1) FromCurrent) as Q.
  unfold seek_raw in Q. cbn [os descriptor] in Q. destruct rr; cbn [os]; lia.
Qed.

Lemma fill_fewer : forall pl (r : resource sys) q wr c a r' k, opened (inner r) q true wr c a -> 0 <= a -> 0 < capacity (buf r) ->
  0 <= filled_last (inner r) -> a + filled_last (inner r) < 2 ^ 63 -> fill (file_ops pl) r = Ok (r', k) ->
  fewer (os (inner r)) (os (inner r')).
Proof.
  intros pl r q wr c a r' k O A C F B H. unfold fill in H.
  destruct (raw_read (file_ops pl) (inner r) (mem (buf r)) 0 (capacity (buf r)) FillBuffer) as [[[s m] t]| | | |] eqn:E; cbn [bind] in H; try discriminate.
  injection H as <- _. cbn [inner]. exact (raw_read_fewer _ _ _ _ _ _ _ _ _ _ _ _ _ O C A F B E).
Qed.

(** A read that gives nothing has called the system. *)
Lemma read_nothing : forall pl cap q wr others p s r block n r' b, file_for pl cap q true wr others p s r ->
  no_short_read_on_unix pl (os (inner r)) -> 0 < n <= len block -> n <= chunk_max pl -> cap = 0 \/ n <= cap -> p <> InWrites ->
  read (file_ops pl) r block n = Ok (r', b, 0) -> fewer (os (inner r)) (os (inner r')).
Proof.
  intros pl cap q wr others p s r block n r' b [(c & a & O & A0 & I) K CM At Fi Ot U] NS N M C NW H.
  unfold read in H. destruct (0 <? capacity (buf r)) eqn:Z.
  2:{ assert (cap = 0) by (pose proof (capacity_nonneg (buf r)); lia). specialize (U ltac:(assumption)). subst p.
      destruct I as (-> & -> & I3 & _).
      destruct (raw_read (file_ops pl) (inner r) block 0 n LeanRetrieval) as [[[s1 d1] k1]| | | |] eqn:E; cbn [bind] in H; try discriminate.
      injection H as <- _ _. cbn [inner]. refine (raw_read_fewer _ _ _ _ _ _ _ _ _ _ _ _ _ O _ _ _ _ E); lia. }
  assert (CR : 0 < capacity (buf r)) by lia. destruct p; [| |congruence].
  - destruct I as (-> & -> & I3 & I4 & _). unfold read_buffered in H. rewrite I4 in H.
    destruct (fill (file_ops pl) r) as [[r1 k1]| | | |] eqn:E; cbn [bind] in H; try discriminate.
    assert (F := fill_fewer _ _ _ _ _ _ _ _ O A0 CR ltac:(lia) ltac:(lia) E).
    assert (D : read_dirty (buf r1) = false /\ capacity (buf r1) = capacity (buf r)).
    { destruct (fill_file pl r q wr (bytes s) (at_ s) O) as (r2 & d & E2 & _ & _ & _ & _ & E3 & _ & _ & E4 & _); try assumption; try lia.
      rewrite E in E2. injection E2 as <- _. auto. }
    assert (R : read (file_ops pl) r1 block n = Ok (r', b, 0)).
    { unfold read, read_buffered. destruct D as [-> ->]. rewrite Z. cbn [bind]. exact H. }
    apply read_left in R. unfold no_more, fewer in *. lia.
  - destruct I as (-> & I2 & I3 & I4 & I5 & I6 & I7 & I8 & I9). unfold read_buffered in H. rewrite I4 in H. cbn [bind] in H.
    assert (AB : a + filled (buf r) < 2 ^ 63).
    { rewrite len_drop in I8 by lia. lia. }
    destruct (filled (buf r) <? bpos (buf r) + n) eqn:More.
    2:{ rewrite buffer_read_ok in H by lia. cbn [bind] in H. injection H as _ _ H. lia. }
    rewrite as_size_pos in H by lia. set (f := filled (buf r) - bpos (buf r)) in *.
    destruct (0 <? f) eqn:Fp.
    + rewrite buffer_read_ok in H by lia. cbn [bind] in H. rewrite as_size_pos in H by lia.
      set (r1 := Resource (inner r) _) in H.
      assert (K1 : capacity (buf r1) = capacity (buf r)) by reflexivity.
      rewrite K1 in H. replace (capacity (buf r) <? n - f) with false in H by lia.
      destruct (fill_file pl r1 q wr (bytes s) a O) as (r2 & d & E2 & _ & _ & _ & _ & E3 & E5 & E6 & E4 & _); try assumption; try (cbn [inner r1]; lia).
      rewrite E2 in H. cbn [bind] in H. pose proof (len_nonneg d).
      set (last := if len d <? n - f then len d else n - f) in H.
      assert (LL : 0 <= last <= len d) by (unfold last; destruct (len d <? n - f) eqn:?; lia).
      destruct (buffer_read (buf r2) _ f last) as [[[b2 d2] k2]| | | |] eqn:E7; cbn [bind] in H; try discriminate.
      assert (k2 = last).
      { unfold buffer_read in E7. rewrite E5, E6 in E7. replace (len d <? 0 + last) with false in E7 by lia.
        destruct (memcpy _ f (mem (buf r2)) 0 last) as [x| | | |]; cbn [bind] in E7; try discriminate. injection E7 as _ _ <-. reflexivity. }
      injection H as _ _ H. lia.
    + cbn [bind] in H. replace (capacity (buf r) <? n) with false in H by lia.
      destruct (fill (file_ops pl) r) as [[r1 k1]| | | |] eqn:E; cbn [bind] in H; try discriminate.
      assert (F := fill_fewer _ _ _ _ _ _ _ _ O A0 CR ltac:(lia) ltac:(lia) E).
      destruct (buffer_read _ _ _ _) as [[[b2 d2] k2]| | | |]; cbn [bind] in H; try discriminate. injection H as <- _ _. exact F.
Qed.

(** A write without a buffer that is not complete has used up a response. *)
Lemma short_write : forall pl r m others s g d g' k, keeps pl 0 r m others Resting s g -> mode_writes m = true ->
  len d <= chunk_max pl -> file_write pl g d = Ok (g', Returned k) -> k <> len d ->
  (left_of (os (inner (res g'))) < left_of (os (inner (res g))))%nat.
Proof.
  intros pl r m others s g d g' k [[(c & a & O & A0 & I) Kc CM At Fi Ot U] M] Md Z1 H Nk.
  destruct O as [(i & h & L & H1 & H2 & H3 & H4) D]. rewrite Md in H3. pose proof (len_nonneg d).
  assert (W : exists s', file_write_raw pl (inner (res g)) d = Ok (s', k) /\ inner (res g') = s').
  { unfold file_write, write in H. rewrite M, Kc in H. cbn [Z.ltb Z.compare] in H. unfold file_ops in H. cbn [raw_write] in H.
    destruct m; try discriminate; (destruct (file_write_raw pl (inner (res g)) d) as [[s1 k1]| | | |]; cbn [bind] in H; try discriminate;
      injection H as <- <-; cbn [res inner]; eauto). }
  destruct W as (s' & W & ->). unfold file_write_raw in W. change size_of with len in W.
  destruct (chunk_count_pos pl (len d) ltac:(lia)) as [u Eu]. rewrite Eu in W. cbn [write_blocks] in W. destruct (len d <=? 0) eqn:Z0.
  { cbn [bind] in W. injection W as _ <-. lia. }
  rewrite Z.min_l in W by lia. fold (take (len d) d) in W. rewrite (take_all (len d) d) in W by lia.
  assert (D' : disk (os (inner (res g))) (file_name h) = Some c) by congruence.
  destruct (sys_write_cases (os (inner (res g))) (descriptor (inner (res g))) i h c d L H3 D') as (w1 & r1 & E1 & Sc & _ & X).
  rewrite E1 in W.
  assert (NF : response_now (os (inner (res g))) <> InFull).
  { intro Y. destruct r1 as [k1|]; [|destruct X as [X _]; congruence]. destruct X as (_ & X & _). rewrite (X Y) in W.
    rewrite Z.eqb_refl in W. destruct u; cbn [write_blocks] in W; replace (len d - len d <=? 0) with true in W by lia; cbn [bind] in W; injection W as _ <-; lia. }
  assert (LT : (left_of w1 < left_of (os (inner (res g))))%nat).
  { unfold left_of. rewrite Sc. unfold response_now in NF. destruct (script (os (inner (res g)))); [now elim NF|cbn [tl length]; lia]. }
  match type of W with bind (if ?b then _ else _) _ = _ => destruct b end.
  - destruct (write_blocks pl u w1 _ d _ _) as [[w2 t]| | | |] eqn:E2; cbn [bind] in W; try discriminate.
    apply write_blocks_left in E2. injection W as <- _. cbn [os]. lia.
  - cbn [bind] in W. injection W as <- _. exact LT.
Qed.

Lemma write_left : forall pl g d g' k, file_write pl g d = Ok (g', k) -> (left_of (os (inner (res g'))) <= left_of (os (inner (res g))))%nat.
Proof.
  intros pl g d g' k H. unfold file_write in H.
  assert (T : forall r1 k1, write (file_ops pl) (res g) d = Ok (r1, k1) -> no_more (inner (res g)) (inner r1)).
  { intros. eapply (write_kept (file_ops pl) no_more); eauto using no_more_refl, no_more_trans, raw_write_left. }
  destruct (mode g); [injection H as <- _; lia| |];
    (destruct (write (file_ops pl) (res g) d) as [[r1 k1]| | | |]; cbn [bind] in H; try discriminate;
     injection H as <- _; exact (T _ _ eq_refl)).
Qed.
