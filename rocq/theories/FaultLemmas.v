(** Resources on failing devices: lemmas. *)
From Coq Require Import NArith ZArith List Bool Lia.
From Coq Require Import ZifyBool ZifyNat ZifyN.
From Verif Require Import Base Integers ResourceModel FaultSpec FaultModel FaultText.
Import ListNotations.
Open Scope Z_scope.
Ltac Zify.zify_post_hook ::= idtac.

Lemma size_app : forall a b, size_of (a ++ b) = size_of a + size_of b.
Proof. intros. unfold size_of. rewrite app_length. lia. Qed.

Lemma size_nonneg : forall a, 0 <= size_of a.
Proof. intro. unfold size_of. lia. Qed.

Lemma size_firstn : forall n l, 0 <= n <= size_of l -> size_of (firstn (Z.to_nat n) l) = n.
Proof. intros n l H. unfold size_of in *. rewrite firstn_length. lia. Qed.

Lemma slice_good : forall m off n, 0 <= off -> 0 <= n -> off + n <= size_of m ->
  slice m off n = Ok (firstn (Z.to_nat n) (skipn (Z.to_nat off) m)).
Proof. intros. unfold slice. now replace ((0 <=? off) && (0 <=? n) && (off + n <=? size_of m)) with true by lia. Qed.

Lemma blit_good : forall m off d, 0 <= off -> off + size_of d <= size_of m ->
  blit m off d = Ok (firstn (Z.to_nat off) m ++ d ++ skipn (Z.to_nat (off + size_of d)) m).
Proof. intros. unfold blit. now replace ((0 <=? off) && (off + size_of d <=? size_of m)) with true by lia. Qed.

(* ------------------------------------------------------------------ output *)

(** The bytes that wait in the buffer. *)
Definition waiting (b : buffer) : list N := if write_dirty b then firstn (Z.to_nat (bpos b)) (mem b) else [].

Definition buffer_ok (cap : Z) (b : buffer) : Prop :=
  size_of (mem b) = cap /\ 0 <= bpos b <= cap /\ (write_dirty b = false -> bpos b = 0).

Lemma waiting_size : forall cap b, buffer_ok cap b -> size_of (waiting b) <= cap.
Proof.
  intros cap b (A & B & C). unfold waiting. destruct (write_dirty b); [|change (size_of []) with 0; lia]. rewrite size_firstn; lia.
Qed.

Lemma flush_fault : forall S (d : device S) good bytes limit cap r, all_or_nothing d good bytes limit ->
  good (inner r) -> buffer_ok cap (buf r) -> size_of (bytes (inner r)) + size_of (waiting (buf r)) < limit ->
  match fault_flush d r with
  | (r', Returned _) => good (inner r') /\ buffer_ok cap (buf r') /\ bytes (inner r') = bytes (inner r) ++ waiting (buf r) /\
                        waiting (buf r') = [] /\ bpos (buf r') = 0
  | (r', Raised) => good (inner r') /\ buf r' = buf r /\ bytes (inner r') = bytes (inner r)
  | _ => False
  end.
Proof.
  intros S d good bytes limit cap r D G (B1 & B2 & B3) L. unfold fault_flush, waiting in *.
  destruct (write_dirty (buf r)) eqn:W.
  - rewrite slice_good by lia. change (Z.to_nat 0) with 0%nat. cbn [skipn].
    specialize (D (inner r) (firstn (Z.to_nat (bpos (buf r))) (mem (buf r))) G L).
    destruct (device_write d (inner r) _) as [s' [k| | |]]; try contradiction.
    + destruct D as [D1 D2]. unfold set_write_dirty. cbn [inner buf]. unfold buffer_ok. cbn [write_dirty bpos mem].
      pose proof (size_nonneg (mem (buf r))). repeat (split; auto); lia.
    + destruct D as [D1 D2]. cbn [inner buf]. auto.
  - rewrite app_nil_r, W. unfold buffer_ok. auto 10.
Qed.

Lemma write_fault : forall S (d : device S) good bytes limit cap r data, all_or_nothing d good bytes limit ->
  good (inner r) -> buffer_ok cap (buf r) -> size_of (bytes (inner r)) + size_of (waiting (buf r)) + size_of data < limit ->
  match fault_write d r data with
  | (r', Returned _) => good (inner r') /\ buffer_ok cap (buf r') /\
      bytes (inner r') ++ waiting (buf r') = (bytes (inner r) ++ waiting (buf r)) ++ data
  | (r', Raised) => good (inner r') /\ buffer_ok cap (buf r') /\
      bytes (inner r') ++ waiting (buf r') = bytes (inner r) ++ waiting (buf r)
  | _ => False
  end.
Proof.
  intros S d good bytes limit cap r data D G B L. pose proof B as (B1 & B2 & B3). unfold fault_write.
  pose proof (size_nonneg data) as N0. pose proof (size_nonneg (waiting (buf r))) as N1.
  change (capacity (buf r)) with (size_of (mem (buf r))). rewrite B1.
  destruct (0 <? cap) eqn:C.
  - unfold fault_write_buffered. change (capacity (buf r)) with (size_of (mem (buf r))). rewrite B1.
    destruct (cap <? bpos (buf r) + size_of data) eqn:F.
    + pose proof (flush_fault S d good bytes limit cap r D G B ltac:(lia)) as X.
      destruct (fault_flush d r) as [r' [u| | |]]; cbn [next]; try contradiction.
      * destruct X as (X1 & X2 & X3 & X4 & X5). cbn [andb].
        destruct (cap <? size_of data) eqn:Big.
        -- unfold direct_write. pose proof (D (inner r') data X1 ltac:(rewrite X3, size_app; lia)) as Y.
           destruct (device_write d (inner r') data) as [s' [k| | |]]; try contradiction; destruct Y as [Y1 Y2]; cbn [inner buf];
             (split; [exact Y1|]; split; [exact X2|]); rewrite X4, Y2, X3, !app_nil_r; reflexivity.
        -- unfold buffer_write. destruct X2 as (Z1 & Z2 & Z3). rewrite X5. rewrite blit_good by lia. cbn [bind inner buf].
           change (Z.to_nat 0) with 0%nat. cbn [firstn app]. rewrite Z.add_0_l. split; [exact X1|]. split.
           { unfold buffer_ok, set_write_dirty; cbn [mem bpos write_dirty]. split; [|split; [|intro; discriminate]].
             - unfold size_of in *. rewrite app_length, skipn_length. lia.
             - lia. }
           unfold waiting at 1. cbn [set_write_dirty write_dirty mem bpos]. rewrite X3, X4 || rewrite X3.
           f_equal. rewrite firstn_app. unfold size_of. rewrite Nat2Z.id, Nat.sub_diag, firstn_all, firstn_O. apply app_nil_r.
      * destruct X as (X1 & X2 & X3). rewrite X2, X3. split; [exact X1|]. split; [exact B|]. reflexivity.
    + cbn [next andb]. unfold buffer_write. rewrite blit_good by lia. cbn [bind inner buf]. split; [exact G|]. split.
      { unfold buffer_ok, set_write_dirty; cbn [mem bpos write_dirty]. split; [|split; [|intro; discriminate]].
        - unfold size_of in *. rewrite !app_length, firstn_length, skipn_length. lia.
        - lia. }
      rewrite <- app_assoc. f_equal. unfold waiting. cbn [set_write_dirty write_dirty mem bpos].
      assert (Lf : length (firstn (Z.to_nat (bpos (buf r))) (mem (buf r))) = Z.to_nat (bpos (buf r))) by (rewrite firstn_length; unfold size_of in *; lia).
      assert (E : Z.to_nat (bpos (buf r) + size_of data) = (length (firstn (Z.to_nat (bpos (buf r))) (mem (buf r))) + length data)%nat).
      { rewrite Lf. unfold size_of. lia. }
      rewrite E. rewrite firstn_app_2. f_equal.
      * destruct (write_dirty (buf r)) eqn:W; [reflexivity|]. rewrite B3 by reflexivity. reflexivity.
      * rewrite firstn_app, Nat.sub_diag, firstn_O, firstn_all. apply app_nil_r.
  - unfold direct_write. assert (W : waiting (buf r) = []).
    { unfold waiting. destruct (write_dirty (buf r)); [|reflexivity]. replace (bpos (buf r)) with 0 by lia. reflexivity. }
    rewrite W in *. change (size_of []) with 0 in L. pose proof (D (inner r) data G ltac:(lia)) as Y.
    destruct (device_write d (inner r) data) as [s' [k| | |]]; try contradiction; destruct Y as [Y1 Y2]; cbn [inner buf];
      (split; [exact Y1|]; split; [exact B|]); rewrite W, Y2, !app_nil_r; reflexivity.
Qed.

Lemma history_kept : forall S (d : device S) good bytes limit cap, all_or_nothing d good bytes limit ->
  forall cs r, good (inner r) -> buffer_ok cap (buf r) ->
  size_of (bytes (inner r)) + size_of (waiting (buf r)) + size_of (all_data cs) < limit ->
  exists r' l, history d cs r = Some (r', l) /\ map fst l = cs /\ good (inner r') /\ buffer_ok cap (buf r') /\
    bytes (inner r') ++ waiting (buf r') = (bytes (inner r) ++ waiting (buf r)) ++ accepted l /\
    size_of (bytes (inner r') ++ waiting (buf r')) < limit.
Proof.
  intros S d good bytes limit cap D. induction cs as [|c cs IH]; intros r G B L.
  - exists r, []. cbn [history accepted map]. rewrite app_nil_r. repeat split; auto; try apply B. rewrite size_app. cbn in L. lia.
  - pose proof (size_nonneg (all_data cs)) as N0. destruct c as [data|]; cbn [history one_call].
    + change (all_data (Write data :: cs)) with (data ++ all_data cs) in L. rewrite size_app in L.
      pose proof (size_nonneg data).
      pose proof (write_fault S d good bytes limit cap r data D G B ltac:(lia)) as X.
      destruct (fault_write d r data) as [r1 [k| | |]]; cbn [next]; try contradiction; destruct X as (X1 & X2 & X3).
      * destruct (IH r1 X1 X2) as (r' & l & E & M & G' & B' & C & L').
        { rewrite <- size_app, X3, !size_app. lia. }
        rewrite E. cbn [option_map]. exists r', ((Write data, Returns) :: l). cbn [map fst accepted]. rewrite M.
        repeat split; auto; try apply B'. rewrite C, X3, <- app_assoc. reflexivity.
      * destruct (IH r1 X1 X2) as (r' & l & E & M & G' & B' & C & L').
        { rewrite <- size_app, X3, !size_app. lia. }
        rewrite E. cbn [option_map]. exists r', ((Write data, Raises) :: l). cbn [map fst accepted]. rewrite M.
        repeat split; auto; try apply B'. rewrite C, X3. reflexivity.
    + change (all_data (Flush :: cs)) with (all_data cs) in L.
      pose proof (flush_fault S d good bytes limit cap r D G B ltac:(lia)) as X.
      destruct (fault_flush d r) as [r1 [k| | |]]; try contradiction.
      * destruct X as (X1 & X2 & X3 & X4 & _). destruct (IH r1 X1 X2) as (r' & l & E & M & G' & B' & C & L').
        { rewrite X3, X4, !size_app. change (size_of []) with 0. lia. }
        rewrite E. cbn [option_map]. exists r', ((Flush, Returns) :: l). cbn [map fst accepted]. rewrite M.
        repeat split; auto; try apply B'. rewrite C, X3, X4, app_nil_r. reflexivity.
      * destruct X as (X1 & X2 & X3). rewrite <- X2 in B. destruct (IH r1 X1 B) as (r' & l & E & M & G' & B' & C & L').
        { rewrite X2, X3. lia. }
        rewrite E. cbn [option_map]. exists r', ((Flush, Raises) :: l). cbn [map fst accepted]. rewrite M.
        repeat split; auto; try apply B'. rewrite C, X2, X3. reflexivity.
Qed.

Lemma fresh_buffer : forall cap, buffer_ok (Z.of_nat cap) (new_buffer cap).
Proof. intro cap. unfold buffer_ok, new_buffer, size_of. cbn [mem bpos write_dirty]. rewrite repeat_length. lia. Qed.

Lemma recording_keeps : forall limit, all_or_nothing recording (fun _ => True) taken limit.
Proof.
  intros limit [t w] data _ _. unfold recording, record_write. cbn [device_write works taken].
  destruct w as [|[|] w]; cbn [taken]; auto.
Qed.

Lemma growing_keeps : all_or_nothing growing_container
  (fun s => elem (inside s) = 1 /\ position (inside s) = size_of (content (inside s))) (fun s => content (inside s)) (2 ^ 63).
Proof.
  intros [[l e p f] w] data [E P] L. cbn [inside elem position content] in *. subst e p.
  pose proof (size_nonneg l). pose proof (size_nonneg data).
  assert (W : forall w', match match container_write (Container l 1 (size_of l) f) data with
                         | Ok (c, n) => (Growing c w', Returned n)
                         | x => (Growing (Container l 1 (size_of l) f) w', plainly (bind x (fun _ => Ok 0)))
                         end with
    | (s', Returned _) => (elem (inside s') = 1 /\ position (inside s') = size_of (content (inside s'))) /\ content (inside s') = l ++ data
    | _ => False end).
  { intro w'. unfold container_write. cbn [content position elem last_fill].
    change (2 ^ 63) with 9223372036854775808 in L.
    unfold as_size. replace (size_of l + size_of data <? 0) with false by lia.
    destruct (size_of l <? size_of l + size_of data) eqn:G.
    - rewrite Z.div_1_r, Z.mul_1_r. rewrite blit_good.
      2: lia. 2:{ rewrite size_app. unfold size_of. rewrite repeat_length. lia. }
      cbn [bind inside elem position content].
      assert (X : firstn (Z.to_nat (size_of l)) (l ++ repeat 0%N (Z.to_nat (size_of data))) ++
                  data ++ skipn (Z.to_nat (size_of l + size_of data)) (l ++ repeat 0%N (Z.to_nat (size_of data))) = l ++ data).
      { unfold size_of. rewrite Nat2Z.id, firstn_app, Nat.sub_diag, firstn_all, firstn_O, app_nil_r. f_equal.
        rewrite skipn_all2 by (rewrite app_length, repeat_length; lia). apply app_nil_r. }
      rewrite X. rewrite size_app. auto.
    - assert (data = []) as -> by (destruct data; [reflexivity|unfold size_of in G; cbn [length] in G; lia]).
      rewrite blit_good by (change (size_of []) with 0; lia). change (size_of []) with 0. cbn [bind inside elem position content app].
      rewrite Z.add_0_r. rewrite firstn_skipn, app_nil_r. auto. }
  cbn [growing_container device_write]. unfold growing_write. cbn [inside content position memory].
  destruct (size_of l <? as_size (size_of l + size_of data)).
  - destruct w as [|[|] w].
    + specialize (W []). destruct (container_write _ data) as [[c n]| | | |]; cbn [bind plainly] in *; auto.
    + specialize (W w). destruct (container_write _ data) as [[c n]| | | |]; cbn [bind plainly] in *; auto.
    + cbn [inside elem position content]. auto.
  - specialize (W w). destruct (container_write _ data) as [[c n]| | | |]; cbn [bind plainly] in *; auto.
Qed.

(* ------------------------------------------------------------------- input *)

Lemma as_size_id : forall n, 0 <= n -> as_size n = n.
Proof. intros n H. unfold as_size. now replace (n <? 0) with false by lia. Qed.

Lemma skip_skip : forall (A : Type) (x y : nat) (l : list A), skipn x (skipn y l) = skipn (y + x) l.
Proof. induction y as [|y IH]; intros [|a l]; cbn [skipn Nat.add]; auto. apply skipn_nil. Qed.

(** The bytes in the buffer that are still to be read. *)
Definition unread (b : buffer) : list N :=
  if read_dirty b then [] else firstn (Z.to_nat (filled b - bpos b)) (skipn (Z.to_nat (bpos b)) (mem b)).

Definition filled_ok (cap : Z) (b : buffer) : Prop :=
  size_of (mem b) = cap /\ (read_dirty b = false -> 0 <= bpos b <= filled b /\ filled b <= cap).

Definition ahead (r : resource tape) : list N := unread (buf r) ++ left (inner r).

Lemma unread_size : forall cap b, filled_ok cap b -> read_dirty b = false -> size_of (unread b) = filled b - bpos b.
Proof.
  intros cap b (A & B) D. specialize (B D). unfold unread. rewrite D. unfold size_of in *.
  rewrite firstn_length, skipn_length. lia.
Qed.

Lemma fill_fault : forall cap r, filled_ok cap (buf r) -> 0 <= cap ->
  match fault_fill playing r with
  | (r', Returned k) => filled_ok cap (buf r') /\ read_dirty (buf r') = false /\ bpos (buf r') = 0 /\ filled (buf r') = k /\
      unread (buf r') = firstn (Z.to_nat cap) (left (inner r)) /\ left (inner r') = skipn (Z.to_nat cap) (left (inner r)) /\
      k = size_of (firstn (Z.to_nat cap) (left (inner r)))
  | (r', Raised) => buf r' = buf r /\ left (inner r') = left (inner r)
  | _ => False
  end.
Proof.
  intros cap [[l w] b] (A & B) C. unfold fault_fill. cbn [inner buf playing device_read]. unfold tape_read. cbn [left plays].
  cbn [buf] in A, B. change (capacity b) with (size_of (mem b)). rewrite A.
  assert (X : match match blit (mem b) 0 (firstn (Z.to_nat cap) l) with
      | Ok m => Some (Buffer m (size_of (firstn (Z.to_nat cap) l)) 0 false (write_dirty b)) | _ => None end with
    | Some b' => filled_ok cap b' /\ unread b' = firstn (Z.to_nat cap) l
    | None => False end).
  { assert (Le : size_of (firstn (Z.to_nat cap) l) <= cap) by (unfold size_of; rewrite firstn_length; lia).
    pose proof (size_nonneg (firstn (Z.to_nat cap) l)) as Nn.
    rewrite blit_good by lia. change (Z.to_nat 0) with 0%nat. cbn [firstn app]. rewrite Z.add_0_l. split.
    - split; cbn [mem read_dirty bpos filled]; [|intros _; lia].
      rewrite size_app. unfold size_of in *. rewrite skipn_length. lia.
    - unfold unread. cbn [read_dirty filled bpos mem]. rewrite Z.sub_0_r. change (Z.to_nat 0) with 0%nat. cbn [skipn].
      rewrite firstn_app. unfold size_of at 1 2. rewrite Nat2Z.id, Nat.sub_diag, firstn_all, firstn_O. apply app_nil_r. }
  destruct (blit (mem b) 0 (firstn (Z.to_nat cap) l)) as [m| | | |] eqn:Bl; try contradiction. destruct X as [X1 X2].
  destruct w as [|[|] w]; rewrite ?Bl; cbn [inner buf left read_dirty bpos filled]; auto 10.
Qed.

Lemma take_fault : forall cap r n, filled_ok cap (buf r) -> read_dirty (buf r) = false -> 0 <= n <= filled (buf r) - bpos (buf r) ->
  exists r' : resource tape, take_from r n = (r', Returned (firstn (Z.to_nat n) (unread (buf r)))) /\ filled_ok cap (buf r') /\
    read_dirty (buf r') = false /\ unread (buf r') = skipn (Z.to_nat n) (unread (buf r)) /\ inner r' = inner r /\
    filled (buf r') = filled (buf r) /\ bpos (buf r') = bpos (buf r) + n.
Proof.
  intros cap r n (A & B) D Hn. specialize (B D). unfold take_from. rewrite slice_good by lia.
  exists (Resource (inner r) (Buffer (mem (buf r)) (filled (buf r)) (bpos (buf r) + n) (read_dirty (buf r)) (write_dirty (buf r)))).
  split; [|cbn [inner buf read_dirty filled bpos]; split; [split; cbn [mem read_dirty bpos filled]; [exact A|intros _; lia]|
    split; [exact D|split; [|auto]]]].
  - replace (firstn (Z.to_nat n) (unread (buf r))) with (firstn (Z.to_nat n) (skipn (Z.to_nat (bpos (buf r))) (mem (buf r)))); [reflexivity|].
    unfold unread. rewrite D. rewrite firstn_firstn. f_equal. lia.
  - unfold unread. cbn [read_dirty bpos mem filled]. rewrite D. rewrite skipn_firstn_comm, skip_skip. f_equal; [lia|]. f_equal. lia.
Qed.

Lemma split_first : forall (A : Type) (a b : list A) n, (length a <= n)%nat -> firstn n (a ++ b) = a ++ firstn (n - length a) b.
Proof. intros A a b n H. rewrite firstn_app, firstn_all2 by lia. reflexivity. Qed.

Lemma split_skip : forall (A : Type) (a b : list A) n, (length a <= n)%nat -> skipn n (a ++ b) = skipn (n - length a) b.
Proof. intros A a b n H. rewrite skipn_app, skipn_all2 by lia. reflexivity. Qed.

(** A read, in the state that a fill or an earlier read leaves. *)
Definition read_ready (d : device tape) (r : resource tape) (n : Z) : resource tape * result (list N) :=
  if filled (buf r) <? bpos (buf r) + n then
    let difference := as_size (filled (buf r) - bpos (buf r)) in
    next (if 0 <? difference then take_from r difference else (r, Returned [])) (fun r first =>
    let n := as_size (n - size_of first) in
    if capacity (buf r) <? n then
      let '(s, x) := device_read d (inner r) n LeanRetrieval in
      next (Resource s (buf r), x) (fun r more => (r, Returned (first ++ more)))
    else
      next (fault_fill d r) (fun r bytes_filled =>
      next (take_from r (if bytes_filled <? n then bytes_filled else n)) (fun r more =>
      (r, Returned (first ++ more)))))
  else take_from r n.

Definition read_sound (cap n : Z) (r : resource tape) (x : resource tape * result (list N)) : Prop :=
  match x with
  | (r', Returned b) => filled_ok cap (buf r') /\ b = firstn (Z.to_nat n) (ahead r) /\ ahead r' = skipn (Z.to_nat n) (ahead r)
  | (r', Raised) => filled_ok cap (buf r') /\ exists lost, ahead r = lost ++ ahead r' /\ size_of lost <= cap /\ (lost = [] \/ size_of lost < n)
  | _ => False
  end.

Lemma ready_sound : forall cap n r, filled_ok cap (buf r) -> read_dirty (buf r) = false -> 0 <= n -> 0 < cap ->
  read_sound cap n r (read_ready playing r n).
Proof.
  intros cap n r K D Hn Hc. pose proof K as (A & B). specialize (B D). pose proof (unread_size cap _ K D) as Su. unfold read_ready.
  destruct (filled (buf r) <? bpos (buf r) + n) eqn:F.
  - rewrite as_size_id by lia.
    assert (X : exists r1, (if 0 <? filled (buf r) - bpos (buf r) then take_from r (filled (buf r) - bpos (buf r)) else (r, Returned []))
        = (r1, Returned (unread (buf r))) /\ filled_ok cap (buf r1) /\ read_dirty (buf r1) = false /\ unread (buf r1) = [] /\ inner r1 = inner r).
    { destruct (0 <? filled (buf r) - bpos (buf r)) eqn:P.
      - destruct (take_fault cap r (filled (buf r) - bpos (buf r)) K D ltac:(lia)) as (r1 & E & K1 & D1 & U1 & I1 & _).
        exists r1. rewrite E. rewrite firstn_all2 by (unfold size_of in Su; lia). rewrite U1.
        rewrite skipn_all2 by (unfold size_of in Su; lia). auto.
      - assert (unread (buf r) = []) as -> by (apply length_zero_iff_nil; unfold size_of in Su; lia). exists r.
        assert (unread (buf r) = []) by (apply length_zero_iff_nil; unfold size_of in Su; lia). auto. }
    destruct X as (r1 & -> & K1 & D1 & U1 & I1). cbn [next]. set (u := unread (buf r)) in *.
    rewrite as_size_id by lia. change (capacity (buf r1)) with (size_of (mem (buf r1))). rewrite (proj1 K1).
    assert (L1 : Z.to_nat (n - size_of u) = (Z.to_nat n - length u)%nat) by (unfold size_of; lia).
    assert (L2 : (length u <= Z.to_nat n)%nat) by (unfold size_of in Su; lia).
    assert (Ah : ahead r = u ++ left (inner r1)) by (unfold ahead, u; rewrite I1; reflexivity).
    assert (Lost : size_of u <= cap /\ (u = [] \/ size_of u < n)) by lia.
    destruct (cap <? n - size_of u) eqn:Big.
    + cbn [playing device_read]. unfold tape_read. destruct (plays (inner r1)) as [|[|] w]; cbn [next read_sound].
      * split; [exact K1|]. rewrite Ah. rewrite split_first, split_skip, L1 by exact L2. unfold ahead. cbn [buf inner left]. rewrite U1. auto.
      * split; [exact K1|]. rewrite Ah. rewrite split_first, split_skip, L1 by exact L2. unfold ahead. cbn [buf inner left]. rewrite U1. auto.
      * split; [exact K1|]. exists u. rewrite Ah. unfold ahead. cbn [buf inner left]. rewrite U1. auto.
    + pose proof (fill_fault cap r1 K1 ltac:(lia)) as Fl. destruct (fault_fill playing r1) as [r2 [k| | |]]; try contradiction; cbn [next].
      * destruct Fl as (K2 & D2 & P2 & F2 & U2 & L3 & Ek).
        assert (Hk : 0 <= (if k <? n - size_of u then k else n - size_of u) <= filled (buf r2) - bpos (buf r2)).
        { rewrite F2, P2. pose proof (size_nonneg (firstn (Z.to_nat cap) (left (inner r1)))). destruct (k <? n - size_of u) eqn:Q; lia. }
        destruct (take_fault cap r2 _ K2 D2 Hk) as (r3 & E3 & K3 & D3 & U3 & I3 & _). rewrite E3. cbn [next read_sound].
        split; [exact K3|]. rewrite Ah, split_first, split_skip by exact L2.
        unfold ahead. rewrite U3, U2, I3, L3. set (t := left (inner r1)) in *. clearbody t.
        assert (M : firstn (Z.to_nat (if k <? n - size_of u then k else n - size_of u)) (firstn (Z.to_nat cap) t) = firstn (Z.to_nat n - length u) t).
        { destruct (k <? n - size_of u) eqn:Q.
          - rewrite Ek. unfold size_of at 1. rewrite Nat2Z.id, firstn_all.
            unfold size_of in Ek, Q. rewrite firstn_length in Ek. unfold size_of in Big. rewrite !firstn_all2 by lia. reflexivity.
          - rewrite firstn_firstn. f_equal. unfold size_of in *. lia. }
        assert (M2 : skipn (Z.to_nat (if k <? n - size_of u then k else n - size_of u)) (firstn (Z.to_nat cap) t) ++ skipn (Z.to_nat cap) t = skipn (Z.to_nat n - length u) t).
        { destruct (k <? n - size_of u) eqn:Q.
          - rewrite Ek. unfold size_of at 1. rewrite Nat2Z.id, skipn_all. cbn [app].
            unfold size_of in Ek, Q. rewrite firstn_length in Ek. unfold size_of in Big. rewrite !skipn_all2 by lia. reflexivity.
          - rewrite L1. rewrite <- (firstn_skipn (Z.to_nat cap) t) at 3. rewrite skipn_app.
            assert (Le : (Z.to_nat n - length u <= length (firstn (Z.to_nat cap) t))%nat).
            { unfold size_of in Ek, Q, Big. rewrite Ek in Q. lia. }
            replace (Z.to_nat n - length u - length (firstn (Z.to_nat cap) t))%nat with 0%nat by lia. reflexivity. }
        rewrite M, M2. auto.
      * destruct Fl as (E1 & E2). cbn [read_sound]. rewrite E1. split; [exact K1|]. exists u. rewrite Ah. unfold ahead. rewrite E1, E2, U1. auto.
  - destruct (take_fault cap r n K D ltac:(lia)) as (r' & E & K' & D' & U' & I' & _). rewrite E. cbn [read_sound].
    split; [exact K'|]. unfold ahead. rewrite U', I'. unfold size_of in Su. split.
    + rewrite firstn_app. replace (Z.to_nat n - length (unread (buf r)))%nat with 0%nat by lia. rewrite firstn_O, app_nil_r. reflexivity.
    + rewrite skipn_app. replace (Z.to_nat n - length (unread (buf r)))%nat with 0%nat by lia. reflexivity.
Qed.

Lemma read_fault : forall cap n r, filled_ok cap (buf r) -> 0 <= n -> (cap = 0 -> read_dirty (buf r) = true) ->
  read_sound cap n r (fault_read playing r n).
Proof.
  intros cap n r K Hn Z0. pose proof K as (A & B). unfold fault_read. change (capacity (buf r)) with (size_of (mem (buf r))). rewrite A.
  destruct (0 <? cap) eqn:C.
  - unfold fault_read_buffered. destruct (read_dirty (buf r)) eqn:D.
    + pose proof (fill_fault cap r K ltac:(lia)) as Fl. destruct (fault_fill playing r) as [r2 [k| | |]]; try contradiction; cbn [next].
      * destruct Fl as (K2 & D2 & P2 & F2 & U2 & L3 & Ek). fold (read_ready playing r2 n).
        assert (E : ahead r2 = ahead r).
        { unfold ahead. rewrite U2, L3, firstn_skipn. unfold unread. rewrite D. reflexivity. }
        pose proof (ready_sound cap n r2 K2 D2 Hn ltac:(lia)) as X. unfold read_sound in *. rewrite E in X. exact X.
      * destruct Fl as (E1 & E2). cbn [read_sound]. rewrite E1. split; [exact K|]. exists []. unfold ahead. rewrite E1, E2.
        split; [reflexivity|]. split; [change (size_of []) with 0; lia|auto].
    + cbn [next]. fold (read_ready playing r n). apply ready_sound; auto; lia.
  - pose proof (size_nonneg (mem (buf r))) as P. assert (C0 : cap = 0) by lia. specialize (Z0 C0).
    assert (U : unread (buf r) = []) by (unfold unread; rewrite Z0; reflexivity).
    cbn [playing device_read]. unfold tape_read. destruct (plays (inner r)) as [|[|] w]; cbn [read_sound]; (split; [exact K|]); unfold ahead;
      cbn [buf inner left]; rewrite U; cbn [app]; auto.
    exists []. split; [reflexivity|]. split; [change (size_of []) with 0; lia|auto].
Qed.

Lemma read_dirt : forall n r, size_of (mem (buf r)) = 0 -> read_dirty (buf r) = true ->
  read_dirty (buf (fst (fault_read playing r n))) = true.
Proof.
  intros n r A D. unfold fault_read. change (capacity (buf r)) with (size_of (mem (buf r))). rewrite A. cbn [Z.ltb Z.compare].
  destruct (device_read playing (inner r) n LeanRetrieval). exact D.
Qed.

Lemma reading_accounts : forall cap ns r, filled_ok cap (buf r) -> (cap = 0 -> read_dirty (buf r) = true) ->
  Forall (fun n => 0 <= n) ns ->
  exists r' l, reading playing ns r = Some (r', l) /\ accounts cap (ahead r) ns l.
Proof.
  intros cap. induction ns as [|n ns IH]; intros r K Z0 F.
  - exists r, []. split; [reflexivity|constructor].
  - inversion F as [|? ? Hn Fn]; subst. pose proof (read_fault cap n r K Hn Z0) as X. cbn [reading].
    assert (Z1 : cap = 0 -> read_dirty (buf (fst (fault_read playing r n))) = true).
    { intro C. apply read_dirt; [rewrite (proj1 K); exact C|auto]. }
    destruct (fault_read playing r n) as [r1 [b| | |]]; try contradiction; cbn [read_sound fst] in *.
    + destruct X as (K1 & E1 & E2). destruct (IH r1 K1 Z1 Fn) as (r' & l & E & Ac). rewrite E. cbn [option_map].
      exists r', (Got b :: l). split; [reflexivity|]. rewrite E1. constructor. rewrite <- E2. exact Ac.
    + destruct X as (K1 & lost & E1 & E2 & E3). destruct (IH r1 K1 Z1 Fn) as (r' & l & E & Ac). rewrite E. cbn [option_map].
      exists r', (Failed :: l). split; [reflexivity|]. rewrite E1. constructor; assumption.
Qed.

Lemma accounts_kept : forall cap content ns l, accounts cap content ns l -> cap = 0 \/ Forall (fun n => n <= 1) ns ->
  exists rest, content = given l ++ rest.
Proof.
  intros cap content ns l A. induction A as [c|c n ns a A IH|lost rest n ns a L1 L2 A IH]; intro H.
  - exists c. reflexivity.
  - destruct IH as (x & E); [destruct H as [H|H]; [now left|right; now inversion H]|]. exists x.
    cbn [given]. rewrite <- app_assoc, <- E, firstn_skipn. reflexivity.
  - destruct IH as (x & E); [destruct H as [H|H]; [now left|right; now inversion H]|]. exists x. cbn [given].
    assert (lost = []) as ->; [|exact E]. apply length_zero_iff_nil.
    destruct L2 as [->|L2]; [reflexivity|]. destruct H as [H|H]; [lia|]. inversion H; subst. lia.
Qed.

(* ------------------------------------------------- ResourceModel.v is the same *)

Lemma unfailing_flush : forall S (ops : raw S) r r', flush ops r = Ok r' -> fault_flush (unfailing ops) r = (r', Returned tt).
Proof.
  intros S ops r r'. unfold flush, fault_flush. destruct (write_dirty (buf r)); [|intro H; injection H as <-; reflexivity].
  destruct (slice _ _ _) as [data| | | |]; cbn [bind]; try discriminate. cbn [unfailing device_write].
  destruct (raw_write ops (inner r) data) as [[s k]| | | |]; cbn [bind]; try discriminate. intro H. injection H as <-. reflexivity.
Qed.

Lemma unfailing_write : forall S (ops : raw S) r data r' k, write ops r data = Ok (r', k) ->
  fault_write (unfailing ops) r data = (r', Returned k).
Proof.
  intros S ops r data r' k. unfold write, fault_write.
  assert (Direct : forall r, bind (raw_write ops (inner r) data) (fun '(s, k) => Ok (Resource s (buf r), k)) = Ok (r', k) ->
    direct_write (unfailing ops) r data = (r', Returned k)).
  { intros r1. unfold direct_write. cbn [unfailing device_write].
    destruct (raw_write ops (inner r1) data) as [[s x]| | | |]; cbn [bind]; try discriminate. intro H. injection H as <- <-. reflexivity. }
  destruct (0 <? capacity (buf r)); [|apply Direct]. unfold write_buffered, fault_write_buffered.
  assert (Put : forall r1 (b : bool), (if b && (capacity (buf r) <? size_of data) then
       bind (raw_write ops (inner r1) data) (fun '(s, k) => Ok (Resource s (buf r1), k))
     else bind (buffer_write (buf r1) data) (fun b => Ok (Resource (inner r1) b, size_of data))) = Ok (r', k) ->
     (if b && (capacity (buf r) <? size_of data) then direct_write (unfailing ops) r1 data
      else match buffer_write (buf r1) data with
           | Ok b => (Resource (inner r1) b, Returned (size_of data))
           | x => (r1, plainly (bind x (fun _ => Ok (size_of data)))) end) = (r', Returned k)).
  { intros r1 b. destruct (b && _); [apply Direct|]. destruct (buffer_write (buf r1) data); cbn [bind]; try discriminate.
    intro H. injection H as <- <-. reflexivity. }
  destruct (capacity (buf r) <? bpos (buf r) + size_of data).
  - destruct (flush ops r) as [r1| | | |] eqn:Fl; cbn [bind]; try discriminate. rewrite (unfailing_flush _ _ _ _ Fl). cbn [next].
    apply (Put r1 true).
  - cbn [bind next]. apply (Put r false).
Qed.
