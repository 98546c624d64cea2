(** Lemmas for C149: reads. *)
From Coq Require Import NArith ZArith List Bool Lia.
From Coq Require Import ZifyBool ZifyNat ZifyN.
From Verif Require Import Base Integers ResourceSpec ResourceModel ResourceText FileSpec FileModel FileText.
From Verif Require Import ResourceLemmas ResourceLemmas2 FileLemmas FileLemmas2 FileLemmas3 FileLemmas4 FileLemmas5 FileLemmas6.
From Verif Require Import ThriftSpec ThriftText ThriftLemmas.
Import ListNotations.
Open Scope Z_scope.

Lemma obliging_now : forall w, obliging w -> response_now w = InFull.
Proof. intros w B. unfold obliging, response_now in *. destruct (script w); [reflexivity|]. now inversion B. Qed.

Lemma read_obliged : forall w fd n h count, lookup w fd = Some (n, h) -> readable h = true -> 0 <= count -> obliging w ->
  exists w', sys_read w fd count = (w', Some (take count (drop (offset h) (content_of w (file_name h))))) /\
    obliging w' /\ disk w' = disk w /\ 0 <= used w w' <= 1 /\
    lookup w' fd = Some (n, move_to h (offset h + len (take count (drop (offset h) (content_of w (file_name h)))))).
Proof.
  intros w fd n h count L R C B. destruct (sys_read_cases w fd n h count L R C) as (w' & r & E & D & Sc & X).
  assert (Now := obliging_now w B). exists w'. destruct r as [d|]; [|destruct X as [X _]; congruence].
  destruct X as (_ & _ & X & _ & L'). rewrite <- (X Now). split; [exact E|]. split.
  { unfold obliging in *. rewrite Sc. destruct (script w); [constructor|]. now inversion B. }
  split; [exact D|]. split; [|exact L']. unfold used. rewrite Sc. destruct (script w); cbn [tl length]; lia.
Qed.

Definition cost (k n : Z) : Z := if k =? n then 1 else if 0 <? k then 2 else 1.

Lemma block_used : forall pl w fd n h dst off count w' dst' k, lookup w fd = Some (n, h) -> readable h = true ->
  0 <= offset h -> 0 < count -> obliging w -> read_block pl w fd dst off count = Ok (w', dst', k) ->
  0 <= used w w' <= cost k count.
Proof.
  intros pl w fd n h dst off count w' dst' k L R O C B H.
  destruct (read_obliged w fd n h count L R ltac:(lia) B) as (w1 & E1 & B1 & D1 & U1 & L1).
  set (d := take count (drop (offset h) (content_of w (file_name h)))) in *.
  assert (Ld : len d <= count) by (unfold d; rewrite len_take by lia; lia). pose proof (len_nonneg d) as Pd.
  assert (Next : forall m, 0 <= m -> len d < count -> exists w2, sys_read w1 fd m = (w2, Some []) /\ 0 <= used w1 w2 <= 1).
  { intros m M Sh. destruct (read_obliged w1 fd n (move_to h (offset h + len d)) m L1 R M B1) as (w2 & E2 & B2 & D2 & U2 & _).
    exists w2. split; [|exact U2]. rewrite E2. f_equal. f_equal. cbn [move_to offset file_name].
    unfold content_of. rewrite D1. change (match disk w (file_name h) with Some c => c | None => [] end) with (content_of w (file_name h)).
    rewrite (drop_all (offset h + len d)); [apply firstn_nil|].
    unfold d in Sh |- *. rewrite len_take in Sh |- * by lia. pose proof (len_nonneg (content_of w (file_name h))).
    destruct (Z.le_gt_cases (offset h) (len (content_of w (file_name h)))).
    - rewrite len_drop in * by lia. lia.
    - pose proof (len_nonneg (drop (offset h) (content_of w (file_name h)))). lia. }
  unfold read_block in H. destruct pl.
  - destruct (block_fuel w fd) as [|f]; [discriminate|]. cbn [unix_block] in H. rewrite E1 in H.
    change size_of with len in H. destruct d as [|x d'] eqn:Ed.
    + injection H as <- <- <-. unfold cost. destruct (0 =? count), (0 <? 0); lia.
    + rewrite <- Ed in *. destruct (blit dst off d) as [dst1| | | |]; cbn [bind] in H; try discriminate.
      rewrite Z.add_0_l in H. assert (0 < len d) by (rewrite Ed; unfold len; cbn [length]; lia). destruct (len d =? count) eqn:F.
      * injection H as <- <- <-. unfold cost. rewrite F. lia.
      * destruct f as [|f]; [discriminate|]. cbn [unix_block] in H. destruct (Next count ltac:(lia) ltac:(lia)) as (w2 & E2 & U2).
        rewrite E2 in H. injection H as <- <- <-. unfold cost. rewrite F. replace (0 <? len d) with true by lia.
        rewrite (used_trans _ w1). lia.
  - destruct (block_fuel w fd) as [|f]; [discriminate|]. cbn [windows_block] in H. rewrite Z.sub_0_r, E1 in H.
    change size_of with len in H. destruct (blit dst (off + 0) d) as [dst1| | | |]; cbn [bind] in H; try discriminate.
    rewrite Z.add_0_l in H. unfold cost. destruct (len d =? 0) eqn:Ez; cbn [orb] in H.
    + injection H as <- <- <-. destruct (len d =? count), (0 <? len d) eqn:?; lia.
    + destruct (len d =? count) eqn:F.
      * injection H as <- <- <-. rewrite F. lia.
      * destruct f as [|f]; [discriminate|]. cbn [windows_block] in H. destruct (Next (count - len d) ltac:(lia) ltac:(lia)) as (w2 & E2 & U2).
        rewrite E2 in H. destruct (blit dst1 (off + len d) []) as [dst2| | | |]; cbn [bind] in H; try discriminate.
        change (size_of []) with 0 in H. cbn [Z.eqb orb] in H. injection H as <- <- <-. rewrite Z.add_0_r, F. replace (0 <? len d) with true by lia.
        rewrite (used_trans _ w1). lia.
Qed.

Lemma seek_used : forall w v fd n pr, used w (fst (sys_seek v fd n pr)) = used w v.
Proof.
  intros. unfold sys_seek. destruct (lookup v fd) as [[k h]|]; [|reflexivity]. cbv zeta.
  match goal with |- context[if ?b then _ else _] => destruct b end; reflexivity.
Qed.

Lemma fill_used : forall pl r q wr c a r' k, opened (inner r) q true wr c a -> 0 <= a -> 0 <= filled_last (inner r) ->
  a + filled_last (inner r) < 2 ^ 63 -> 0 < capacity (buf r) <= chunk_max pl -> obliging (os (inner r)) ->
  fill (file_ops pl) r = Ok (r', k) -> 0 <= used (os (inner r)) (os (inner r')) <= cost k (capacity (buf r)).
Proof.
  intros pl r q wr c a r' k O A F F2 C B H. unfold fill, file_ops in H. cbn [raw_read] in H. unfold file_read_raw in H.
  assert (S1 : exists s1, (if 0 <? filled_last (inner r) then seek_raw pl (inner r) (filled_last (inner r)) FromCurrent else inner r) = s1 /\
    opened s1 q true wr c (a + filled_last (inner r)) /\ script (os s1) = script (os (inner r))).
  { destruct (0 <? filled_last (inner r)) eqn:Z.
    - destruct (seek_current pl (inner r) q true wr c a (filled_last (inner r)) O ltac:(lia)) as (K1 & K2 & K3 & _). eauto.
    - replace (a + filled_last (inner r)) with a by lia. eauto. }
  destruct S1 as (s1 & E1 & O1 & Sc). rewrite E1 in H. clear E1.
  destruct (chunk_count_pos pl (capacity (buf r)) ltac:(lia)) as [f Ff]. rewrite Ff in H. cbn [read_blocks] in H.
  replace (capacity (buf r) <=? 0) with false in H by lia. rewrite Z.min_l in H by lia.
  destruct (read_block pl (os s1) (descriptor s1) (mem (buf r)) 0 (capacity (buf r))) as [[[w1 d1] j]| | | |] eqn:E; cbn [bind] in H; try discriminate.
  destruct O1 as [(hk & h & L & H1 & H2 & H3 & H4) D].
  assert (B1 : obliging (os s1)) by (unfold obliging; rewrite Sc; exact B).
  assert (U : 0 <= used (os s1) w1 <= cost j (capacity (buf r))) by (eapply block_used; try eassumption; lia).
  assert (Us : forall w, used (os (inner r)) w = used (os s1) w) by (intros; unfold used; now rewrite Sc).
  destruct (j =? capacity (buf r)) eqn:J.
  - destruct f; cbn [read_blocks] in H; replace (capacity (buf r) - capacity (buf r) <=? 0) with true in H by lia; cbn [bind] in H;
      injection H as <- <-; cbn [inner os]; unfold seek_raw; cbn [os descriptor]; rewrite seek_used, Us; exact U.
  - cbn [bind] in H. injection H as <- <-. cbn [inner os]. unfold seek_raw. cbn [os descriptor]. rewrite seek_used, Us. exact U.
Qed.

(** A buffer used for input, that has the bytes of the file from a on. *)
Record reading (pl : platform) (cap : Z) (q : N) (wr : bool) (c : list N) (a : Z) (r : resource sys) : Prop := {
  rd_open : opened (inner r) q true wr c a;
  rd_cap : capacity (buf r) = cap;
  rd_most : 0 < cap <= chunk_max pl;
  rd_from : 0 <= a <= len c;
  rd_size : len c < 2 ^ 63;
  rd_last : filled_last (inner r) = filled (buf r);
  rd_filled : filled (buf r) = Z.min cap (len c - a);
  rd_pos : 0 <= bpos (buf r) <= filled (buf r);
  rd_clean : read_dirty (buf r) = false;
  rd_obliging : obliging (os (inner r)) }.

Lemma fill_reading : forall pl cap q wr c a r, opened (inner r) q true wr c a -> capacity (buf r) = cap ->
  0 < cap <= chunk_max pl -> 0 <= a -> 0 <= filled_last (inner r) -> a + filled_last (inner r) <= len c -> len c < 2 ^ 63 ->
  obliging (os (inner r)) ->
  exists r', fill (file_ops pl) r = Ok (r', filled (buf r')) /\ reading pl cap q wr c (a + filled_last (inner r)) r' /\
    bpos (buf r') = 0 /\ 0 <= used (os (inner r)) (os (inner r')) <= cost (filled (buf r')) cap.
Proof.
  intros pl cap q wr c a r O K C A F Le LC B.
  assert (NS : no_short_read_on_unix pl (os (inner r))).
  { right. unfold obliging in B. eapply Forall_impl; [|exact B]. intros x ->. now left. }
  assert (NF : no_failure (os (inner r))).
  { unfold no_failure. eapply Forall_impl; [|exact B]. intros x ->. discriminate. }
  destruct (fill_file pl r q wr c a O) as (r1 & d & Fi & G1 & G2 & G3 & G4 & G5 & G6 & G7 & G8 & G9 & G10 & G11 & G12 & G13);
    try assumption; try lia.
  exists r1. rewrite <- G6 in Fi. split; [exact Fi|]. split.
  - constructor; try assumption; try lia.
    + rewrite G6, (G13 NF), K. rewrite len_take, len_drop by lia. lia.
    + rewrite G6, G7. pose proof (len_nonneg d). lia.
    + now apply G4.
  - split; [exact G7|]. rewrite <- K. eapply fill_used; try eassumption; lia.
Qed.

Lemma buffer_read_inv : forall b dst off n b' dst' m, n <= filled b - bpos b -> buffer_read b dst off n = Ok (b', dst', m) ->
  m = n /\ b' = Buffer (mem b) (filled b) (bpos b + n) (read_dirty b) (write_dirty b).
Proof.
  intros b dst off n b' dst' m L H. unfold buffer_read in H. replace (filled b <? bpos b + n) with false in H by lia.
  destruct (memcpy dst off (mem b) (bpos b) n) as [x| | | |]; cbn [bind] in H; try discriminate. injection H as <- <- <-. auto.
Qed.

Lemma read_used : forall pl cap q wr c a r block n r' b k, reading pl cap q wr c a r -> 0 <= n <= cap ->
  read (file_ops pl) r block n = Ok (r', b, k) ->
  exists a', reading pl cap q wr c a' r' /\ k = Z.min n (len c - (a + bpos (buf r))) /\
    a' + bpos (buf r') = a + bpos (buf r) + k /\
    (a' = a /\ used (os (inner r)) (os (inner r')) = 0 /\ filled (buf r') = filled (buf r) \/
     a' = a + filled (buf r) /\ filled (buf r) < bpos (buf r) + n /\
     0 <= used (os (inner r)) (os (inner r')) <= cost (filled (buf r')) cap).
Proof.
  intros pl cap q wr c a r block n r' b k R N H. assert (R' := R). destruct R as [O K C A LC Lf Fi P Cl B].
  unfold read in H. rewrite K in H. replace (0 <? cap) with true in H by lia. unfold read_buffered in H. rewrite Cl in H. cbn [bind] in H.
  destruct (filled (buf r) <? bpos (buf r) + n) eqn:More.
  - rewrite as_size_pos in H by (destruct pl; cbn [chunk_max] in C; lia). set (f := filled (buf r) - bpos (buf r)) in *.
    assert (S1 : exists r1 dst1, opened (inner r1) q true wr c a /\ inner r1 = inner r /\ capacity (buf r1) = cap /\
      (if capacity (buf r1) <? n - f
       then bind (raw_read (file_ops pl) (inner r1) dst1 f (n - f) LeanRetrieval) (fun '(s, dst, k) => Ok (Resource s (buf r1), dst, f + k))
       else bind (fill (file_ops pl) r1) (fun '(r, bytes_filled) =>
         bind (buffer_read (buf r) dst1 f (if bytes_filled <? n - f then bytes_filled else n - f)) (fun '(b, dst, k) =>
         Ok (Resource (inner r) b, dst, f + k)))) = Ok (r', b, k)).
    { destruct (0 <? f) eqn:Fp.
      - destruct (buffer_read (buf r) block 0 f) as [[[b1 dst1] k1]| | | |] eqn:E; cbn [bind] in H; try discriminate.
        assert (Fb : f <= filled (buf r) - bpos (buf r)) by (unfold f; lia).
        destruct (buffer_read_inv _ _ _ _ _ _ _ Fb E) as [-> ->].
        rewrite as_size_pos in H by (destruct pl; cbn [chunk_max] in C; lia).
        eexists (Resource (inner r) _), dst1. cbn [inner buf] in *. split; [exact O|]. split; [reflexivity|]. split; [|exact H].
        exact K.
      - cbn [bind] in H. exists r, block. split; [exact O|]. split; [reflexivity|]. split; [exact K|].
        replace f with 0 by (unfold f in *; lia). rewrite Z.sub_0_r. exact H. }
    destruct S1 as (r1 & dst1 & O1 & I1 & K1 & H1). rewrite K1 in H1. replace (cap <? n - f) with false in H1 by (unfold f; lia).
    destruct (fill_reading pl cap q wr c a r1 O1 K1 C ltac:(lia)) as (r2 & F2 & R2 & P2 & U2); rewrite ?I1; try assumption; try lia.
    rewrite F2 in H1. cbn [bind] in H1. set (m := if filled (buf r2) <? n - f then filled (buf r2) else n - f) in *.
    assert (Hm : m = Z.min (n - f) (filled (buf r2))) by (unfold m; destruct (filled (buf r2) <? n - f) eqn:?; lia).
    destruct (buffer_read (buf r2) dst1 f m) as [[[b2 dst2] k2]| | | |] eqn:E; cbn [bind] in H1; try discriminate.
    assert (Fb : m <= filled (buf r2) - bpos (buf r2)) by lia.
    destruct (buffer_read_inv _ _ _ _ _ _ _ Fb E) as [-> ->]. injection H1 as <- <- <-.
    rewrite I1, Lf in *. destruct R2 as [O2 K2 C2 A2 _ Lf2 Fi2 Po2 Cl2 B2]. exists (a + filled (buf r)).
    cbn [inner buf filled bpos]. split.
    + constructor; cbn [inner buf filled bpos read_dirty]; try assumption; try lia.
    + unfold f in *. split; [lia|]. split; [lia|]. right. split; [reflexivity|]. split; [lia|]. exact U2.
  - destruct (buffer_read (buf r) block 0 n) as [[[b1 dst1] k1]| | | |] eqn:E; cbn [bind] in H; try discriminate.
    assert (Fb : n <= filled (buf r) - bpos (buf r)) by lia.
    destruct (buffer_read_inv _ _ _ _ _ _ _ Fb E) as [-> ->]. injection H as <- <- <-. exists a. cbn [inner buf filled bpos].
    rewrite used_same. split.
    + constructor; cbn [inner buf filled bpos read_dirty]; try assumption; try lia.
    + split; [lia|]. split; [lia|]. left. auto.
Qed.

(** What may be missing of a multiple of the capacity. *)
Definition slack (cap : Z) (r : resource sys) : Z := if filled (buf r) =? cap then 0 else 1.

Lemma read_paid : forall pl cap q wr c a r block n r' b k, reading pl cap q wr c a r -> 0 <= n <= cap ->
  read (file_ops pl) r block n = Ok (r', b, k) ->
  exists a', reading pl cap q wr c a' r' /\ k = Z.min n (len c - (a + bpos (buf r))) /\
    a' + bpos (buf r') = a + bpos (buf r) + k /\
    (used (os (inner r)) (os (inner r')) - (if len c - (a + bpos (buf r)) <? n then 1 else 0) + slack cap r) * cap <= a' - a + slack cap r' * cap /\
    used (os (inner r)) (os (inner r')) + slack cap r <= 1 + slack cap r'.
Proof.
  intros pl cap q wr c a r block n r' b k R N H. destruct (read_used _ _ _ _ _ _ _ _ _ _ _ _ R N H) as (a' & R' & Hk & Hp & X).
  exists a'. split; [exact R'|]. split; [exact Hk|]. split; [exact Hp|]. destruct R as [O K C A LC Lf Fi P Cl B].
  destruct R' as [O' K' _ A' _ Lf' Fi' P' Cl' B']. unfold slack. destruct X as [(-> & -> & ->)|(-> & M & U)].
  - split; [|destruct (filled (buf r) =? cap); lia]. destruct (len c - (a + bpos (buf r)) <? n), (filled (buf r) =? cap); lia.
  - unfold cost in U. destruct (filled (buf r) =? cap) eqn:E1.
    + destruct (filled (buf r') =? cap) eqn:E2, (0 <? filled (buf r')), (len c - (a + bpos (buf r)) <? n); split; nia.
    + assert (filled (buf r') = 0) by lia. replace (filled (buf r') =? cap) with false in * by lia. replace (0 <? filled (buf r')) with false in U by lia.
      replace (len c - (a + bpos (buf r)) <? n) with true by lia. split; nia.
Qed.

Lemma reads_paid : forall pl cap q wr c rs a f f' l, reading pl cap q wr c a (res f) -> mode_reads (mode f) = true ->
  Forall (fun '(_, n) => 0 <= n <= cap) rs -> run_file pl f (read_calls rs) = Ok (f', l) ->
  exists a', reading pl cap q wr c a' (res f') /\
    (used (os (inner (res f))) (os (inner (res f'))) - short_reads (len c - (a + bpos (buf (res f)))) rs + slack cap (res f)) * cap
      <= a' - a + slack cap (res f') * cap /\
    used (os (inner (res f))) (os (inner (res f'))) + slack cap (res f) <= Z.of_nat (length rs) + slack cap (res f') /\
    a' + bpos (buf (res f')) = a + bpos (buf (res f)) + Z.min (len c - (a + bpos (buf (res f)))) (asked rs).
Proof.
  intros pl cap q wr c. induction rs as [|[b n] rs IH]; intros a f f' l R M Sz H.
  - cbn [read_calls map run_file] in H. injection H as <- <-. exists a. rewrite used_same. cbn [short_reads asked fold_right length].
    destruct R as [O K C A LC Lf Fi P Cl B]. split; [now constructor|]. lia.
  - inversion Sz as [|? ? N1 N2]; subst. cbn [read_calls map run_file call_file] in H. fold (read_calls rs) in H. unfold file_read in H.
    assert (S1 : exists r1 b1 k, read (file_ops pl) (res f) b n = Ok (r1, b1, k) /\
      exists l2, run_file pl (File r1 (path f) (mode f)) (read_calls rs) = Ok (f', l2)).
    { destruct (mode f); [|discriminate|];
      (destruct (read (file_ops pl) (res f) b n) as [[[r1 b1] k]| | | |]; cbn [bind] in H; try discriminate;
       exists r1, b1, k; split; [reflexivity|];
       destruct (run_file pl _ (read_calls rs)) as [[f2 l2]| | | |]; cbn [bind] in H; try discriminate;
       injection H as <- <-; now exists l2). }
    destruct S1 as (r1 & b1 & k & E1 & l2 & E2).
    destruct (read_paid _ _ _ _ _ _ _ _ _ _ _ _ R N1 E1) as (a1 & R1 & Hk & Hp & U1 & V1).
    destruct (IH a1 (File r1 (path f) (mode f)) f' l2 R1 M N2 E2) as (a' & R' & U2 & V2 & G). cbn [res] in *.
    exists a'. split; [exact R'|]. rewrite (used_trans _ (os (inner r1))).
    cbn [short_reads length]. replace (asked ((b, n) :: rs)) with (n + asked rs) by reflexivity.
    destruct R as [O K C A LC Lf Fi P Cl B]. destruct R1 as [O1 K1 _ A1 _ Lf1 Fi1 P1 Cl1 B1].
    replace (len c - (a + bpos (buf (res f))) - Z.min (len c - (a + bpos (buf (res f)))) n) with (len c - (a1 + bpos (buf r1))) by lia.
    set (S0 := if len c - (a + bpos (buf (res f))) <? n then 1 else 0) in *.
    assert (0 <= asked rs).
    { clear - N2. induction N2 as [|[? ?] ? X ? ?]; [unfold asked; cbn; lia|]. unfold asked in *. cbn [fold_right snd]. lia. }
    split; [lia|]. split; lia.
Qed.

(** A file just opened, and then only read. *)
Lemma reads_total : forall pl cap q wr c rs f f' l, opened (inner (res f)) q true wr c 0 -> filled_last (inner (res f)) = 0 ->
  capacity (buf (res f)) = cap -> read_dirty (buf (res f)) = true -> obliging (os (inner (res f))) -> len c < 2 ^ 63 ->
  0 < cap <= chunk_max pl -> mode_reads (mode f) = true ->
  Forall (fun '(_, n) => 0 <= n <= cap) rs -> run_file pl f (read_calls rs) = Ok (f', l) ->
  used (os (inner (res f))) (os (inner (res f'))) * cap <= Z.min (len c) (asked rs) + (short_reads (len c) rs + 2) * cap /\
  used (os (inner (res f))) (os (inner (res f'))) <= Z.of_nat (length rs) + 2.
Proof.
  intros pl cap q wr c rs f f' l O F0 K D B LC C M Sz H. pose proof (len_nonneg c). destruct rs as [|[b n] rs].
  - cbn [read_calls map run_file] in H. injection H as <- <-. rewrite used_same. unfold asked. cbn [short_reads fold_right length]. lia.
  - destruct (fill_reading pl cap q wr c 0 (res f) O K C ltac:(lia) ltac:(lia) ltac:(lia) LC B) as (r1 & E1 & R1 & P1 & U1).
    rewrite F0, Z.add_0_r in R1.
    assert (H2 : run_file pl (File r1 (path f) (mode f)) (read_calls ((b, n) :: rs)) = Ok (f', l)).
    { rewrite <- H. cbn [read_calls map run_file call_file]. unfold file_read. cbn [mode res path].
      assert (Rd : read (file_ops pl) r1 b n = read (file_ops pl) (res f) b n).
      { unfold read, read_buffered. rewrite D, E1, (rd_cap _ _ _ _ _ _ _ R1), (rd_clean _ _ _ _ _ _ _ R1), K. replace (0 <? cap) with true by lia. reflexivity. }
      rewrite Rd. destruct (mode f); [reflexivity|discriminate M|reflexivity]. }
    destruct (reads_paid _ _ _ _ _ _ _ _ _ _ (R1 : reading pl cap q wr c 0 (res (File r1 (path f) (mode f)))) M Sz H2) as (a' & R' & U2 & V2 & G).
    cbn [res] in *. rewrite P1, !Z.add_0_r, Z.sub_0_r in *. rewrite (used_trans _ (os (inner r1))).
    assert (X : 0 <= used (os (inner (res f))) (os (inner r1)) <= 1 + slack cap r1).
    { unfold cost, slack in *. destruct (filled (buf r1) =? cap), (0 <? filled (buf r1)); lia. }
    destruct R' as [_ _ _ _ _ _ Fi' P' _ _]. assert (slack cap (res f') <= 1) by (unfold slack; destruct (filled (buf (res f')) =? cap); lia).
    assert (0 <= slack cap r1) by (unfold slack; destruct (filled (buf r1) =? cap); lia).
    split; [|lia]. nia.
Qed.
