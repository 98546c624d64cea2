(** Reads of any size do what the machine of LongSpec does. *)
From Coq Require Import NArith ZArith List Bool Lia.
From Coq Require Import ZifyBool ZifyNat ZifyN.
From Verif Require Import Base Integers ResourceModel ResourceSpec ResourceText ResourceLemmas ResourceLemmas2 LongSpec.
Import ListNotations.
Open Scope Z_scope.

(** A resource that stands at a place. *)
Record at_place (w cap : Z) (l : list N) (p : place) (r : resource container) : Prop := {
  ap_elem : elem (inner r) = w;
  ap_cap : capacity (buf r) = cap;
  ap_content : content (inner r) = l;
  ap_clean : read_dirty (buf r) = false;
  ap_dev : position (inner r) = dev p;
  ap_last : last_fill (inner r) = win p;
  ap_win : filled (buf r) = win p;
  ap_used : bpos (buf r) = used p;
  ap_range : 0 <= used p <= win p;
  ap_small : win p <= cap /\ win p <= len l;
  ap_bound : dev p <= len l;
  ap_back : - (len l * w) <= dev p;
  ap_start : used p < win p -> 0 <= window_start w p /\ window_start w p + win p <= len l;
  ap_next : 0 <= dev p + win p * w;
  ap_mem : used p < win p -> take (win p) (mem (buf r)) = take (win p) (drop (window_start w p) l) }.

Lemma filled_place : forall w cap l r s, 1 <= w -> 0 < cap -> elem (inner r) = w -> capacity (buf r) = cap ->
  content (inner r) = l -> len l * (w + 1) < 2 ^ 63 -> 0 <= s <= len l -> resumes (inner r) = s ->
  exists r', fill container_ops r = Ok (r', win (refill w cap l s)) /\ at_place w cap l (refill w cap l s) r'.
Proof.
  intros w cap l r s W C E K Ct B S R.
  destruct (fill_ok w cap (Store l s) r W E K Ct B S R)
    as (r1 & F & G1 & G2 & G3 & G4 & G5 & G6 & G7 & G8 & G9 & G10); cbn [bytes at_] in *.
  exists r1. unfold refill. cbn [win]. rewrite <- G8. split; [exact F|].
  set (f := filled (buf r1)) in *.
  assert (Ws : window_start w (Place (s + f - f * w) f 0) = s) by (unfold window_start; cbn [dev win]; lia).
  constructor; cbn [dev win used]; rewrite ?Ws; try assumption; try lia; try nia; try (intros _; assumption).
Qed.

(** A refill past the end of the container. *)
Lemma fill_outside : forall w cap l r p, 1 <= w -> 0 < cap -> at_place w cap l p r -> len l * (w + 1) < 2 ^ 63 ->
  len l < dev p + win p * w -> fill container_ops r = UB OutOfBoundsRead.
Proof.
  intros w cap l r p W C A B O. destruct A as [E K Ct Cl D L F U R S Bd Bk St Nx M].
  unfold fill, container_ops. cbn [raw_read]. unfold container_read. rewrite L.
  assert (P : 0 < win p) by nia. replace (0 <? win p) with true by lia. unfold go_forward, set_position_raw.
  cbn [content position]. rewrite Ct, E, D. pose proof (len_nonneg l).
  assert (Wp : win p * w <= len l * w) by nia.
  rewrite convert_I64 by lia. cbv zeta. unfold as_size at 1. rewrite K. change size_of with len.
  replace (dev p + win p * w + cap <? 0) with false by lia.
  replace (len l <? dev p + win p * w + cap) with true by lia.
  unfold as_size. replace (len l - (dev p + win p * w) <? 0) with true by lia.
  unfold memcpy, slice. change size_of with len.
  replace (dev p + win p * w + (len l - (dev p + win p * w) + 2 ^ 64) <=? len l) with false by lia.
  rewrite andb_false_r. reflexivity.
Qed.

(** A read that starts before the container. *)
Lemma lean_outside : forall c dst off n, position c < 0 -> container_read c dst off n LeanRetrieval = UB OutOfBoundsRead.
Proof.
  intros c dst off n P. unfold container_read. cbv zeta. unfold memcpy, slice.
  replace (0 <=? position c) with false by lia. reflexivity.
Qed.

Lemma get_step : forall w cap l p r block n, 1 <= w -> 0 < cap -> at_place w cap l p r ->
  len l * (w + 1) < 2 ^ 63 -> 0 <= n <= len block ->
  match get w cap l p n with
  | None => read_buffered container_ops r block n = UB OutOfBoundsRead
  | Some (d, q) => exists r', read_buffered container_ops r block n = Ok (r', d ++ drop (len d) block, len d) /\
      at_place w cap l q r'
  end.
Proof.
  intros w cap l p r block n W C A B Hn. pose proof A as A0.
  destruct A as [E K Ct Cl D L F U R S Bd Bk St Nx M].
  unfold read_buffered. rewrite Cl. cbn [bind]. unfold get. cbv zeta. rewrite F, U.
  assert (Wi : forall j, 0 <= j -> used p + j <= win p ->
    take j (drop (used p) (mem (buf r))) = take j (drop (window_start w p + used p) l)).
  { intros j J1 J2. destruct (Z.eq_dec j 0) as [->|N0]; [now rewrite !take_0|].
    destruct (St ltac:(lia)) as (S1 & S2). apply window with (win p); try lia. apply M. lia. }
  set (d0 := win p - used p) in *.
  assert (Len0 : forall j, 0 <= j <= d0 -> len (take j (drop (window_start w p + used p) l)) = j).
  { intros j J. destruct (Z.eq_dec j 0) as [->|N0]; [now rewrite take_0|].
    destruct (St ltac:(lia)) as (S1 & S2). rewrite len_take, len_drop by lia. lia. }
  destruct (n - d0 <=? 0) eqn:Q1.
  - (* in the buffer *)
    replace (win p <? used p + n) with false by lia.
    rewrite buffer_read_ok by (rewrite ?F, ?U, ?K; lia). cbn [bind]. rewrite U, Wi by lia.
    rewrite Z.min_l by lia. rewrite overwrite_start, (Len0 n) by lia. eexists. split; [reflexivity|].
    constructor; cbn [inner buf dev win used read_dirty filled bpos mem]; try assumption; try lia.
    + unfold window_start in *. cbn [dev win used] in *. intros X. apply St. lia.
    + unfold window_start in *. cbn [dev win used] in *. intros X. apply M. lia.
  - replace (win p <? used p + n) with true by lia. rewrite as_size_pos by lia. fold d0.
    rewrite Z.min_r by lia. set (first := take d0 (drop (window_start w p + used p) l)) in *.
    assert (Lf : len first = d0) by (apply Len0; lia).
    assert (Fst : (if 0 <? d0
      then bind (buffer_read (buf r) block 0 d0) (fun '(b, dst, k) => Ok (Resource (inner r) b, dst, k, as_size (n - k)))
      else Ok (r, block, 0, n))
      = Ok (Resource (inner r) (Buffer (mem (buf r)) (win p) (win p) false (write_dirty (buf r))), first ++ drop d0 block, d0, n - d0)).
    { destruct (0 <? d0) eqn:Fp.
      - rewrite buffer_read_ok by (rewrite ?F, ?U, ?K; lia). cbn [bind]. rewrite as_size_pos by lia.
        rewrite overwrite_start, U, Wi, F, Cl by lia. fold first. rewrite Lf.
        replace (used p + d0) with (win p) by lia. reflexivity.
      - assert (H0 : d0 = 0) by lia. unfold first. rewrite H0, take_0, drop_0, Z.sub_0_r. cbn [app].
        do 4 f_equal. destruct r as [i b]. cbn [inner buf] in *. f_equal. destruct b as [bm bf bp br bw].
        cbn [mem filled bpos read_dirty write_dirty] in *. subst. f_equal; lia. }
    rewrite Fst. cbn [bind inner buf]. clear Fst. set (r1 := Resource (inner r) (Buffer (mem (buf r)) (win p) (win p) false (write_dirty (buf r)))).
    assert (A1 : at_place w cap l (Place (dev p) (win p) (win p)) r1).
    { subst r1. constructor; cbn [inner buf dev win used read_dirty filled bpos mem]; try assumption; try lia. }
    change (capacity (Buffer (mem (buf r)) (win p) (win p) false (write_dirty (buf r)))) with (capacity (buf r)). rewrite K.
    assert (Lr : len (first ++ drop d0 block) = len block) by (rewrite len_app, Lf, len_drop by lia; lia).
    destruct (n - d0 <=? cap) eqn:Q2.
    + replace (cap <? n - d0) with false by lia.
      destruct (len l <? dev p + win p * w) eqn:Q3.
      * rewrite (fill_outside w cap l r1 _ W C A1 B) by (cbn [dev win]; lia). reflexivity.
      * set (s := dev p + win p * w) in *.
        destruct (filled_place w cap l r1 s W C (ap_elem _ _ _ _ _ A1) (ap_cap _ _ _ _ _ A1) (ap_content _ _ _ _ _ A1) B)
          as (r2 & F2 & A2); [lia| |].
        { unfold resumes. rewrite (ap_dev _ _ _ _ _ A1), (ap_last _ _ _ _ _ A1), (ap_elem _ _ _ _ _ A1). cbn [dev win].
          unfold s. destruct (0 <? win p) eqn:X; [reflexivity|]. assert (win p = 0) by lia. nia. }
        rewrite F2. cbn [bind]. set (q := refill w cap l s) in *.
        assert (Hk : (if win q <? n - d0 then win q else n - d0) = Z.min (n - d0) (win q)) by (destruct (win q <? n - d0) eqn:X; lia).
        rewrite Hk. set (k := Z.min (n - d0) (win q)) in *.
        assert (Wq : win q = Z.min cap (len l - s)) by reflexivity. assert (Uq : used q = 0) by reflexivity.
        assert (Sq : window_start w q = s) by (unfold window_start, q, refill; cbn [dev win]; lia).
        destruct A2 as [E2 K2 Ct2 Cl2 D2 L2 F2' U2 R2 S2 Bd2 Bk2 St2 Nx2 M2].
        rewrite buffer_read_ok by (rewrite ?F2', ?U2, ?K2; lia). cbn [bind].
        assert (T : take k (drop (bpos (buf r2)) (mem (buf r2))) = take k (drop s l)).
        { rewrite U2, Uq, drop_0. destruct (Z.eq_dec k 0) as [->|N0]; [now rewrite !take_0|].
          rewrite Sq in M2. replace k with (Z.min k (win q)) by lia. rewrite <- !take_take by lia. rewrite M2 by lia. reflexivity. }
        rewrite T. assert (Lk : len (take k (drop s l)) = k) by (rewrite len_take, len_drop by lia; lia).
        eexists. split.
        -- f_equal. f_equal; [f_equal|rewrite len_app; lia].
           unfold overwrite. rewrite take_app_l by lia. rewrite (take_all d0) by lia. rewrite <- app_assoc. f_equal. f_equal.
           rewrite drop_app_r by lia. rewrite drop_drop by lia. f_equal. rewrite len_app. lia.
        -- constructor; cbn [inner buf dev win used read_dirty filled bpos mem]; try assumption; try lia.
           ++ intros X. unfold window_start in *. cbn [dev win used] in *. apply St2. lia.
           ++ intros X. unfold window_start in *. cbn [dev win used] in *. apply M2. lia.
    + replace (cap <? n - d0) with true by lia. unfold container_ops. cbn [raw_read].
      destruct (dev p <? 0) eqn:Q4.
      * rewrite lean_outside by lia. reflexivity.
      * assert (X := lean (inner r) (first ++ drop d0 block) d0 (n - d0)). rewrite D, Ct in X. cbv zeta in X.
        set (more := take (n - d0) (drop (dev p) l)) in *.
        assert (Lm : len more <= n - d0 /\ len more <= len l - dev p)
          by (unfold more; rewrite len_take, len_drop by lia; lia).
        pose proof (len_nonneg more).
        rewrite X by lia. cbn [bind]. eexists. split.
        -- f_equal. f_equal; [f_equal|rewrite len_app; lia].
           unfold overwrite. rewrite take_app_l by lia. rewrite (take_all d0) by lia. rewrite <- app_assoc. f_equal. f_equal.
           rewrite drop_app_r by lia. rewrite drop_drop by lia. f_equal. rewrite len_app. lia.
        -- constructor; cbn [inner buf dev win used read_dirty filled bpos mem elem content position last_fill]; try assumption; try reflexivity; try lia.
Qed.

(** Before the first read. *)
Lemma first_read : forall w cap l block n, 1 <= w -> (0 < cap)%nat -> len l * (w + 1) < 2 ^ 63 -> 0 <= n <= len block ->
  exists r, at_place w (Z.of_nat cap) l (refill w (Z.of_nat cap) l 0) r /\
    read_buffered container_ops (new_resource l w cap) block n = read_buffered container_ops r block n.
Proof.
  intros w cap l block n W C B Hn. pose proof (len_nonneg l).
  assert (K : capacity (buf (new_resource l w cap)) = Z.of_nat cap).
  { unfold capacity, new_resource, new_buffer. cbn [buf mem]. unfold size_of. now rewrite repeat_length. }
  destruct (filled_place w (Z.of_nat cap) l (new_resource l w cap) 0 W ltac:(lia) eq_refl K eq_refl B) as (r & F & A);
    [lia|reflexivity|].
  exists r. split; [exact A|]. unfold read_buffered.
  change (read_dirty (buf (new_resource l w cap))) with true. cbv iota. rewrite F. cbn [bind].
  rewrite (ap_clean _ _ _ _ _ A). reflexivity.
Qed.

Lemma run_read : forall r b n rs, 0 < capacity (buf r) ->
  run call_input r (read_calls ((b, n) :: rs))
  = bind (read_buffered container_ops r b n) (fun '(r, d, k) =>
    bind (run call_input r (read_calls rs)) (fun '(r, l) => Ok (r, Got d k :: l))).
Proof.
  intros r b n rs C. unfold read_calls. cbn [map run call_input call_io]. unfold read.
  replace (0 <? capacity (buf r)) with true by lia.
  destruct (read_buffered container_ops r b n) as [[[r1 d] k]| | | |]; reflexivity.
Qed.

Lemma gets_run : forall w cap l rs p r, 1 <= w -> 0 < cap -> at_place w cap l p r -> len l * (w + 1) < 2 ^ 63 ->
  large_enough rs ->
  match gets w cap l p (map snd rs) with
  | None => run call_input r (read_calls rs) = UB OutOfBoundsRead
  | Some ds => exists r' answers, run call_input r (read_calls rs) = Ok (r', answers) /\ received answers = ds /\
      content (inner r') = l
  end.
Proof.
  intros w cap l rs. induction rs as [|[b n] rs IH]; intros p r W C A B G.
  - cbn. exists r, []. split; [reflexivity|]. split; [reflexivity|]. apply (ap_content _ _ _ _ _ A).
  - inversion G as [|? ? Hn G']; subst. cbn [map snd gets].
    assert (St := get_step w cap l p r b n W C A B Hn).
    rewrite run_read by (rewrite (ap_cap _ _ _ _ _ A); lia).
    destruct (get w cap l p n) as [[d q]|].
    + destruct St as (r' & -> & A'). cbn [bind]. specialize (IH q r' W C A' B G').
      destruct (gets w cap l q (map snd rs)) as [ds|].
      * destruct IH as (r2 & an & -> & Rc & Ct). cbn [bind]. eexists. eexists. split; [reflexivity|].
        split; [|exact Ct]. unfold received in *. cbn [flat_map]. rewrite Rc.
        rewrite take_app_exact. reflexivity.
      * rewrite IH. reflexivity.
    + rewrite St. reflexivity.
Qed.

Lemma all_gets_run : forall w cap l rs, 1 <= w -> (0 < cap)%nat -> len l * (w + 1) < 2 ^ 63 -> large_enough rs ->
  match all_gets w (Z.of_nat cap) l (map snd rs) with
  | None => run call_input (new_resource l w cap) (read_calls rs) = UB OutOfBoundsRead
  | Some ds => exists r' answers, run call_input (new_resource l w cap) (read_calls rs) = Ok (r', answers) /\
      received answers = ds /\ content (inner r') = l
  end.
Proof.
  intros w cap l rs W C B G. unfold all_gets. destruct rs as [|[b n] rs].
  - cbn. eexists. eexists. split; [reflexivity|]. split; reflexivity.
  - inversion G as [|? ? Hn G']; subst.
    destruct (first_read w cap l b n W C B Hn) as (r & A & E).
    assert (R := gets_run w (Z.of_nat cap) l ((b, n) :: rs) _ r W ltac:(lia) A B G).
    assert (X : run call_input (new_resource l w cap) (read_calls ((b, n) :: rs)) = run call_input r (read_calls ((b, n) :: rs))).
    { assert (K : capacity (buf (new_resource l w cap)) = Z.of_nat cap).
      { unfold capacity, new_resource, new_buffer. cbn [buf mem]. unfold size_of. now rewrite repeat_length. }
      rewrite !run_read by (rewrite ?K, ?(ap_cap _ _ _ _ _ A); lia). rewrite E. reflexivity. }
    rewrite X. exact R.
Qed.
