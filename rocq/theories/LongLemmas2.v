(** Reads of one size, over and over; reads after a long one. *)
From Coq Require Import NArith ZArith List Bool Lia.
From Coq Require Import ZifyBool ZifyNat ZifyN.
From Verif Require Import Base ResourceSpec ResourceLemmas LongSpec.
Import ListNotations.
Open Scope Z_scope.

Lemma map_snd_repeat : forall (b : list N) (n : Z) k, map snd (repeat (b, n) k) = repeat n k.
Proof. intros b n k. induction k as [|k IH]; [reflexivity|]. cbn [repeat map snd]. now rewrite IH. Qed.

(** One that the buffer and one refill can serve. *)
Lemma get_short : forall cap l p n d, 0 < cap -> 0 < d -> n = cap + d -> win p = cap -> 0 <= used p ->
  used p + d <= cap -> 0 <= dev p -> dev p + cap + cap <= len l ->
  exists x, get 1 cap l p n = Some (x, Place (dev p + cap) cap (used p + d)).
Proof.
  intros cap l p n d C D N W U R P L. unfold get. cbv zeta. rewrite W.
  replace (n - (cap - used p) <=? 0) with false by lia.
  replace (n - (cap - used p) <=? cap) with true by lia.
  replace (len l <? dev p + cap * 1) with false by lia.
  unfold refill. cbn [dev win]. rewrite (Z.min_l cap) by lia.
  rewrite (Z.min_l (n - (cap - used p))) by lia. eexists. f_equal. f_equal. f_equal; lia.
Qed.

(** Zeros, as far as the window goes, and then n ones. *)
Definition steps (a b : Z) : list N := repeat 0%N (Z.to_nat a) ++ repeat 1%N (Z.to_nat b).

Lemma nth_repeat_in : forall (x : N) n i, (i < n)%nat -> nth i (repeat x n) 9%N = x.
Proof. intros x n i I. apply (repeat_spec n x). apply nth_In. now rewrite repeat_length. Qed.

Lemma len_steps : forall a b, 0 <= a -> 0 <= b -> len (steps a b) = a + b.
Proof. intros a b A B. unfold steps, len. rewrite app_length, !repeat_length. lia. Qed.

Lemma nth_steps_low : forall a b i, 0 <= i < a -> nth (Z.to_nat i) (steps a b) 9%N = 0%N.
Proof. intros a b i I. unfold steps. rewrite app_nth1 by (rewrite repeat_length; lia). apply nth_repeat_in. lia. Qed.

Lemma nth_steps_high : forall a b i, 0 <= a -> a <= i < a + b -> nth (Z.to_nat i) (steps a b) 9%N = 1%N.
Proof.
  intros a b i A I. unfold steps. rewrite app_nth2 by (rewrite repeat_length; lia). rewrite repeat_length.
  apply nth_repeat_in. lia.
Qed.

Lemma nth_drop : forall (l : list N) i j, 0 <= i -> 0 <= j -> nth (Z.to_nat i) (drop j l) 9%N = nth (Z.to_nat (i + j)) l 9%N.
Proof.
  intros l i j I J. unfold drop. rewrite Z2Nat.inj_add by lia. generalize (Z.to_nat j), (Z.to_nat i). intros m. revert l.
  induction m as [|m IH]; intros l k; [now rewrite Nat.add_0_r|]. destruct l as [|x l].
  - cbn [skipn]. destruct (k + Datatypes.S m)%nat; destruct k; reflexivity.
  - rewrite Nat.add_succ_r. cbn [skipn nth]. apply IH.
Qed.

Lemma nth_take : forall (l : list N) i n, 0 <= i < n -> nth (Z.to_nat i) (take n l) 9%N = nth (Z.to_nat i) l 9%N.
Proof.
  intros l i n I. unfold take. assert (H : (Z.to_nat i < Z.to_nat n)%nat) by lia. revert H.
  generalize (Z.to_nat n), (Z.to_nat i). intros m. revert l.
  induction m as [|m IH]; intros l k H; [lia|]. destruct l as [|x l]; [reflexivity|].
  destruct k as [|k]; [reflexivity|]. cbn [firstn nth]. apply IH. lia.
Qed.

(** Sooner or later the rest is longer than the buffer. *)
Lemma gets_wrong : forall cap d jj m j, 0 < cap -> 0 < d -> 0 <= j -> jj = j + Z.of_nat m ->
  jj * d <= cap -> cap < (jj + 1) * d ->
  let l := steps ((jj + 1) * cap) (cap + d) in
  exists ds, gets 1 cap l (Place (j * cap) cap (j * d)) (repeat (cap + d) (m + 1)) = Some ds /\
    ds <> blocks (drop (j * (cap + d)) l) (repeat (cap + d) (m + 1)).
Proof.
  intros cap d jj m. induction m as [|m IH]; intros j C D J E L1 L2 l.
  - assert (Ej : jj = j) by lia. clear E. subst jj.
    assert (Ll : len l = (j + 1) * cap + (cap + d)) by (unfold l; apply len_steps; nia).
    change (repeat (cap + d) (0 + 1)) with [cap + d]. cbn [gets blocks].
    unfold get. cbv zeta. unfold window_start. cbn [dev win used].
    replace (cap + d - (cap - j * d) <=? 0) with false by nia.
    replace (cap + d - (cap - j * d) <=? cap) with false by nia.
    replace (j * cap <? 0) with false by nia.
    rewrite Z.min_r by nia. set (a := cap - j * d). eexists. split; [reflexivity|]. intros H. injection H as H.
    set (first := take a (drop (j * cap + cap * 1 - cap + j * d) l)) in *.
    assert (Lf : len first = a).
    { unfold first. rewrite len_take, len_drop by nia. rewrite Ll. unfold a. nia. }
    assert (X := f_equal (fun t => nth (Z.to_nat a) t 9%N) H). cbv beta in X.
    rewrite nth_take in X by (unfold a; nia). rewrite nth_drop in X by (unfold a; nia).
    unfold l in X at 2. rewrite nth_steps_high in X by (unfold a; nia).
    rewrite app_nth2 in X by (unfold len in Lf; lia).
    replace (Z.to_nat a - length first)%nat with (Z.to_nat 0) in X by (unfold len in Lf; lia).
    rewrite nth_take in X by (unfold a; nia). rewrite nth_drop in X by nia.
    unfold l in X. rewrite nth_steps_low in X by nia. discriminate.
  - assert (Ll : len l = (jj + 1) * cap + (cap + d)) by (unfold l; apply len_steps; nia).
    change (repeat (cap + d) (Datatypes.S m + 1)) with ((cap + d) :: repeat (cap + d) (m + 1)). cbn [gets blocks].
    destruct (get_short cap l (Place (j * cap) cap (j * d)) (cap + d) d) as (x & G); cbn [win used dev]; try nia.
    rewrite G. cbn [dev used].
    replace (j * cap + cap) with ((j + 1) * cap) by lia. replace (j * d + d) with ((j + 1) * d) by lia.
    rewrite drop_drop by nia. replace (j * (cap + d) + (cap + d)) with ((j + 1) * (cap + d)) by lia.
    destruct (IH (j + 1)) as (ds & E2 & Ne); try lia. fold l in E2, Ne. rewrite E2.
    eexists. split; [reflexivity|]. intros H. injection H as _ H. exact (Ne H).
Qed.

Lemma all_gets_wrong : forall cap n, 0 < cap -> cap < n -> exists l k,
  len l <= (cap + 2) * cap + n /\
  exists ds, all_gets 1 cap l (repeat n k) = Some ds /\ ds <> blocks l (repeat n k).
Proof.
  intros cap n C N. set (d := n - cap). set (jj := cap / d).
  assert (D : 0 < d) by (unfold d; lia).
  assert (Q := Z.div_mod cap d ltac:(lia)). assert (M := Z.mod_pos_bound cap d D). fold jj in Q.
  assert (J : 0 <= jj) by (apply Z.div_pos; lia). assert (Jc : jj <= cap) by nia.
  exists (steps ((jj + 1) * cap) (cap + d)), (Z.to_nat jj + 1)%nat.
  assert (Ll : len (steps ((jj + 1) * cap) (cap + d)) = (jj + 1) * cap + (cap + d)) by (apply len_steps; nia).
  split; [rewrite Ll; unfold d; nia|].
  unfold all_gets, refill. rewrite Ll. rewrite Z.min_l by nia.
  replace n with (cap + d) by (unfold d; lia).
  assert (G := gets_wrong cap d jj (Z.to_nat jj) 0 C D ltac:(lia) ltac:(lia) ltac:(lia) ltac:(lia)). cbv zeta in G.
  rewrite !Z.mul_0_l, drop_0 in G.
  replace (0 + cap - cap * 1) with 0 by lia. exact G.
Qed.

(** A long first read that reaches the end, and then a short one. *)
Lemma gets_after_end : forall cap l n m, 0 < cap -> 0 < len l -> len l < n -> cap + Z.min cap (len l) < n ->
  1 <= m <= cap -> all_gets 1 cap l [n; m] = None.
Proof.
  intros cap l n m C L N1 N2 M. unfold all_gets, refill. rewrite Z.sub_0_r, !Z.mul_1_r, Z.add_simpl_r.
  set (f := Z.min cap (len l)) in *. cbn [gets]. unfold get at 1. cbn [win used dev]. cbv zeta.
  replace (n - (f - 0) <=? 0) with false by lia. replace (n - (f - 0) <=? cap) with false by lia.
  replace (0 <? 0) with false by lia. unfold get. cbn [win used dev]. cbv zeta.
  replace (m - (f - f) <=? 0) with false by lia. replace (m - (f - f) <=? cap) with true by lia.
  rewrite drop_0, len_take by lia.
  replace (len l <? 0 + Z.min (n - (f - 0)) (len l) + f * 1) with true by lia. reflexivity.
Qed.

(** Elements of several bytes: a long first read. *)
Lemma gets_wide : forall w cap l n, 2 <= w -> 0 < cap -> 0 < len l -> cap + Z.min cap (len l) < n ->
  all_gets w cap l [n] = None.
Proof.
  intros w cap l n W C L N. unfold all_gets, refill. rewrite Z.sub_0_r. set (f := Z.min cap (len l)) in *.
  cbn [gets]. unfold get. cbn [win used dev]. cbv zeta.
  replace (n - (f - 0) <=? 0) with false by lia. replace (n - (f - 0) <=? cap) with false by lia.
  replace (0 + f - f * w <? 0) with true by nia. reflexivity.
Qed.
