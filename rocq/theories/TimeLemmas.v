(** Elapsed times: lemmas. *)
From Coq Require Import NArith ZArith List Bool Lia.
From Coq Require Import ZifyBool ZifyNat ZifyN.
From Verif Require Import Base Integers UnicodeModel NumberModel NumeralSpec NumberText NumberLemmas NumberProps FloatModel FloatText FloatLemmas FloatLemmas2
  FloatLemmas5 FloatLemmas7 CompareLemmas TimeSpec TimeModel TimeText.
Import ListNotations.
Open Scope Z_scope.
Ltac Zify.zify_post_hook ::= idtac.

Definition U : Z := one F64.

Lemma U_pos : 0 < U.
Proof. apply pow2_pos. vm_compute. discriminate. Qed.

Lemma U_big : 2 ^ 60 <= U.
Proof. unfold U, one. apply Z.pow_le_mono_r; [lia|]. vm_compute. discriminate. Qed.

Lemma limit_U : limit_of F64 = 2 ^ 1024 * U.
Proof. unfold limit_of, U, one. rewrite <- Z.pow_add_r; [reflexivity|lia|vm_compute; discriminate]. Qed.

Lemma huge : 2 ^ 70 <= 2 ^ 1024.
Proof. apply Z.pow_le_mono_r; lia. Qed.

Lemma fits : forall x, Z.abs x <= 2 ^ 70 * U - 1 -> pack F64 x = Fin x.
Proof. intros x H. apply pack_small. rewrite limit_U. pose proof huge. pose proof U_pos. nia. Qed.

(** The two roundings. *)
Definition ticks_units (n : Z) : Z := round_units 53 (n * U).
Definition second_units (n : Z) : Z := round_ratio 53 (ticks_units n) billion.

Lemma ticks_error : forall n, 0 <= n -> 0 <= ticks_units n /\ Z.abs (ticks_units n - n * U) * 2 ^ 53 <= n * U.
Proof.
  intros n H. pose proof U_pos. split; [apply round_nonneg; nia|].
  pose proof (round_relative 53 (n * U) ltac:(lia)) as R. rewrite (Z.abs_eq (n * U)) in R by nia. rewrite Z.mul_comm. exact R.
Qed.

Lemma ticks_double : forall n, 0 <= n -> ticks_units n <= 2 * (n * U).
Proof.
  intros n H. destruct (ticks_error n H) as [A B]. pose proof U_pos.
  assert (0 <= n * U) by nia. set (x := n * U) in *. change (2 ^ 53) with 9007199254740992 in B. lia.
Qed.

Lemma seconds_units : forall n, 0 <= n < 2 ^ 63 -> seconds n = Fin (second_units n).
Proof.
  intros n H. unfold seconds, from_long_long, fround. fold U. change (prec F64) with 53. fold (ticks_units n).
  destruct (ticks_error n ltac:(lia)) as [A _]. pose proof (ticks_double n ltac:(lia)) as D. pose proof U_pos as P.
  assert (n * U <= (2 ^ 63 - 1) * U) by (apply Z.mul_le_mono_nonneg_r; lia).
  rewrite fits by (rewrite Z.abs_eq by lia; change (2 ^ 63) with 9223372036854775808 in *; change (2 ^ 70) with 1180591620717411303424; lia).
  unfold second_units, billion. set (x := ticks_units n) in *.
  pose proof (ratio_nonneg 53 x 1000000000 A ltac:(lia)) as R0. pose proof (ratio_double 53 x 1000000000 ltac:(lia) A ltac:(lia)) as R1.
  assert (E : Z.sgn x * round_ratio 53 (Z.abs x) 1000000000 = round_ratio 53 x 1000000000).
  { rewrite Z.abs_eq by lia. destruct (Z.eq_dec x 0) as [->|]; [|rewrite Z.sgn_pos by lia; lia].
    rewrite rr_zero by lia. lia. }
  rewrite E. apply fits. rewrite Z.abs_eq by lia.
  change (2 ^ 63) with 9223372036854775808 in *; change (2 ^ 70) with 1180591620717411303424. lia.
Qed.

Lemma second_nonneg : forall n, 0 <= n -> 0 <= second_units n.
Proof. intros n H. apply ratio_nonneg; [now apply ticks_error|reflexivity]. Qed.

Lemma second_mono : forall a b, 0 <= a <= b -> second_units a <= second_units b.
Proof.
  intros a b H. unfold second_units. pose proof U_pos. apply rr_mono; [lia|apply ticks_error; lia| |reflexivity].
  apply round_mono; [lia|nia].
Qed.

Lemma ratio_small : forall p a b, 0 < p -> 0 < b -> b * 2 ^ p <= 2 * a -> 0 <= a ->
  Z.abs (round_ratio p a b * b - a) * 2 ^ p <= a.
Proof.
  intros p a b Hp Hb H Ha. destruct (ratio_error p a b Hp Ha Hb) as [E|E]; [exact E|].
  pose proof (pow2_pos p ltac:(lia)) as P.
  assert (2 * Z.abs (round_ratio p a b * b - a) * 2 ^ p <= b * 2 ^ p) by (apply Z.mul_le_mono_nonneg_r; lia). lia.
Qed.

Lemma ticks_large : forall n, 1 <= n -> billion * 2 ^ 53 <= ticks_units n.
Proof.
  intros n H. destruct (ticks_error n ltac:(lia)) as [A B].
  assert (G : 2 ^ 90 <= n * U).
  { assert (2 ^ 90 <= U) by (unfold U, one; apply Z.pow_le_mono_r; [lia|vm_compute; discriminate]). pose proof U_pos. nia. }
  set (x := n * U) in *. change (2 ^ 53) with 9007199254740992 in *. change (2 ^ 90) with 1237940039285380274899124224 in G.
  unfold billion. lia.
Qed.

Lemma second_error : forall n, 0 <= n -> Z.abs (second_units n * billion - ticks_units n) * 2 ^ 53 <= ticks_units n.
Proof.
  intros n H. destruct (Z.eq_dec n 0) as [->|N].
  - unfold second_units. assert (E : ticks_units 0 = 0) by reflexivity. rewrite E, rr_zero by reflexivity. reflexivity.
  - pose proof (ticks_large n ltac:(lia)). apply ratio_small; [lia|reflexivity| |]; unfold billion in *; lia.
Qed.

Lemma second_close : forall n, 0 <= n -> Z.abs (second_units n * billion - n * U) * 2 ^ 51 <= n * U.
Proof.
  intros n H. pose proof (second_error n H) as E. destruct (ticks_error n H) as [A B].
  set (y := second_units n * billion) in *. set (x := ticks_units n) in *. set (z := n * U) in *.
  change (2 ^ 53) with 9007199254740992 in *. change (2 ^ 51) with 2251799813685248. lia.
Qed.

(** Whole seconds: exact as long as the count is exact in a double. *)
Lemma ticks_exact : forall n, 0 <= n < 2 ^ 53 -> ticks_units n = n * U.
Proof.
  intros n H. unfold ticks_units, U, one. apply rep_round; [lia|]. apply rep_scale; [vm_compute; discriminate|]. apply rep_small. lia.
Qed.

Lemma second_whole : forall n, 0 <= n < 2 ^ 53 -> whole F64 (second_units n) = n / billion.
Proof.
  intros n H. pose proof (second_error n ltac:(lia)) as E. rewrite (ticks_exact n H) in E.
  pose proof U_pos as P. unfold whole. fold U. symmetry.
  pose proof (Z.div_mod n billion ltac:(unfold billion; lia)) as D. pose proof (Z.mod_pos_bound n billion ltac:(unfold billion; lia)) as M.
  set (k := n / billion) in *. assert (K0 : 0 <= k) by (apply Z.div_pos; unfold billion; lia).
  assert (L : k * U <= second_units n).
  { unfold second_units. rewrite (ticks_exact n H).
    replace (k * U) with (round_ratio 53 (k * U * billion) billion).
    { apply rr_mono; [lia| | |reflexivity]; unfold billion in *; nia. }
    rewrite rr_cancel by (unfold billion; nia). rewrite round_ratio_1, <- round_units_nonneg by nia.
    apply (ticks_exact k). unfold billion in *. lia. }
  assert (Up : second_units n < (k + 1) * U).
  { assert (n * U < 2 ^ 53 * U) by (apply Z.mul_lt_mono_pos_r; lia).
    assert (X : second_units n * billion < n * U + U).
    { set (y := second_units n * billion) in *. change (2 ^ 53) with 9007199254740992 in *. lia. }
    assert ((n + 1) * U <= (k + 1) * billion * U) by (apply Z.mul_le_mono_nonneg_r; lia).
    unfold billion in *. lia. }
  assert (k * U + (second_units n - k * U) = second_units n) by ring.
  apply (Z.div_unique (second_units n) U k (second_units n - k * U)); lia.
Qed.

(* ------------------------------------------------------------ running sums *)

Lemma sum_step : forall s S d D k, 0 <= s -> 0 <= S -> 0 <= d -> 0 <= D -> 0 <= k -> k + 4 <= 2 ^ 52 ->
  Z.abs (s * billion - S) * 2 ^ 52 <= (k + 2) * S -> Z.abs (d * billion - D) * 2 ^ 51 <= D ->
  Z.abs (round_units 53 (s + d) * billion - (S + D)) * 2 ^ 52 <= (k + 3) * (S + D) /\ 0 <= round_units 53 (s + d).
Proof.
  intros s S d D k s0 S0 d0 D0 k0 K A B. split; [|apply round_nonneg; lia].
  pose proof (FloatLemmas7.round_relative 53 (s + d) ltac:(lia)) as R. rewrite (Z.abs_eq (s + d)) in R by lia.
  set (r := round_units 53 (s + d)) in *. unfold billion in *.
  change (2 ^ 51) with 2251799813685248 in *. change (2 ^ 52) with 4503599627370496 in *. change (2 ^ 53) with 9007199254740992 in *.
  assert (KD : 0 <= k * D) by nia.
  assert (KS : k * S <= 4503599627370492 * S) by (apply Z.mul_le_mono_nonneg_r; lia).
  assert (KD2 : k * D <= 4503599627370492 * D) by (apply Z.mul_le_mono_nonneg_r; lia).
  rewrite !Z.mul_add_distr_l, !Z.mul_add_distr_r in *. set (kS := k * S) in *. set (kD := k * D) in *. lia.
Qed.

Lemma sum_within : forall ds s S k, Forall (fun d => 0 <= d) ds -> 0 <= s -> 0 <= S -> 0 <= k ->
  k + Z.of_nat (length ds) + 4 <= 2 ^ 52 -> S + total_of ds * U < 2 ^ 63 * U ->
  Z.abs (s * billion - S) * 2 ^ 52 <= (k + 2) * S ->
  exists r, fold_left (fadd F64) (map seconds ds) (Fin s) = Fin r /\ 0 <= r /\
    Z.abs (r * billion - (S + total_of ds * U)) * 2 ^ 52 <= (k + Z.of_nat (length ds) + 2) * (S + total_of ds * U).
Proof.
  induction ds as [|d ds IH]; intros s S k F s0 S0 k0 K T A.
  - exists s. cbn [map fold_left length total_of fold_right]. change (Z.of_nat 0) with 0. rewrite Z.mul_0_l, !Z.add_0_r. auto.
  - apply Forall_cons_iff in F as [F0 F]. change (total_of (d :: ds)) with (d + total_of ds) in *.
    assert (T0 : 0 <= total_of ds).
    { clear - F. induction F as [|x l X F IHF]; [reflexivity|]. change (total_of (x :: l)) with (x + total_of l). lia. }
    pose proof U_pos as P. cbn [length] in *. rewrite Nat2Z.inj_succ in *. set (L := Z.of_nat (length ds)) in *.
    assert (TU : 0 <= total_of ds * U) by nia. rewrite Z.mul_add_distr_r in T |- *.
    assert (DU : 0 <= d * U) by nia.
    assert (Bd : d < 2 ^ 63) by nia.
    cbn [map fold_left]. rewrite seconds_units by lia. cbn [fadd]. unfold fround. change (prec F64) with 53.
    destruct (sum_step s S (second_units d) (d * U) k) as [X1 X2]; try assumption; try lia.
    { now apply second_nonneg. } { now apply second_close. }
    rewrite fits.
    2:{ rewrite Z.abs_eq by lia. set (r := round_units 53 (s + second_units d)) in *. set (Q := S + d * U) in *.
        assert (Q < 2 ^ 63 * U) by lia.
        assert (k * Q <= 4503599627370492 * Q) by (apply Z.mul_le_mono_nonneg_r; [unfold Q; lia|]; change (2 ^ 52) with 4503599627370496 in K; unfold L in K; lia).
        rewrite Z.mul_add_distr_r in X1. set (kQ := k * Q) in *. unfold billion in *.
        change (2 ^ 52) with 4503599627370496 in *. change (2 ^ 63) with 9223372036854775808 in *. change (2 ^ 70) with 1180591620717411303424. lia. }
    destruct (IH (round_units 53 (s + second_units d)) (S + d * U) (k + 1)) as (r & E & r0 & R); try assumption; try lia.
    exists r. split; [exact E|]. split; [exact r0|].
    replace (k + Z.succ L + 2) with (k + 1 + L + 2) by lia. replace (S + (d * U + total_of ds * U)) with (S + d * U + total_of ds * U) by ring. exact R.
Qed.

(* ---------------------------------------------------------------- the demo *)

Lemma demo_run_app : forall cs l1 l2 w, demo_run cs (l1 ++ l2) w = bind (demo_run cs l1 w) (demo_run cs l2).
Proof.
  induction l1 as [|o l1 IH]; intros l2 w; [reflexivity|]. cbn [app demo_run]. destruct o; try apply IH.
  destruct (demo_update cs (seconds n) w); cbn [bind]; try reflexivity. apply IH.
Qed.

Lemma counting_app : forall l1 l2 on, counting on (l1 ++ l2) = counting (counting on l1) l2.
Proof. induction l1 as [|[] l1 IH]; intros; cbn [app counting]; auto. Qed.

Lemma counted_app : forall l1 l2 on, counted on (l1 ++ l2) = counted on l1 ++ counted (counting on l1) l2.
Proof. induction l1 as [|[] l1 IH]; intros; cbn [app counting counted]; rewrite ?IH, ?app_assoc; reflexivity. Qed.

Definition is_space (o : occurrence) : bool := match o with SpaceBar => true | _ => false end.

Lemma since_space_snoc : forall l o, since_space (l ++ [o]) = if is_space o then [] else since_space l ++ [o].
Proof.
  induction l as [|x l IH]; intro o.
  - destruct o; reflexivity.
  - change ((x :: l) ++ [o]) with (x :: (l ++ [o])). cbn [since_space]. fold is_space. rewrite existsb_app. cbn [existsb]. rewrite orb_false_r, IH.
    change (fun o0 : occurrence => match o0 with SpaceBar => true | _ => false end) with is_space.
    destruct (existsb is_space l); cbn [orb]; [reflexivity|]. destruct (is_space o) eqn:Eo; [reflexivity|]. destruct x; reflexivity.
Qed.

Lemma since_quiet : forall l, Forall (fun o => is_space o = false) (since_space l).
Proof.
  induction l as [|o l IH] using rev_ind; [constructor|]. rewrite since_space_snoc. destruct (is_space o) eqn:E; [constructor|].
  apply Forall_app. auto.
Qed.

Lemma quiet_counting : forall l on, Forall (fun o => is_space o = false) l -> counting on l = on.
Proof. induction l as [|[] l IH]; intros on F; apply Forall_cons_iff in F as [F0 F] || idtac; cbn [counting]; auto; discriminate. Qed.

Lemma counted_split : forall l on, counting on l = true -> exists b, counted on l = b ++ counted true (since_space l).
Proof.
  induction l as [|o l IH] using rev_ind; intros on C; [exists []; reflexivity|].
  rewrite counting_app in C. rewrite counted_app, since_space_snoc.
  destruct o; cbn [is_space counting counted] in *.
  - destruct (IH on C) as (b & E). exists b. rewrite E, C, counted_app, quiet_counting by apply since_quiet.
    cbn [counted]. now rewrite <- !app_assoc.
  - exists (counted on l). reflexivity.
  - destruct (IH on C) as (b & E). exists b. rewrite E, counted_app, quiet_counting by apply since_quiet.
    cbn [counted]. now rewrite !app_nil_r.
Qed.

(** Times go forward: what is counted is ordered. *)
Fixpoint last_time (from : Z) (l : list occurrence) : Z :=
  match l with [] => from | Update n :: l => last_time n l | _ :: l => last_time from l end.

Lemma forward_app : forall l1 l2 from, forward from (l1 ++ l2) <-> forward from l1 /\ forward (last_time from l1) l2.
Proof.
  induction l1 as [|[] l1 IH]; intros l2 from; cbn [app forward last_time]; rewrite ?IH; tauto.
Qed.

Lemma last_time_ge : forall l from, forward from l -> from <= last_time from l.
Proof.
  induction l as [|[] l IH]; intros from F; cbn [forward last_time] in *; [lia| | |].
  - destruct F as [F0 F]. specialize (IH _ F). lia.
  - auto.
  - auto.
Qed.

Definition top (l : list Z) : Z := fold_right Z.max (-1) l.

Lemma top_app : forall a b, top (a ++ b) = Z.max (top a) (top b).
Proof.
  unfold top. induction a as [|x a IH]; intro b; cbn [app fold_right].
  - assert (-1 <= fold_right Z.max (-1) b) by (induction b; cbn [fold_right]; lia). lia.
  - rewrite IH. lia.
Qed.

Lemma top_below : forall l k, -1 < k -> forallb (fun j => j <? k) l = (top l <? k).
Proof. unfold top. induction l as [|x l IH]; intros k K; cbn [forallb fold_right]; [lia|]. rewrite IH by exact K. lia. Qed.

Lemma counted_top : forall l on from, 0 <= from -> forward from l -> top (counted on l) <= last_time from l / billion.
Proof.
  induction l as [|o l IH] using rev_ind; intros on from H F.
  - cbn [counted last_time]. change (top []) with (-1). pose proof (Z.div_pos from billion H ltac:(reflexivity)). lia.
  - apply forward_app in F as [F1 F2]. specialize (IH on from H F1). rewrite counted_app, top_app.
    assert (E : forall l2, last_time from (l ++ l2) = last_time (last_time from l) l2).
    { clear. intro l2. revert from. induction l as [|[] l IHl]; intro from; cbn [app last_time]; auto. }
    rewrite E. pose proof (last_time_ge l from F1). pose proof (Z.div_pos (last_time from l) billion ltac:(lia) ltac:(reflexivity)).
    destruct o; cbn [counted last_time forward] in *.
    + destruct F2 as [F2 _]. pose proof (Z.div_le_mono (last_time from l) n billion ltac:(reflexivity) F2).
      destruct (counting on l); cbn [app]; [change (top [n / billion]) with (Z.max (n / billion) (-1))|change (top []) with (-1)]; lia.
    + change (top []) with (-1). lia.
    + change (top []) with (-1). lia.
Qed.

(** The last one counted is the greatest. *)
Lemma counted_last : forall l on from k ks, 0 <= from -> forward from l -> counted on l = ks ++ [k] -> top (counted on l) = k.
Proof.
  induction l as [|o l IH] using rev_ind; intros on from k ks H F C; [destruct ks; discriminate|].
  apply forward_app in F as [F1 F2]. rewrite counted_app in C |- *. pose proof (counted_top l on from H F1) as T.
  destruct o; cbn [counted forward] in *; rewrite ?app_nil_r in *; try (now apply (IH on from k ks)).
  destruct (counting on l); cbn [app] in *; [|rewrite app_nil_r in *; now apply (IH on from k ks)].
  apply app_inj_tail in C as [_ <-]. rewrite top_app. change (top [n / billion]) with (Z.max (n / billion) (-1)).
  destruct F2 as [F2 _]. pose proof (Z.div_le_mono (last_time from l) n billion ltac:(reflexivity) F2).
  pose proof (last_time_ge l from F1). pose proof (Z.div_pos (last_time from l) billion ltac:(lia) ltac:(reflexivity)). lia.
Qed.

Lemma firstn_split : forall (b n : list Z), firstn (length (b ++ n) - length n) (b ++ n) = b.
Proof. intros. rewrite app_length. replace (length b + length n - length n)%nat with (length b) by lia. now rewrite firstn_app, Nat.sub_diag, firstn_O, app_nil_r, firstn_all. Qed.

Lemma whole_seconds_ok : forall n, 0 <= n < 2 ^ 53 -> whole_seconds (seconds n) = Ok (n / billion).
Proof.
  intros n H. rewrite seconds_units by (change (2 ^ 53) with 9007199254740992 in H; change (2 ^ 63) with 9223372036854775808; lia).
  unfold whole_seconds. rewrite second_whole by exact H.
  pose proof (Z.div_pos n billion ltac:(lia) ltac:(reflexivity)). pose proof (Z.div_le_mono n (2 ^ 53) billion ltac:(reflexivity) ltac:(lia)) as U2.
  change (2 ^ 53 / billion) with 9007199 in U2.
  change (min_of I32) with (-2147483648). change (max_of I32) with 2147483647.
  now replace ((-2147483648 <=? n / billion) && (n / billion <=? 2147483647)) with true by lia.
Qed.

Lemma seconds_shown : forall cs k, 0 <= k <= 9007199 -> exists s,
  format_integer K8 cs I32 k (IntegerFormat 10 OnlyWhenNegative SepComma) = Ok s /\ seconds_text k (s ++ [115%N]).
Proof.
  intros cs k H. destruct (C18_canonical_partial K8 cs I32 k (IntegerFormat 10 OnlyWhenNegative SepComma)) as (s & E & Nm & _).
  - vm_compute. tauto.
  - unfold in_range. change (min_of I32) with (-2147483648). change (max_of I32) with 2147483647. lia.
  - cbn [radix]. vm_compute. split; discriminate.
  - intros _. change (min_of I32) with (-2147483648). lia.
  - exists s. split; [exact E|]. exists s. auto.
Qed.

Lemma demo_invariant : forall cs l, forward 0 l -> before_time (2 ^ 53) l ->
  exists w, demo_run cs l new_demo = Ok w /\ show_counter w = counting false l /\
    last_counter_value w = top (counted false l) /\ titled demo_name l (shown_title w).
Proof.
  intros cs. induction l as [|o l IH] using rev_ind; intros F B.
  - exists new_demo. repeat split.
  - pose proof F as F0. apply forward_app in F as [F1 F2]. apply Forall_app in B as [B1 B2]. apply Forall_inv in B2.
    destruct (IH F1 B1) as (w & R & S1 & S2 & S3). clear IH. rewrite demo_run_app, R. cbn [bind].
    pose proof (counted_top l false 0 ltac:(lia) F1) as T. pose proof (last_time_ge l 0 F1) as T0.
    destruct o; cbn [demo_run forward] in *.
    + destruct F2 as [F2 _]. unfold demo_update. rewrite S1. destruct (counting false l) eqn:C.
      * rewrite whole_seconds_ok by lia. cbn [bind]. pose proof (Z.div_le_mono _ n billion ltac:(reflexivity) F2) as D.
        pose proof (Z.div_pos (last_time 0 l) billion T0 ltac:(reflexivity)) as D0.
        pose proof (Z.div_le_mono n (2 ^ 53) billion ltac:(reflexivity) ltac:(lia)) as D2. change (2 ^ 53 / billion) with 9007199 in D2.
        destruct (counted_split l false C) as (b & Eb).
        assert (Cn : counted true (since_space (l ++ [Update n])) = counted true (since_space l) ++ [n / billion]).
        { rewrite since_space_snoc. cbn [is_space]. rewrite counted_app, quiet_counting by apply since_quiet. reflexivity. }
        assert (Ca : counted false (l ++ [Update n]) = counted false l ++ [n / billion]) by (rewrite counted_app, C; reflexivity).
        assert (Cc : counting false (l ++ [Update n]) = true) by (rewrite counting_app, C; reflexivity).
        assert (Tn : top (counted false (l ++ [Update n])) = n / billion).
        { apply (counted_last _ _ 0 (n / billion) (counted false l)); [lia|exact F0|exact Ca]. }
        assert (Bf : firstn (length (counted false (l ++ [Update n])) - length (counted true (since_space (l ++ [Update n])))) (counted false (l ++ [Update n])) = b).
        { rewrite Cn, Ca, Eb, <- app_assoc. apply firstn_split. }
        rewrite S2. destruct (top (counted false l) <? n / billion) eqn:Lt.
        -- destruct (seconds_shown cs (n / billion) ltac:(lia)) as (s & Es & Ts). rewrite Es. cbn [bind].
           eexists. split; [reflexivity|]. cbn [show_counter last_counter_value shown_title]. split; [now rewrite Cc|]. split; [now rewrite Tn|].
           unfold titled. rewrite Cc, Bf, Cn, rev_unit. rewrite top_below by lia.
           rewrite Eb, top_app in Lt. replace (top b <? n / billion) with true by lia. exact Ts.
        -- cbn [bind]. exists w. split; [reflexivity|]. split; [now rewrite S1, Cc|]. split; [rewrite S2, Tn; lia|].
           unfold titled. rewrite Cc, Bf, Cn, rev_unit. rewrite top_below by lia.
           unfold titled in S3. rewrite C in S3. rewrite Eb, firstn_split in S3.
           destruct (counted true (since_space l)) as [|x now] eqn:En using rev_ind.
           ++ cbn [rev] in S3. rewrite app_nil_r in Eb. rewrite Eb in Lt. rewrite Lt. exact S3.
           ++ clear IHnow. rewrite rev_unit in S3. rewrite app_assoc in Eb.
              pose proof (counted_last l false 0 x (b ++ now) ltac:(lia) F1 Eb) as Tx. 
              assert (x = n / billion) as -> by lia. rewrite top_below in S3 by lia. exact S3.
      * exists w. split; [reflexivity|]. rewrite counting_app, counted_app, C. cbn [counting counted app]. rewrite app_nil_r.
        split; [exact S1|]. split; [exact S2|]. unfold titled in *. rewrite counting_app, C in *. cbn [counting]. exact S3.
    + eexists. split; [reflexivity|]. cbn [demo_key_down]. rewrite S1, counting_app, counted_app. cbn [counting counted]. rewrite app_nil_r.
      unfold titled in *. rewrite counting_app, since_space_snoc. cbn [counting is_space counted rev].
      destruct (counting false l); cbn [negb show_counter last_counter_value shown_title]; auto.
    + exists w. split; [reflexivity|]. rewrite counting_app, counted_app. cbn [counting counted]. rewrite app_nil_r. split; [exact S1|]. split; [exact S2|].
      unfold titled in *. rewrite counting_app, since_space_snoc. cbn [is_space]. rewrite !counted_app. cbn [counting counted]. rewrite !app_nil_r. exact S3.
Qed.
