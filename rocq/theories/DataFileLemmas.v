(** Values on files. *)
From Coq Require Import NArith ZArith List Bool Lia ZifyBool ZifyNat ZifyN.
From Verif Require Import Base Integers UnicodeModel ResourceSpec ResourceModel ResourceText ResourceLemmas
  StreamSpec StreamModel StreamText StreamLemmas StreamLemmas2 StreamLemmas4
  FileSpec FileModel FileText FileLemmas FileLemmas2 FileLemmas3 FileLemmas4 FileLemmas6
  TextFileModel TextFileText TextFileLemmas TextFileLemmas2 TextFileLemmas3
  DataFileSpec DataFileModel DataFileText.
Import ListNotations.
Open Scope Z_scope.

(* ----------------------------------------------------------------- reading *)

(** One value: its bytes come as they are on the resource (both inversions cancel out). *)
Lemma data_read_gives : forall (R : Type) (sure : Prop) native o (ops : source R) biggest left d rest r w,
  text_source sure ops biggest left -> left (d ++ rest) r -> length d = w -> (0 < w)%nat -> Z.of_nat w <= biggest ->
  gives sure (data_read (order_of native) ops (order_of o) r w) (fun '(r', x) => x = d /\ left rest r').
Proof.
  intros R sure native o ops biggest left x rest r w G L D W B. unfold data_read, stream_read.
  assert (Lw : len x = Z.of_nat w) by (unfold len; lia).
  destruct (ts_read _ _ _ _ G _ _ (repeat 0%N w) (Z.of_nat w) L) as (r' & d & E & P & L' & Sd);
    [unfold len; rewrite repeat_length; lia|exact B|].
  rewrite <- Lw in P, Sd. rewrite take_app_exact in P, Sd. rewrite E. cbn [bind].
  assert (Ld : len d <= Z.of_nat w).
  { rewrite P, len_take, Lw by apply len_nonneg. lia. }
  assert (Lr : len (d ++ drop (len d) (repeat 0%N w)) = Z.of_nat w).
  { rewrite len_app. pose proof (len_nonneg d). rewrite len_drop by lia. unfold len at 2. rewrite repeat_length. lia. }
  destruct (Z.eq_dec (len d) (Z.of_nat w)) as [Full|Short].
  - assert (Ed : d = x) by (rewrite P; apply take_all; lia). clear Lr.
    rewrite Full in *. rewrite drop_all by (unfold len; rewrite repeat_length; lia). rewrite app_nil_r.
    rewrite <- Lw in L'. rewrite drop_app_exact in L'. rewrite Ed.
    assert (Ne : x <> []) by (intro X; rewrite X in Lw; cbn in Lw; lia).
    destruct (endian_eqb (order_of o) (order_of native)); cbn [negb bind].
    + rewrite Z.ltb_irrefl. cbn [bind]. apply gives_ok. auto.
    + rewrite <- Lw. rewrite (invert_whole x Ne). cbn [bind]. rewrite Z.ltb_irrefl.
      replace (len x) with (len (rev x)) by (unfold len; now rewrite rev_length).
      rewrite invert_whole by (intro X; apply (f_equal (@length N)) in X; rewrite rev_length in X; destruct x; [congruence|discriminate]).
      cbn [bind]. rewrite rev_involutive. apply gives_ok. auto.
  - right. split; [intro X; apply Short; rewrite (Sd X), Lw; reflexivity|].
    assert (Ne : d ++ drop (len d) (repeat 0%N w) <> []) by (intro X; rewrite X in Lr; cbn in Lr; lia).
    destruct (endian_eqb (order_of o) (order_of native)); cbn [negb bind].
    + rewrite (proj2 (Z.ltb_lt _ _)) by lia. reflexivity.
    + pose proof (invert_whole _ Ne) as Iv. rewrite Lr in Iv. rewrite Iv. cbn [bind]. rewrite (proj2 (Z.ltb_lt _ _)) by lia. reflexivity.
Qed.

(** What arrives when values in byte order o are read on a machine: the value itself if the
    machine has that byte order. *)
Definition arrives (native o : byte_order) (x : nat * N) : N := from_memory (order_of native) (in_order o (fst x) (snd x)).

Lemma arrives_same : forall o vs, Forall fits vs -> map (arrives o o) vs = map snd vs.
Proof.
  intros o vs F. induction F as [|[w v] vs Fx F IH]; [reflexivity|]. cbn [map]. rewrite IH. f_equal.
  unfold arrives. cbn [fst snd]. now apply from_memory_in_order.
Qed.

Lemma take_values_gives : forall (R : Type) (sure : Prop) native o' o (ops : source R) biggest left,
  text_source sure ops biggest left -> forall vs rest r, left (values_bytes o vs ++ rest) r ->
  Forall (fun x => (0 < fst x)%nat /\ Z.of_nat (fst x) <= biggest) vs ->
  gives sure (take_values (order_of native) ops (order_of o') r (map fst vs))
    (fun '(r', l) => l = map (arrives native o) vs /\ left rest r').
Proof.
  intros R sure native o' o ops biggest left G. induction vs as [|[w v] vs IH]; intros rest r L F; cbn [map take_values fst].
  - apply gives_ok. split; [reflexivity|exact L].
  - pose proof (Forall_inv F) as [W B]. apply Forall_inv_tail in F. cbn [fst] in W, B.
    rewrite values_bytes_cons, <- app_assoc in L.
    eapply gives_bind; [exact (data_read_gives R sure native o' ops biggest left _ _ r w G L (in_order_length _ _ _) W B)|].
    intros [r1 x] [-> L1]. eapply gives_bind; [exact (IH rest r1 L1 F)|]. intros [r2 l] [-> L2]. apply gives_ok. auto.
Qed.

(** Too few bytes are left. *)
Lemma data_read_few : forall (R : Type) native o (ops : source R) biggest left rest r w,
  text_source True ops biggest left -> left rest r -> len rest < Z.of_nat w -> Z.of_nat w <= biggest ->
  data_read (order_of native) ops (order_of o) r w = Throw ReadPastEnd.
Proof.
  intros R native o ops biggest left rest r w G L D B. unfold data_read, stream_read. pose proof (len_nonneg rest).
  destruct (ts_read _ _ _ _ G _ _ (repeat 0%N w) (Z.of_nat w) L) as (r' & d & E & P & L' & Sd);
    [unfold len; rewrite repeat_length; lia|exact B|].
  specialize (Sd I). rewrite take_all in Sd by lia. subst d. rewrite E. cbn [bind].
  assert (Lr : len (rest ++ drop (len rest) (repeat 0%N w)) = Z.of_nat w).
  { rewrite len_app. rewrite len_drop by lia. unfold len at 2. rewrite repeat_length. lia. }
  assert (Ne : rest ++ drop (len rest) (repeat 0%N w) <> []) by (intro X; rewrite X in Lr; cbn in Lr; lia).
  destruct (endian_eqb (order_of o) (order_of native)); cbn [negb bind].
  - rewrite (proj2 (Z.ltb_lt _ _)) by lia. reflexivity.
  - pose proof (invert_whole _ Ne) as Iv. rewrite Lr in Iv. rewrite Iv. cbn [bind]. rewrite (proj2 (Z.ltb_lt _ _)) by lia. reflexivity.
Qed.

(** Until the end. *)
Lemma take_all_values_ok : forall (R : Type) native o' o (ops : source R) biggest left w,
  text_source True ops biggest left -> (0 < w)%nat -> Z.of_nat w <= biggest ->
  forall vs rest fuel r, left (values_bytes o (map (pair w) vs) ++ rest) r -> len rest < Z.of_nat w -> (length vs < fuel)%nat ->
  match rest with
  | [] => exists r', take_all_values (order_of native) ops (order_of o') fuel r w
            = Ok (r', map (fun v => arrives native o (w, v)) vs) /\ left [] r'
  | _ => take_all_values (order_of native) ops (order_of o') fuel r w = Throw ReadPastEnd
  end.
Proof.
  intros R native o' o ops biggest left w G W B. induction vs as [|v vs IH]; intros rest fuel r L Lr F;
    (destruct fuel as [|fuel]; [cbn in F; lia|]); cbn [take_all_values]; rewrite (ts_at_end _ _ _ _ G _ _ L).
  - cbn [map values_bytes flat_map app] in *. cbn [bind]. destruct rest as [|b rest].
    + exists r. split; [reflexivity|exact L].
    + assert (X : (len (b :: rest) =? 0) = false) by (unfold len; cbn [length]; lia). rewrite X.
      rewrite (data_read_few R native o' ops biggest left _ r w G L Lr B). reflexivity.
  - cbn [map] in L. rewrite values_bytes_cons, <- app_assoc in L.
    assert (X : (len (values_bytes o (map (pair w) (v :: vs)) ++ rest) =? 0) = false).
    { cbn [map]. rewrite values_bytes_cons, <- app_assoc, len_app, len_in_order. pose proof (len_nonneg (values_bytes o (map (pair w) vs) ++ rest)). lia. }
    rewrite X. cbn [bind].
    destruct (gives_true _ _ _ (data_read_gives R True native o' ops biggest left _ _ r w G L (in_order_length _ _ _) W B))
      as ([r1 x] & E & -> & L1). rewrite E. cbn [bind]. cbn [length] in F.
    specialize (IH rest fuel r1 L1 Lr ltac:(lia)). destruct rest as [|b rest].
    + destruct IH as (r' & E' & L'). rewrite E'. cbn [bind]. exists r'. split; [reflexivity|exact L'].
    + rewrite IH. reflexivity.
Qed.

(* ----------------------------------------------------------------- writing *)

Lemma send_on_file : forall pl native o cap q m others vs l0 p0 f,
  mode_writes m = true -> 0 <= p0 -> Forall (fun x => (0 < fst x)%nat /\ Z.of_nat (fst x) <= chunk_max pl) vs ->
  p0 + len (values_bytes o vs) < 2 ^ 63 -> file_got pl cap q m others l0 p0 [] f ->
  exists f', send_values (order_of native) (file_sink pl) (order_of o) f vs = Ok f' /\
    file_got pl cap q m others l0 p0 (values_bytes o vs) f'.
Proof.
  intros pl native o cap q m others. induction vs as [|[w v] vs IH]; intros l0 p0 f Mw P0 F L H; cbn [send_values].
  - exists f. split; [reflexivity|exact H].
  - pose proof (Forall_inv F) as [W B]. apply Forall_inv_tail in F. cbn [fst] in W, B.
    rewrite values_bytes_cons in *. rewrite len_app in L. pose proof (len_nonneg (values_bytes o vs)).
    pose proof (len_in_order o w v) as Lw.
    destruct (data_write_ok native o (file_sink pl) _ _ [] f w v (file_good_sink pl cap q m others l0 p0 Mw P0) H W) as (f1 & E1 & H1).
    { cbn [app]. unfold most. lia. }
    cbn [app] in H1. rewrite E1. cbn [bind].
    destruct (IH (put l0 p0 (in_order o w v)) (p0 + len (in_order o w v)) f1 Mw ltac:(lia) F ltac:(lia) (file_rebase _ _ _ _ _ _ _ _ _ H1))
      as (f2 & E2 & pp & K2 & R2).
    exists f2. split; [exact E2|]. exists pp. rewrite put_app in K2 by exact P0. rewrite len_app. rewrite Z.add_assoc. auto.
Qed.

Lemma write_data_file_ok : forall pl native o w q old how cap (appending : bool) m vs,
  will_open w q how old -> obliging w -> Z.of_nat cap <= chunk_max pl -> mode_writes m = true ->
  Forall (fun x => (0 < fst x)%nat /\ Z.of_nat (fst x) <= chunk_max pl) vs ->
  len old + len (values_bytes o vs) < 2 ^ 63 ->
  exists w', write_data_file pl w q m how cap appending (order_of native) (order_of o) vs = Ok w' /\
    disk w' q = Some (put old (if appending then len old else 0) (values_bytes o vs)) /\
    (forall x, x <> q -> disk w' x = disk w x) /\ obliging w'.
Proof.
  intros pl native o w q old how cap appending m vs D B C Mw Pc L. pose proof (len_nonneg old). pose proof (len_nonneg (values_bytes o vs)).
  unfold write_data_file.
  destruct (new_file_opens pl w q old m how cap D ltac:(lia) B C) as (f & E & Pa & B1 & K). rewrite E. cbn [bind]. clear E.
  set (p0 := if appending then len old else 0).
  assert (P0 : 0 <= p0 <= len old) by (subst p0; destruct appending; lia).
  assert (A : exists f', (if appending then file_seek pl f 0 FromEnd else Ok f) = Ok f' /\
    file_got pl (Z.of_nat cap) q m (disk w) old p0 [] f').
  { destruct appending.
    - destruct (call_file_step pl _ q m (disk w) Resting _ f (SetPosition 0 End) K B1 eq_refl) as (f' & E & Pa' & B2 & K').
      + cbn [file_allowed]. unfold file_target. cbn [bytes]. split; [lia|discriminate].
      + discriminate.
      + cbn [call_file reference] in E. destruct (file_seek pl f 0 FromEnd) as [f1| | | |]; try discriminate. cbn [bind] in E.
        injection E as ->. exists f'. split; [reflexivity|]. unfold next_stage in K'. cbn [file_call fst] in K'. unfold file_target in K'. cbn [bytes] in K'.
        exists Resting. rewrite put_nil. unfold len at 1. cbn [length]. unfold p0. rewrite Z.add_0_r in *.
        split; [destruct (Z.of_nat cap =? 0); exact K'|]. split; [congruence|]. split; [discriminate|exact B2].
    - exists f. split; [reflexivity|]. exists Resting. rewrite put_nil. split; [exact K|]. split; [exact Pa|]. split; [discriminate|exact B1]. }
  destruct A as (f' & E & Hg). rewrite E. cbn [bind]. clear E.
  destruct (send_on_file pl native o (Z.of_nat cap) q m (disk w) vs old p0 f' Mw ltac:(lia) Pc ltac:(lia) Hg) as (f1 & E1 & Hg1).
  rewrite E1. cbn [bind].
  destruct (gk_flush _ _ _ (file_good_sink pl (Z.of_nat cap) q m (disk w) old p0 Mw ltac:(lia)) _ _ Hg1) as (f2 & E2 & Hg2).
  rewrite E2. cbn [bind noexcept].
  destruct Hg2 as (pp & K2 & Pa2 & Pr2 & B2).
  destruct (close_file pl (Z.of_nat cap) q m (disk w) pp _ f2 K2 B2 (fun _ => Mw)) as (f3 & E3 & _ & D3 & O3 & _ & B3 & _).
  unfold destroy. rewrite E3. cbn [bind]. eexists. split; [reflexivity|]. split; [exact D3|]. split; [exact O3|exact B3].
Qed.

Lemma suits_biggest : forall pl cap w, Z.of_nat w <= chunk_max pl -> roomy cap w ->
  Z.of_nat w <= file_biggest pl (Z.of_nat cap).
Proof. intros pl cap w C R. unfold file_biggest. destruct (Z.eqb_spec (Z.of_nat cap) 0); [exact C|]. destruct R; lia. Qed.

Lemma suits_values : forall pl cap vs, suits pl cap (map fst vs) ->
  Forall (fun x : nat * N => (0 < fst x)%nat /\ Z.of_nat (fst x) <= file_biggest pl (Z.of_nat cap)) vs.
Proof.
  intros pl cap vs S. unfold suits in S. rewrite Forall_map in S. eapply Forall_impl; [|exact S].
  intros x (W & C & R). split; [exact W|]. now apply suits_biggest.
Qed.

Lemma read_data_file_gives : forall Pr (sure : Prop) pl native o' o w q cap m vs rest,
  sound_responses pl sure Pr -> disk w q = Some (values_bytes o vs ++ rest) -> len (values_bytes o vs ++ rest) < 2 ^ 63 ->
  response_now w <> Refuse -> Forall Pr (script w) ->
  Z.of_nat cap <= chunk_max pl -> suits pl cap (map fst vs) -> mode_reads m = true ->
  gives sure (read_data_file pl w q m cap (order_of native) (order_of o') (map fst vs)) (fun '(w', xs) =>
    xs = map (arrives native o) vs /\ disk w' q = disk w q /\ (forall x, x <> q -> disk w' x = disk w x)).
Proof.
  intros Pr sure pl native o' o w q cap m vs rest Sp D L B Fr C Su Mr. unfold read_data_file.
  destruct (opened_left Pr pl w q cap m _ D L B Fr C) as (f & E & Lf). rewrite E. cbn [bind].
  eapply gives_bind.
  - exact (take_values_gives file sure native o' o (file_source pl) _ _
      (file_text_source Pr sure pl (Z.of_nat cap) q m (disk w) (values_bytes o vs ++ rest) Sp Mr) vs rest f Lf (suits_values pl cap vs Su)).
  - intros [f1 xs] [-> Lf']. destruct Lf' as (p & s & K' & _ & Pw & Bs & _).
    destruct (close_reader pl (Z.of_nat cap) q m (disk w) p s f1 K' Pw) as (f' & E' & D' & O' & _).
    unfold destroy. rewrite E'. cbn [bind]. apply gives_ok. split; [reflexivity|]. split; [|exact O'].
    rewrite D. unfold disk_of in D'. rewrite D'. now rewrite Bs.
Qed.

Lemma read_whole_file_ok : forall pl native o' o w q cap m width vs rest fuel,
  disk w q = Some (values_bytes o (map (pair width) vs) ++ rest) -> len (values_bytes o (map (pair width) vs) ++ rest) < 2 ^ 63 ->
  obliging w -> Z.of_nat cap <= chunk_max pl -> suits pl cap [width] -> mode_reads m = true ->
  len rest < Z.of_nat width -> (length vs < fuel)%nat ->
  match rest with
  | [] => exists w', read_whole_file pl w q m cap (order_of native) (order_of o') fuel width
            = Ok (w', map (fun v => arrives native o (width, v)) vs) /\ (forall x, disk w' x = disk w x)
  | _ => read_whole_file pl w q m cap (order_of native) (order_of o') fuel width = Throw ReadPastEnd
  end.
Proof.
  intros pl native o' o w q cap m width vs rest fuel D L B C Su Mr Lr F. unfold read_whole_file.
  destruct (opened_left (fun r => r = InFull) pl w q cap m _ D L (obliging_now w B) B C) as (f & E & Lf). rewrite E. cbn [bind].
  assert (Sp : sound_responses pl True (fun r => r = InFull)) by (split; [right; intros r ->; now left|intros _ r ->; discriminate]).
  pose proof (Forall_inv Su) as (W & Cw & R).
  pose proof (take_all_values_ok file native o' o (file_source pl) _ _ width
    (file_text_source _ True pl (Z.of_nat cap) q m (disk w) _ Sp Mr) W (suits_biggest pl cap width Cw R) vs rest fuel f Lf Lr F) as H.
  destruct rest as [|b rest].
  - destruct H as (f1 & E1 & Lf'). rewrite E1. cbn [bind]. destruct Lf' as (p & s & K' & _ & Pw & Bs & _).
    destruct (close_reader pl (Z.of_nat cap) q m (disk w) p s f1 K' Pw) as (f' & E' & D' & O' & _).
    unfold destroy. rewrite E'. cbn [bind]. eexists. split; [reflexivity|].
    intro x. destruct (N.eq_dec x q) as [->|X]; [|now apply O']. rewrite D. unfold disk_of in D'. rewrite D'. now rewrite Bs.
  - rewrite H. reflexivity.
Qed.
