From Coq Require Import NArith ZArith List Bool Lia ZifyBool ZifyNat ZifyN.
From Verif Require Import Base Integers UnicodeModel ResourceSpec ResourceModel ResourceText
  StreamSpec StreamModel StreamText SharedSpec SharedModel.
From Verif Require Import ResourceLemmas ResourceLemmas2 SharedLemmas StreamLemmas RelayText RelayLemmas.
From Verif Require EarlyLemmas.
From Verif Require Import PassSpec PassText.
Import ListNotations.
Open Scope Z_scope.

(** Two ends of something: [holds w own g r]: w was written, own of it can be read now, g bytes
    were read. *)
Record passage {R : Type} (src : source R) (snk : sink R) (biggest most total : Z)
    (holds : list N -> list N -> Z -> R -> Prop) : Prop := {
  pg_put : forall w own g r d, holds w own g r -> len d <= most -> len w + len d < total ->
    exists r' k own', sink_write snk r d = Ok (r', k) /\ holds (w ++ d) own' g r' /\ (own' = own \/ own' = w \/ own' = w ++ d);
  pg_flush : forall w own g r, holds w own g r -> exists r', sink_flush snk r = Ok r' /\ holds w w g r';
  pg_at : forall w own g r, holds w own g r -> 0 <= g <= len own;
  pg_source : forall w own, good_source src biggest (fun rest r => exists g, holds w own g r /\ rest = drop g own) }.

Section Pass.
Context {R : Type} (native : byte_order) (size : nat -> nat) (src : source R) (snk : sink R) (biggest most total : Z)
  (holds : list N -> list N -> Z -> R -> Prop) (Pg : passage src snk biggest most total holds).
Context (Small : forall i, (0 < size i)%nat /\ Z.of_nat (size i) <= biggest /\ Z.of_nat (size i) <= most).
Notation value_bytes := (value_bytes native size).

Lemma value_bytes_app : forall a i b, value_bytes i (a ++ b) = value_bytes i a ++ value_bytes (i + length a) b.
Proof.
  induction a as [|v a IH]; intros i b; cbn [value_bytes app length]; [now rewrite Nat.add_0_r|].
  rewrite IH, <- app_assoc. now rewrite Nat.add_succ_comm.
Qed.

(** The values P were read, U is still to be read, V of it is in the container. *)
Record holding (P U V : list N) (s : R) : Prop := {
  hd_pipe : holds (value_bytes 0 (P ++ U)) (value_bytes 0 (P ++ V)) (len (value_bytes 0 P)) s;
  hd_part : exists B, U = V ++ B }.

Lemma pass_runs : forall acts P U V s sure, values_fit size (P ++ U ++ all_values acts) ->
  len (value_bytes 0 (P ++ U ++ all_values acts)) < total ->
  holding P U V s -> (sure <= length V)%nat ->
  exists s' replies P' U' V',
    run_pass (order_of native) (order_of native) src snk size s (length (P ++ U)) (length P) acts = Ok (s', replies) /\
    passes sure U acts replies U' /\ holding P' U' V' s' /\ P' ++ U' = P ++ U ++ all_values acts.
Proof.
  assert (Same : endian_eqb (order_of native) (order_of native) = true) by (destruct native; reflexivity).
  induction acts as [|a acts IH]; intros P U V s sure Fit L Hd Su.
  - exists s, [], P, U, V. cbn [all_values flat_map]. rewrite app_nil_r.
    split; [reflexivity|]. split; [constructor|]. split; [exact Hd|reflexivity].
  - destruct Hd as [Hp [B Hb]]. destruct a as [v| |]; cbn [all_values flat_map app] in *.
    + fold (all_values acts) in *.
      assert (E0 : P ++ U ++ v :: all_values acts = P ++ (U ++ [v]) ++ all_values acts) by now rewrite <- app_assoc.
      assert (Lw : length (P ++ U ++ [v]) = S (length (P ++ U))) by (rewrite !app_length; cbn [length]; lia).
      assert (Vb : value_bytes 0 (P ++ U ++ [v]) = value_bytes 0 (P ++ U) ++ in_order native (size (length (P ++ U))) v).
      { rewrite app_assoc, value_bytes_app. cbn [PassSpec.value_bytes]. now rewrite app_nil_r. }
      destruct (Small (length (P ++ U))) as (_ & _ & Mo).
      assert (L1 : len (value_bytes 0 (P ++ U)) + len (in_order native (size (length (P ++ U))) v) < total).
      { rewrite E0, app_assoc, value_bytes_app, len_app, Vb, len_app in L.
        pose proof (len_nonneg (value_bytes (0 + length (P ++ U ++ [v])) (all_values acts))). lia. }
      destruct (pg_put _ _ _ _ _ _ Pg _ _ _ _ (in_order native (size (length (P ++ U))) v) Hp ltac:(rewrite len_in_order; lia) L1)
        as (s1 & k1 & own1 & E1 & V1 & Cases).
      rewrite <- Vb in V1, Cases.
      assert (exists x, holding P (U ++ [v]) (V ++ x) s1) as [x H1].
      { destruct Cases as [Cs|[Cs|Cs]]; subst own1.
        - exists []. rewrite app_nil_r. constructor; [exact V1|]. exists (B ++ [v]). now rewrite Hb, <- app_assoc.
        - exists B. rewrite <- Hb. constructor; [exact V1|]. now exists [v].
        - exists (B ++ [v]). rewrite app_assoc, <- Hb. constructor; [exact V1|]. exists []. now rewrite app_nil_r. }
      rewrite E0 in Fit, L |- *.
      destruct (IH P (U ++ [v]) (V ++ x) s1 sure Fit L H1) as (s' & replies & P' & U' & V' & E & H & K); [rewrite app_length; lia|].
      exists s', replies, P', U', V'. split; [|split; [now constructor|exact K]]. cbn [run_pass]. unfold data_write. rewrite Same.
      unfold stream_write. rewrite to_memory_in_order, E1. cbn [bind]. rewrite <- Lw. exact E.
    + destruct (pg_flush _ _ _ _ _ _ Pg _ _ _ _ Hp) as (s1 & E1 & V1).
      destruct (IH P U U s1 (length U) Fit L) as (s' & replies & P' & U' & V' & E & H & K); [|lia|].
      * constructor; try assumption. exists []. now rewrite app_nil_r.
      * exists s', replies, P', U', V'. cbn [run_pass]. rewrite E1. cbn [bind]. split; [exact E|split; [now constructor|exact K]].
    + fold (all_values acts) in *. destruct (Small (length P)) as (Pos & Big & _).
      pose proof (pg_source _ _ _ _ _ _ Pg (value_bytes 0 (P ++ U)) (value_bytes 0 (P ++ V))) as Gs.
      assert (Lf : exists g, holds (value_bytes 0 (P ++ U)) (value_bytes 0 (P ++ V)) g s /\
        value_bytes (length P) V = drop g (value_bytes 0 (P ++ V))).
      { exists (len (value_bytes 0 P)). split; [exact Hp|]. rewrite value_bytes_app. now rewrite drop_app_exact. }
      assert (Lr : len (repeat 0%N (size (length P))) = Z.of_nat (size (length P))) by (unfold len; now rewrite repeat_length).
      destruct (gs_read _ _ _ Gs _ _ (repeat 0%N (size (length P))) (Z.of_nat (size (length P))) Lf ltac:(lia) Big)
        as (s1 & E1 & (g' & V1 & D1)).
      pose proof (pg_at _ _ _ _ _ _ Pg _ _ _ _ V1) as A.
      cbn [run_pass]. unfold kept_data_read, stream_read. rewrite E1. cbn [bind]. rewrite Same. cbn [negb bind].
      destruct V as [|v V0]; cbn [PassSpec.value_bytes] in *.
      * replace (take (Z.of_nat (size (length P))) []) with (@nil N) in * by (unfold take; now rewrite firstn_nil).
        replace (drop (Z.of_nat (size (length P))) []) with (@nil N) in * by (unfold drop; now rewrite skipn_nil).
        cbn [app] in *. change (len []) with 0 in *. replace (0 <? Z.of_nat (size (length P))) with true by lia.
        assert (G' : g' = len (value_bytes 0 P)).
        { apply (f_equal len) in D1. rewrite len_drop in D1 by lia.
          rewrite app_nil_r in *. change (len []) with 0 in D1. lia. }
        subst g'. cbn [length] in Su. assert (sure = 0%nat) by lia. subst sure.
        destruct (IH P U [] s1 0%nat Fit L) as (s' & replies & P' & U' & V' & E & H & K); [|cbn; lia|].
        -- constructor; [exact V1|now exists B].
        -- exists s', (TooEarly :: replies), P', U', V'. rewrite E. split; [reflexivity|split; [now constructor|exact K]].
      * pose proof (len_in_order native (size (length P)) v) as Li.
        assert (T : take (Z.of_nat (size (length P))) (in_order native (size (length P)) v ++ value_bytes (S (length P)) V0)
          = in_order native (size (length P)) v) by (rewrite <- Li; apply take_app_exact).
        assert (Dr : drop (Z.of_nat (size (length P))) (in_order native (size (length P)) v ++ value_bytes (S (length P)) V0)
          = value_bytes (S (length P)) V0) by (rewrite <- Li; apply drop_app_exact).
        rewrite T in *. rewrite Li in *.
        replace (Z.of_nat (size (length P)) <? Z.of_nat (size (length P))) with false by lia.
        rewrite drop_all by lia. rewrite app_nil_r.
        assert (Fv : (v < 256 ^ N.of_nat (size (length P)))%N).
        { apply Fit. rewrite Hb. rewrite nth_error_app2, Nat.sub_diag by lia. reflexivity. }
        rewrite from_memory_in_order by exact Fv.
        assert (X : forall z, P ++ v :: z = (P ++ [v]) ++ z) by (intro z; now rewrite <- app_assoc).
        rewrite Hb in Fit, L, Hp, V1 |- *. cbn [app] in *. rewrite (X ((V0 ++ B) ++ all_values acts)) in Fit, L |- *.
        rewrite (X (V0 ++ B)) in V1 |- *. rewrite (X V0) in V1, A, D1.
        assert (G' : g' = len (value_bytes 0 (P ++ [v]))).
        { rewrite Dr in D1. apply (f_equal len) in D1. rewrite len_drop in D1 by lia.
          assert (Lo : len (value_bytes 0 ((P ++ [v]) ++ V0)) = len (value_bytes 0 (P ++ [v])) + len (value_bytes (S (length P)) V0)).
          { rewrite (value_bytes_app (P ++ [v])), len_app, app_length. cbn [length plus]. now rewrite Nat.add_1_r. }
          clear - A D1 Lo. pose proof (len_nonneg (value_bytes (S (length P)) V0)). lia. }
        subst g'.
        destruct (IH (P ++ [v]) (V0 ++ B) V0 s1 (sure - 1)%nat Fit L) as (s' & replies & P' & U' & V' & E & H & K).
        -- constructor; [exact V1|now exists B].
        -- cbn [length] in Su. lia.
        -- rewrite (app_length P [v]) in E. cbn [length] in E. rewrite Nat.add_1_r in E.
           exists s', (Value v :: replies), P', U', V'. rewrite E. split; [reflexivity|split; [now constructor|exact K]].
Qed.
End Pass.
