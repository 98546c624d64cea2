(** The simulation of looks; refused titles. *)
From Coq Require Import NArith ZArith List Bool Lia.
Require Import ZifyBool ZifyNat ZifyN.
From Verif Require Import Base UnicodeSpec UnicodeModel UnicodeText UnicodeLemmas UnicodeLemmas2 UnicodeLemmas3 UnicodeProps KeySpec LookSpec LookModel LookText LookLemmas LookLemmas2.
Import ListNotations.
Open Scope N_scope.

Definition again (k : toolkit) (m : mode) : mode := match k with WindowsApi => Standard | _ => m end.

Definition look_right (k : toolkit) (a : look) (x : object) (w : native_window) : Prop :=
  match k with
  | WindowsApi =>
      visible w = shown a /\
      if seen a then placement w = shape a /\ show_command x = Standard
      else shown a = false /\ show_command x = shape a
  | Gtk => visible w = shown a /\ placement w = shape a
  | MacOS => visible w = shown a /\ placement w = shape a /\ shape a <> Minimized
  end.

Definition fine_mode (k : toolkit) (r : request) : Prop :=
  match r with Construct _ _ _ _ m _ | Open _ _ _ _ m _ | Rearrange _ m => k = MacOS -> m <> Minimized | _ => True end.

Lemma look_fine_open : forall k d r, moderate_display d -> fine_request k r -> fine_mode k r -> fine_open k d first_look (look_right k) r.
Proof.
  intros k d r D F Fm o w h t m c s O G E.
  destruct (get o (objects s)) as [x|] eqn:Gx; [|congruence].
  assert (Ft : moderate w /\ moderate h /\ plain_title k t) by (destruct O as [-> | ->]; exact F).
  assert (Nt : first_look r = {| shown := false; shape := m; seen := false |}) by (destruct O as [-> | ->]; reflexivity).
  assert (Nm : k = MacOS -> m <> Minimized) by (destruct O as [-> | ->]; exact Fm).
  destruct Ft as (F1 & F2 & F3).
  pose proof (opened k d o w h t m c s x D F1 F2 F3 Gx (E x eq_refl)) as P.
  destruct c as [i|]; [|exact P]. destruct P as (n & R & _ & V & Pl & _). eexists _, _. split; [exact R|].
  rewrite Nt. destruct k; cbn; auto.
Qed.

Lemma look_fine_change : forall k d rst r, fine_request k r -> fine_mode k r -> (k = MacOS -> forall o, r <> GetTitle o) ->
  (k = WindowsApi -> forall o, r <> GetTitle o) ->
  fine_change k d rst (relook (again k)) (look_right k) r.
Proof.
  intros k d rst r F Fm Q Q' o s x h w a T G E Gn P.
  destruct r as [| |o' nt|o'|o'|o'| |o' m|]; cbn [target] in T; try discriminate T; injection T as ->; cbn [run].
  - destruct F as (l' & L' & ->). unfold set_title, with_object, with_native. rewrite G, E.
    assert (X : exists s' w', Ok (Done, update_native h (set_text (native_title k l') w) s) = Ok (Done, s') /\
       (forall q, get q (objects s') = if o =? q then Some x else get q (objects s)) /\
       (forall q, get q (natives s') = if h =? q then Some (Some w') else get q (natives s)) /\
       associations s' = associations s /\ handle x = Some h /\ look_right k a x w').
    { eexists _, (set_text (native_title k l') w). split; [reflexivity|]. split; [other_updates|]. split; [other_updates|].
      split; [reflexivity|]. split; [assumption|]. destruct k; exact P. }
    destruct X as (s' & w' & X). cbn [relook]. exists Done, s', x, w'. destruct k.
    + rewrite (plain_to_wide WindowsApi l' L'). cbn [bind]. rewrite Gn, (plain_c_string WindowsApi l' L'). exact X.
    + rewrite Gn, (plain_c_string Gtk l' L'). exact X.
    + rewrite (plain_c_string MacOS l' L'), (plain_valid MacOS l' L'), Gn. exact X.
  - unfold get_title, with_object, with_native. rewrite G, E, Gn. cbn [bind relook].
    destruct k; [exfalso; apply (Q' eq_refl o); reflexivity| |exfalso; apply (Q eq_refl o); reflexivity].
    eexists _, s, x, w. split; [reflexivity|]. split; [other_updates|]. split; [other_updates|]. auto.
  - unfold show_window, with_object, with_native. rewrite G, E, Gn. cbn [relook].
    assert (V : says_visible k w = shown a).
    { destruct k; cbn [says_visible look_right] in *; destruct P as (-> & P); auto.
      destruct P as (-> & P). destruct (shape a); try congruence; apply andb_true_r. }
    rewrite V. destruct (shown a) eqn:Sa.
    + exists Done, s, x, w. split; [reflexivity|]. split; [other_updates|]. split; [other_updates|]. auto.
    + destruct k; cbn [look_right again] in *.
      * eexists _, _, _, _. split; [reflexivity|]. split; [other_updates|]. split; [other_updates|]. split; [reflexivity|]. split; [reflexivity|].
        cbn. destruct P as (_ & P). destruct (seen a); [destruct P as (_ & ->)|destruct P as (_ & ->)]; auto.
      * eexists _, _, x, _. split; [reflexivity|]. split; [other_updates|]. split; [other_updates|]. split; [reflexivity|]. split; [exact E|].
        cbn. destruct (seen a); tauto.
      * eexists _, _, x, _. split; [reflexivity|]. split; [other_updates|]. split; [other_updates|]. split; [reflexivity|]. split; [exact E|].
        destruct P as (_ & P & Pm).
        replace (if rst then match placement (set_visible true w) with Minimized => set_placement Standard (set_visible true w) | _ => set_visible true w end else set_visible true w)
          with (set_visible true w).
        2:{ cbn [set_visible placement]. rewrite P. destruct rst; [|reflexivity]. destruct (shape a); congruence. }
        cbn. destruct (seen a); tauto.
  - unfold hide_window, with_object, with_native. rewrite G, E, Gn. cbn [relook].
    eexists _, _, x, _. split; [reflexivity|]. split; [other_updates|]. split; [other_updates|]. split; [reflexivity|]. split; [exact E|].
    destruct k; cbn in *; try tauto. destruct (seen a); tauto.
  - unfold rearrange. rewrite G. destruct x as [hd cmd]. cbn [handle] in E. subst hd. rewrite Gn. cbn [relook].
    assert (V : visible w = shown a) by (destruct k; apply P). rewrite V.
    destruct (shown a) eqn:Sa.
    + eexists _, _, {| handle := Some h; show_command := cmd |}, _. split; [reflexivity|]. split; [other_updates|]. split; [other_updates|]. split; [reflexivity|]. split; [reflexivity|].
      destruct k; cbn in *; auto. destruct P as (_ & P). destruct (seen a); [|destruct P; congruence]. tauto.
    + exists Done, s, {| handle := Some h; show_command := cmd |}, w. split; [reflexivity|]. split; [other_updates|]. split; [other_updates|]. split; [reflexivity|]. split; [reflexivity|]. exact P.
Qed.

Lemma looks_simulated : forall k d rst l dk s dk',
  moderate_display d -> Forall (fine_request k) l -> Forall (fine_mode k) l -> no_questions l ->
  matches (look_right k) dk s -> looks (again k) l dk = Some dk' ->
  exists reps s', run_all k d rst l s = Ok (reps, s') /\ matches (look_right k) dk' s'.
Proof.
  intros k d rst l dk s dk' D F Fm Q M E. unfold looks in E.
  apply (steps_simulated k d rst first_look (relook (again k)) (look_right k) l dk s dk'); auto.
  apply Forall_forall. intros r Hr. unfold no_questions in Q. rewrite Forall_forall in F, Fm, Q. split; [|split].
  - apply look_fine_open; auto.
  - apply look_fine_change; auto.
  - apply fine_without; auto.
Qed.

Lemma look_seen : forall k dk s o, matches (look_right k) dk s -> on_screen o s = view o dk.
Proof.
  intros k dk s o (M & _). specialize (M o). unfold on_screen, native_of, view.
  destruct (get o (panes dk)) as [[|a|]|]; (destruct (get o (objects s)) as [x|]; [|try destruct M; reflexivity]); cbn [object_right] in M; try contradiction.
  - rewrite M. reflexivity.
  - destruct M as (h & w & E1 & E2 & _ & P). rewrite E1, E2.
    destruct k; cbn [look_right] in P.
    + destruct P as (-> & P). destruct (shown a) eqn:S; [|reflexivity]. destruct (seen a); [destruct P as (-> & _); reflexivity|destruct P; congruence].
    + destruct P as (-> & ->). reflexivity.
    + destruct P as (-> & -> & _). reflexivity.
  - destruct M as (h & E1 & E2). rewrite E1, E2. reflexivity.
Qed.

(* -------------------------------------------------------- refused titles *)

Lemma wide_append : forall s c, exists s', append_code_point KW2 s c = (s', Ok tt).
Proof.
  intros s c. unfold append_code_point, insert_code_point, str_insert, then_.
  replace (Nat.ltb (length s) (length s)) with false by (symmetry; apply Nat.ltb_irrefl).
  destruct (negb (is_surrogate c) && (c <=? maximum_bmp_code_point)); [eauto|].
  rewrite firstn_all, skipn_all. rewrite app_length. cbn [length].
  replace (Nat.ltb (length s + 1) (length s + 1)) with false by (symmetry; apply Nat.ltb_irrefl). eauto.
Qed.

Lemma wide_append_all : forall l s, exists s', append_all KW2 s l = Ok s'.
Proof.
  induction l as [|c l IH]; intro s; cbn [append_all]; [eauto|].
  destruct (wide_append s c) as (s' & ->). apply IH.
Qed.

Lemma loose_text_rest : forall e s1 l s2 m, loose_text e s1 l -> loose_text e (s1 ++ s2) m -> exists m', loose_text e s2 m'.
Proof.
  intros e s1 l s2 m L. revert s2 m. induction L as [|bs c s l B L IH]; intros s2 m M; [eauto|].
  rewrite <- app_assoc in M. remember (bs ++ s ++ s2) as t eqn:E.
  destruct M as [|bs' c' s' l' B' M'].
  - symmetry in E. apply app_eq_nil in E as [E _]. destruct (loose_nonempty _ _ _ B E).
  - destruct (loose_det _ _ _ _ _ _ _ B' B E) as [Eb _]. subst bs'. apply app_inv_head in E. subst s'. eapply IH; eauto.
Qed.

(** Exactly the titles that can be decoded (leniently) are converted. *)
Lemma to_wide_exact : forall t, Forall (fun u => u < 256) t ->
  ((exists l, loose_text UTF8 t l) /\ exists w, convert_string KW2 K8 t = Ok w) \/
  (~ (exists l, loose_text UTF8 t l) /\
   (convert_string KW2 K8 t = Throw InvalidUnicodeEncoding \/ convert_string KW2 K8 t = Throw IteratedPastEnd)).
Proof.
  intros t H. unfold convert_string. rewrite convert_visit. fold (visit K8 t).
  destruct (C10_iteration_exact K8 t) as (s1 & s2 & l & E & L & V & T); [discriminate|exact H|].
  destruct (visit K8 t) as [vl vr]. cbn [fst snd] in *.
  destruct (wide_append_all vl []) as (w & ->). cbn [bind].
  destruct T as [[-> ->]|(N2 & No & T)].
  - left. rewrite app_nil_r in E. subst. cbn [bind]. eauto.
  - right. split.
    + intros (m & M). rewrite E in M. destruct (loose_text_rest _ _ _ _ _ L M) as (m' & M').
      destruct M' as [|bs c s' l' B M']; [congruence|]. exact (No _ _ _ eq_refl B).
    + destruct T as [(_ & ->)|(_ & ->)]; cbn [bind]; auto.
Qed.

(* --------------------------------------------------------- without window *)

Lemma native_of_ext : forall s s', natives s' = natives s ->
  (forall o, match get o (objects s) with
             | Some x => exists y, get o (objects s') = Some y /\ handle y = handle x
             | None => get o (objects s') = None end) ->
  forall o, native_of o s' = native_of o s.
Proof.
  intros s s' En H o. specialize (H o). unfold native_of. destruct (get o (objects s)) as [x|].
  - destruct H as (y & -> & ->). rewrite En. reflexivity.
  - rewrite H. reflexivity.
Qed.

Lemma without_window : forall k d rst o s x r,
  get o (objects s) = Some x ->
  handle x = None \/ (k = WindowsApi /\ exists h, handle x = Some h /\ get h (natives s) = Some None) ->
  asks o r -> (k = MacOS -> r <> GetTitle o) ->
  exists rep s', run k d rst r s = Ok (rep, s') /\ (r = GetTitle o -> rep = Title []) /\
    natives s' = natives s /\ associations s' = associations s /\
    exists y, handle y = handle x /\ forall q, get q (objects s') = if o =? q then Some y else get q (objects s).
Proof.
  intros k d rst o s x r G H R Q.
  assert (Same : exists y, handle y = handle x /\ forall q, get q (objects s) = if o =? q then Some y else get q (objects s)).
  { exists x. split; [reflexivity|]. other_updates. }
  destruct R as [(t & -> & T)|[->|[-> | ->]]]; cbn [run].
  - unfold set_title, with_object, with_native. rewrite G. destruct k.
    + destruct (to_wide_exact t T) as [(_ & w & ->)|(_ & [-> | ->])]; cbn [bind].
      * exists Done, s. split; [|split; [discriminate|auto]]. destruct H as [-> |(_ & h & -> & ->)]; reflexivity.
      * eexists _, s. split; [reflexivity|]. split; [discriminate|auto].
      * eexists _, s. split; [reflexivity|]. split; [discriminate|auto].
    + destruct H as [H|(H & _)]; [|discriminate H]. rewrite H in *. exists Done, s. split; [reflexivity|]. split; [discriminate|auto].
    + destruct H as [H|(H & _)]; [|discriminate H]. rewrite H in *. exists Done, s.
      split; [destruct (valid_utf8 0 0 0 (c_string t)); reflexivity|]. split; [discriminate|auto].
  - unfold get_title, with_object, with_native. rewrite G.
    exists (Title []), s. split; [|auto].
    destruct H as [-> |(-> & h & -> & ->)]; [|reflexivity]. destruct k; [reflexivity..|]. destruct (Q eq_refl eq_refl).
  - unfold show_window, with_object, with_native. rewrite G.
    destruct H as [H|(-> & h & H & Hn)].
    + rewrite H in *. destruct k.
      * eexists _, _. split; [reflexivity|]. split; [discriminate|]. split; [reflexivity|]. split; [reflexivity|].
        exists {| handle := None; show_command := Standard |}. split; [reflexivity|]. other_updates.
      * eexists _, s. split; [reflexivity|]. split; [discriminate|auto].
      * eexists _, s. split; [reflexivity|]. split; [discriminate|auto].
    + rewrite H, Hn in *. eexists _, _. split; [reflexivity|]. split; [discriminate|]. split; [reflexivity|]. split; [reflexivity|].
      exists {| handle := Some h; show_command := Standard |}. split; [reflexivity|]. other_updates.
  - unfold hide_window, with_object, with_native. rewrite G. exists Done, s. split; [|split; [discriminate|auto]].
    destruct H as [-> |(-> & h & -> & ->)]; reflexivity.
Qed.
