(** The simulation of sizes, and of looks on macOS with minimized windows. *)
From Coq Require Import NArith ZArith List Bool Lia.
Require Import ZifyBool ZifyNat ZifyN.
From Verif Require Import Base UnicodeSpec KeySpec LookSpec LookSpec2 LookModel LookText LookLemmas LookLemmas2.
Import ListNotations.
Open Scope N_scope.

Definition size_right (k : toolkit) (d : display) (a : Z * Z) (x : object) (w : native_window) : Prop :=
  inside w = a /\ (k = WindowsApi -> place d (fst a) (snd a) = Ok (corner w)).

Lemma size_fine_open : forall k d r, moderate_display d -> fine_request k r -> fine_open k d size_given (size_right k d) r.
Proof.
  intros k d r D F o w h t m c s O G E.
  destruct (get o (objects s)) as [x|] eqn:Gx; [|congruence].
  assert (Ft : moderate w /\ moderate h /\ plain_title k t) by (destruct O as [-> | ->]; exact F).
  assert (Nt : size_given r = (w, h)) by (destruct O as [-> | ->]; reflexivity).
  destruct Ft as (F1 & F2 & F3).
  pose proof (opened k d o w h t m c s x D F1 F2 F3 Gx (E x eq_refl)) as P.
  destruct c as [i|]; [|exact P]. destruct P as (n & R & _ & _ & _ & I & C). eexists _, _. split; [exact R|].
  rewrite Nt. split; [exact I|exact C].
Qed.

Lemma size_fine_change : forall k d rst r, fine_request k r -> (forall o, r <> GetTitle o) ->
  fine_change k d rst (fun _ x => x) (size_right k d) r.
Proof.
  intros k d rst r F Q o s x h w a T G E Gn P.
  destruct r as [| |o' nt|o'|o'|o'| |o' m|]; cbn [target] in T; try discriminate T; injection T as ->; cbn [run].
  - destruct F as (l' & L' & ->). unfold set_title, with_object, with_native. rewrite G, E.
    assert (X : exists s' w', Ok (Done, update_native h (set_text (native_title k l') w) s) = Ok (Done, s') /\
       (forall q, get q (objects s') = if o =? q then Some x else get q (objects s)) /\
       (forall q, get q (natives s') = if h =? q then Some (Some w') else get q (natives s)) /\
       associations s' = associations s /\ handle x = Some h /\ size_right k d a x w').
    { eexists _, (set_text (native_title k l') w). split; [reflexivity|]. split; [other_updates|]. split; [other_updates|].
      split; [reflexivity|]. split; [assumption|]. exact P. }
    destruct X as (s' & w' & X). exists Done, s', x, w'. destruct k.
    + rewrite (plain_to_wide WindowsApi l' L'). cbn [bind]. rewrite Gn, (plain_c_string WindowsApi l' L'). exact X.
    + rewrite Gn, (plain_c_string Gtk l' L'). exact X.
    + rewrite (plain_c_string MacOS l' L'), (plain_valid MacOS l' L'), Gn. exact X.
  - exfalso. exact (Q o eq_refl).
  - unfold show_window, with_object, with_native. rewrite G, E, Gn.
    destruct (says_visible k w).
    + exists Done, s, x, w. split; [reflexivity|]. split; [other_updates|]. split; [other_updates|]. auto.
    + destruct k.
      * eexists _, _, _, _. split; [reflexivity|]. split; [other_updates|]. split; [other_updates|]. split; [reflexivity|]. split; [reflexivity|]. exact P.
      * eexists _, _, x, _. split; [reflexivity|]. split; [other_updates|]. split; [other_updates|]. split; [reflexivity|]. split; [exact E|]. exact P.
      * eexists _, _, x, _. split; [reflexivity|]. split; [other_updates|]. split; [other_updates|]. split; [reflexivity|]. split; [exact E|].
        destruct rst, (placement (set_visible true w)); exact P.
  - unfold hide_window, with_object, with_native. rewrite G, E, Gn.
    eexists _, _, x, _. split; [reflexivity|]. split; [other_updates|]. split; [other_updates|]. split; [reflexivity|]. split; [exact E|]. exact P.
  - unfold rearrange. rewrite G. destruct x as [hd cmd]. cbn [handle] in E. subst hd. rewrite Gn.
    destruct (visible w).
    + eexists _, _, {| handle := Some h; show_command := cmd |}, _. split; [reflexivity|]. split; [other_updates|]. split; [other_updates|]. split; [reflexivity|]. split; [reflexivity|]. exact P.
    + exists Done, s, {| handle := Some h; show_command := cmd |}, w. split; [reflexivity|]. split; [other_updates|]. split; [other_updates|]. split; [reflexivity|]. split; [reflexivity|]. exact P.
Qed.

Lemma sizes_simulated : forall k d rst l dk s dk',
  moderate_display d -> Forall (fine_request k) l -> no_questions l ->
  matches (size_right k d) dk s -> sizes l dk = Some dk' ->
  exists reps s', run_all k d rst l s = Ok (reps, s') /\ matches (size_right k d) dk' s'.
Proof.
  intros k d rst l dk s dk' D F Q M E. unfold sizes in E.
  apply (steps_simulated k d rst size_given (fun _ x => x) (size_right k d) l dk s dk'); auto.
  apply Forall_forall. intros r Hr. unfold no_questions in Q. rewrite Forall_forall in F, Q. split; [|split].
  - apply size_fine_open; auto.
  - apply size_fine_change; auto.
  - apply fine_without; auto.
Qed.

Definition mac_right (a : look) (x : object) (w : native_window) : Prop := visible w = shown a /\ placement w = shape a.

Lemma mac_fine_open : forall d r, moderate_display d -> fine_request MacOS r -> fine_open MacOS d first_look mac_right r.
Proof.
  intros d r D F o w h t m c s O G E.
  destruct (get o (objects s)) as [x|] eqn:Gx; [|congruence].
  assert (Ft : moderate w /\ moderate h /\ plain_title MacOS t) by (destruct O as [-> | ->]; exact F).
  assert (Nt : first_look r = {| shown := false; shape := m; seen := false |}) by (destruct O as [-> | ->]; reflexivity).
  destruct Ft as (F1 & F2 & F3).
  pose proof (opened MacOS d o w h t m c s x D F1 F2 F3 Gx (E x eq_refl)) as P.
  destruct c as [i|]; [|exact P]. destruct P as (n & R & _ & V & Pl & _). eexists _, _. split; [exact R|].
  rewrite Nt. split; assumption.
Qed.

Lemma mac_fine_change : forall d rst r, fine_request MacOS r -> (forall o, r <> GetTitle o) ->
  fine_change MacOS d rst (relook_macos rst) mac_right r.
Proof.
  intros d rst r F Q o s x h w a T G E Gn [V P].
  destruct r as [| |o' nt|o'|o'|o'| |o' m|]; cbn [target] in T; try discriminate T; injection T as ->; cbn [run relook_macos relook].
  - destruct F as (l' & L' & ->). unfold set_title, with_object, with_native. rewrite G, E.
    rewrite (plain_c_string MacOS l' L'), (plain_valid MacOS l' L'), Gn.
    eexists _, _, x, _. split; [reflexivity|]. split; [other_updates|]. split; [other_updates|].
    split; [reflexivity|]. split; [assumption|]. split; assumption.
  - exfalso. exact (Q o eq_refl).
  - unfold show_window, with_object, with_native. rewrite G, E, Gn. cbn [says_visible]. rewrite V, P.
    destruct (shape a) eqn:Sh.
    1, 2: rewrite andb_true_r; destruct (shown a) eqn:Sa;
      [exists Done, s, x, w; split; [reflexivity|]; split; [other_updates|]; split; [other_updates|]; split; [reflexivity|]; split; [exact E|];
         split; congruence
      |eexists _, _, x, _; split; [reflexivity|]; split; [other_updates|]; split; [other_updates|]; split; [reflexivity|]; split; [exact E|];
         cbn [set_visible placement]; rewrite P; destruct rst; split; cbn; congruence].
    rewrite andb_false_r.
    eexists _, _, x, _; split; [reflexivity|]; split; [other_updates|]; split; [other_updates|]; split; [reflexivity|]; split; [exact E|].
    cbn [set_visible placement]. rewrite P. destruct rst; split; cbn; congruence.
  - unfold hide_window, with_object, with_native. rewrite G, E, Gn.
    eexists _, _, x, _. split; [reflexivity|]. split; [other_updates|]. split; [other_updates|]. split; [reflexivity|]. split; [exact E|].
    split; [reflexivity|exact P].
  - unfold rearrange. rewrite G. destruct x as [hd cmd]. cbn [handle] in E. subst hd. rewrite Gn, V.
    destruct (shown a) eqn:Sa.
    + eexists _, _, {| handle := Some h; show_command := cmd |}, _. split; [reflexivity|]. split; [other_updates|]. split; [other_updates|]. split; [reflexivity|]. split; [reflexivity|].
      split; [exact V|reflexivity].
    + exists Done, s, {| handle := Some h; show_command := cmd |}, w. split; [reflexivity|]. split; [other_updates|]. split; [other_updates|]. split; [reflexivity|]. split; [reflexivity|].
      split; [congruence|exact P].
Qed.

Lemma mac_simulated : forall d rst l dk s dk',
  moderate_display d -> Forall (fine_request MacOS) l -> no_questions l ->
  matches mac_right dk s -> looks_macos rst l dk = Some dk' ->
  exists reps s', run_all MacOS d rst l s = Ok (reps, s') /\ matches mac_right dk' s'.
Proof.
  intros d rst l dk s dk' D F Q M E. unfold looks_macos in E.
  apply (steps_simulated MacOS d rst first_look (relook_macos rst) mac_right l dk s dk'); auto.
  apply Forall_forall. intros r Hr. unfold no_questions in Q. rewrite Forall_forall in F, Q. split; [|split].
  - apply mac_fine_open; auto.
  - apply mac_fine_change; auto.
  - apply fine_without; auto.
Qed.
