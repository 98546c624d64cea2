(** Titles through the model, and the simulation of titles and looks. *)
From Coq Require Import NArith ZArith List Bool Lia.
Require Import ZifyBool ZifyNat ZifyN.
From Verif Require Import Base UnicodeSpec UnicodeModel UnicodeText UnicodeLemmas2 KeySpec LookSpec LookModel LookText LookLemmas.
Import ListNotations.
Open Scope N_scope.
Ltac Zify.zify_post_hook ::= Z.div_mod_to_equations.

(* ----------------------------------------------------------- conversions *)

Lemma valid_zero : forall a b l, valid_utf8 0 a b l = valid_utf8 0 0 0 l.
Proof. intros a b [|x l]; reflexivity. Qed.

Lemma valid_next : forall n lo hi x l, lo <= x <= hi -> valid_utf8 (S n) lo hi (x :: l) = valid_utf8 n 0x80 0xBF l.
Proof.
  intros n lo hi x l H. cbn [valid_utf8].
  replace (lo <=? x) with true by lia. replace (x <=? hi) with true by lia. reflexivity.
Qed.

Lemma valid_utf8_one : forall c l, scalar c -> valid_utf8 0 0 0 (utf8_of c ++ l) = valid_utf8 0 0 0 l.
Proof.
  intros c l [H1 H2]. unfold utf8_of.
  destruct (N.ltb_spec c 0x80).
  { cbn [app valid_utf8]. replace (c <=? 0x7F) with true by lia. reflexivity. }
  destruct (N.ltb_spec c 0x800).
  { cbn [app]. cbn [valid_utf8].
    replace (192 + c / 64 <=? 0x7F) with false by lia.
    replace (0xC2 <=? 192 + c / 64) with true by lia. replace (192 + c / 64 <=? 0xDF) with true by lia.
    cbn [andb]. replace (0x80 <=? 128 + c mod 64) with true by lia. replace (128 + c mod 64 <=? 0xBF) with true by lia.
    cbn [andb]. apply valid_zero. }
  assert (M : forall x, 128 <= 128 + x mod 64 <= 191) by (intro x; lia).
  destruct (N.ltb_spec c 0x10000).
  { cbn [app]. set (b1 := 224 + c / 4096). set (b2 := 128 + (c / 64) mod 64). set (b3 := 128 + c mod 64).
    assert (B1 : 224 <= b1 <= 239) by (unfold b1; lia).
    assert (B2 : 128 <= b2 <= 191) by (unfold b2; lia).
    assert (B3 : 128 <= b3 <= 191) by (unfold b3; lia).
    assert (E0 : b1 = 0xE0 -> 0xA0 <= b2) by (unfold b1, b2; lia).
    assert (ED : b1 = 0xED -> b2 <= 0x9F) by (unfold b1, b2; lia).
    clearbody b1 b2 b3.
    change (valid_utf8 0 0 0 (b1 :: b2 :: b3 :: l)) with
      (if b1 <=? 0x7F then valid_utf8 0 0 0 (b2 :: b3 :: l)
          else if (0xC2 <=? b1) && (b1 <=? 0xDF) then valid_utf8 1 0x80 0xBF (b2 :: b3 :: l)
          else if b1 =? 0xE0 then valid_utf8 2 0xA0 0xBF (b2 :: b3 :: l)
          else if b1 =? 0xED then valid_utf8 2 0x80 0x9F (b2 :: b3 :: l)
          else if (0xE1 <=? b1) && (b1 <=? 0xEF) then valid_utf8 2 0x80 0xBF (b2 :: b3 :: l)
          else if b1 =? 0xF0 then valid_utf8 3 0x90 0xBF (b2 :: b3 :: l)
          else if (0xF1 <=? b1) && (b1 <=? 0xF3) then valid_utf8 3 0x80 0xBF (b2 :: b3 :: l)
          else if b1 =? 0xF4 then valid_utf8 3 0x80 0x8F (b2 :: b3 :: l)
          else false).
    replace (b1 <=? 0x7F) with false by lia. replace ((0xC2 <=? b1) && (b1 <=? 0xDF)) with false by lia.
    destruct (N.eqb_spec b1 0xE0); [rewrite !valid_next by lia; apply valid_zero|].
    destruct (N.eqb_spec b1 0xED); [rewrite !valid_next by lia; apply valid_zero|].
    replace ((0xE1 <=? b1) && (b1 <=? 0xEF)) with true by lia. rewrite !valid_next by lia. apply valid_zero. }
  cbn [app]. set (b1 := 240 + c / 262144). set (b2 := 128 + (c / 4096) mod 64). set (b3 := 128 + (c / 64) mod 64). set (b4 := 128 + c mod 64).
  assert (B1 : 240 <= b1 <= 244) by (unfold b1; lia).
  assert (B2 : 128 <= b2 <= 191) by (unfold b2; lia).
  assert (B3 : 128 <= b3 <= 191) by (unfold b3; lia).
  assert (B4 : 128 <= b4 <= 191) by (unfold b4; lia).
  assert (F0 : b1 = 0xF0 -> 0x90 <= b2) by (unfold b1, b2; lia).
  assert (F4 : b1 = 0xF4 -> b2 <= 0x8F) by (unfold b1, b2; lia).
  clearbody b1 b2 b3 b4.
  change (valid_utf8 0 0 0 (b1 :: b2 :: b3 :: b4 :: l)) with
      (if b1 <=? 0x7F then valid_utf8 0 0 0 (b2 :: b3 :: b4 :: l)
          else if (0xC2 <=? b1) && (b1 <=? 0xDF) then valid_utf8 1 0x80 0xBF (b2 :: b3 :: b4 :: l)
          else if b1 =? 0xE0 then valid_utf8 2 0xA0 0xBF (b2 :: b3 :: b4 :: l)
          else if b1 =? 0xED then valid_utf8 2 0x80 0x9F (b2 :: b3 :: b4 :: l)
          else if (0xE1 <=? b1) && (b1 <=? 0xEF) then valid_utf8 2 0x80 0xBF (b2 :: b3 :: b4 :: l)
          else if b1 =? 0xF0 then valid_utf8 3 0x90 0xBF (b2 :: b3 :: b4 :: l)
          else if (0xF1 <=? b1) && (b1 <=? 0xF3) then valid_utf8 3 0x80 0xBF (b2 :: b3 :: b4 :: l)
          else if b1 =? 0xF4 then valid_utf8 3 0x80 0x8F (b2 :: b3 :: b4 :: l)
          else false).
  replace (b1 <=? 0x7F) with false by lia. replace ((0xC2 <=? b1) && (b1 <=? 0xDF)) with false by lia.
  replace (b1 =? 0xE0) with false by lia. replace (b1 =? 0xED) with false by lia.
  replace ((0xE1 <=? b1) && (b1 <=? 0xEF)) with false by lia.
  destruct (N.eqb_spec b1 0xF0); [rewrite !valid_next by lia; apply valid_zero|].
  destruct (N.leb_spec b1 0xF3).
  - replace ((0xF1 <=? b1) && true) with true by lia. rewrite !valid_next by lia. apply valid_zero.
  - rewrite andb_false_r. replace (b1 =? 0xF4) with true by lia. rewrite !valid_next by lia. apply valid_zero.
Qed.

Lemma valid_utf8_encode : forall l, Forall scalar l -> valid_utf8 0 0 0 (encode UTF8 l) = true.
Proof.
  induction l as [|c l IH]; intro H; [reflexivity|]. apply Forall_cons_iff in H. destruct H as [H1 H2].
  change (encode UTF8 (c :: l)) with (utf8_of c ++ encode UTF8 l). rewrite valid_utf8_one by assumption. auto.
Qed.

Lemma c_string_nonzero : forall l, Forall (fun x => x <> 0) l -> c_string l = l.
Proof.
  induction l as [|x l IH]; intro H; [reflexivity|]. apply Forall_cons_iff in H. destruct H as [H1 H2].
  cbn [c_string]. destruct (N.eqb_spec x 0); [contradiction|]. rewrite IH by assumption. reflexivity.
Qed.

Lemma encode_nonzero : forall e l, Forall (fun c => c <> 0) l -> Forall (fun x => x <> 0) (encode e l).
Proof.
  intros e l. induction l as [|c l IH]; intro H; [constructor|]. apply Forall_cons_iff in H. destruct H as [H1 H2].
  change (encode e (c :: l)) with (encode1 e c ++ encode e l). apply Forall_app. split; [|auto].
  destruct e; cbn [encode1].
  - unfold utf8_of. destruct (c <? 0x80), (c <? 0x800), (c <? 0x10000); repeat constructor; lia.
  - unfold utf16_of. destruct (c <? 0x10000); repeat constructor; lia.
  - unfold utf32_of. repeat constructor; lia.
Qed.
Ltac Zify.zify_post_hook ::= idtac.

(** What a toolkit makes of a title. *)
Definition native_title (k : toolkit) (l : list N) : list N :=
  match k with WindowsApi => encode UTF16 l | _ => encode UTF8 l end.
Definition title_right (k : toolkit) (t : list N) (_ : object) (w : native_window) : Prop :=
  exists l, Forall (fun c => scalar c /\ c <> 0 /\ (k = WindowsApi -> bmp c)) l /\ t = encode UTF8 l /\ text w = native_title k l.

Section Plain.
Variables (k : toolkit) (l : list N).
Hypothesis Hl : Forall (fun c => scalar c /\ c <> 0 /\ (k = WindowsApi -> bmp c)) l.

Lemma plain_scalar : Forall scalar l.
Proof. eapply Forall_impl; [|exact Hl]. cbn. intros; tauto. Qed.
Lemma plain_nonzero : Forall (fun c => c <> 0) l.
Proof. eapply Forall_impl; [|exact Hl]. cbn. intros; tauto. Qed.

Lemma plain_c_string : forall e, c_string (encode e l) = encode e l.
Proof. intro e. apply c_string_nonzero, encode_nonzero, plain_nonzero. Qed.

Lemma plain_valid : valid_utf8 0 0 0 (encode UTF8 l) = true.
Proof. apply valid_utf8_encode, plain_scalar. Qed.

Lemma plain_to_wide : convert_string KW2 K8 (encode UTF8 l) = Ok (encode UTF16 l).
Proof.
  apply (convert_ok KW2 K8 l); [exact plain_scalar| |].
  - apply Forall_forall. intros; exact I.
  - eapply Forall_impl; [|exact plain_scalar]. cbn. intros c H. split; [exact H|congruence].
Qed.

Lemma plain_from_wide : k = WindowsApi -> convert_string K8 KW2 (encode UTF16 l) = Ok (encode UTF8 l).
Proof.
  intro K. apply (convert_ok K8 KW2 l); [exact plain_scalar| |].
  - eapply Forall_impl; [|exact Hl]. cbn. intros c (_ & _ & H). auto.
  - eapply Forall_impl; [|exact Hl]. cbn. intros c (H1 & H2 & H). specialize (H K). unfold bmp in H. split; [exact H1|].
    intros _. rewrite N.mod_small by lia. destruct H1 as [_ H1]. exact H1.
Qed.
End Plain.

(* -------------------------------------------------------------- placing *)

Lemma place_ok : forall d w h, moderate_display d -> moderate w -> moderate h ->
  place d w h = Ok (Z.quot (screen_width d - (w + frame_right d + frame_left d)) 2,
                    Z.quot (screen_height d - (h + frame_bottom d + frame_top d)) 2)%Z.
Proof.
  intros d w h (A1 & A2 & A3 & A4 & A5 & A6) W H. unfold moderate in *. unfold place, outer_size, in_int, int_max.
  replace ((- (2147483647) - 1 <=? w + frame_right d - (0 - frame_left d)) &&
           (w + frame_right d - (0 - frame_left d) <=? 2147483647))%Z with true by lia.
  replace ((- (2147483647) - 1 <=? h + frame_bottom d - (0 - frame_top d)) &&
           (h + frame_bottom d - (0 - frame_top d) <=? 2147483647))%Z with true by lia.
  cbn [andb bind].
  replace ((- (2147483647) - 1 <=? screen_width d - (w + frame_right d - (0 - frame_left d))) &&
           (screen_width d - (w + frame_right d - (0 - frame_left d)) <=? 2147483647))%Z with true by lia.
  replace ((- (2147483647) - 1 <=? screen_height d - (h + frame_bottom d - (0 - frame_top d))) &&
           (screen_height d - (h + frame_bottom d - (0 - frame_top d)) <=? 2147483647))%Z with true by lia.
  cbn [andb]. do 3 f_equal; lia.
Qed.

(* --------------------------------------------------------------- opening *)

(** Titles and sizes of the request are fine. *)
Definition fine_request (k : toolkit) (r : request) : Prop :=
  match r with
  | Construct _ w h t _ _ | Open _ w h t _ _ => moderate w /\ moderate h /\ plain_title k t
  | SetTitle _ t => plain_title k t
  | _ => True
  end.

Lemma fine_requests : forall k l, all_titles (plain_title k) l -> moderate_sizes l -> Forall (fine_request k) l.
Proof.
  intros k l T S. induction l as [|r l IH]; [constructor|].
  apply Forall_cons_iff in T. apply Forall_cons_iff in S. destruct T as [T1 T], S as [S1 S].
  constructor; [|auto]. destruct r; cbn in *; tauto.
Qed.

Lemma opened : forall k d o w h t m c s x, moderate_display d -> moderate w -> moderate h -> plain_title k t ->
  get o (objects s) = Some x -> handle x = None ->
  match c with
  | None => open_window k d o w h t m c s = Ok (Opened false, s)
  | Some i =>
      exists n, open_window k d o w h t m c s =
        Ok (Opened true, install o i n (match k with WindowsApi => m | _ => Standard end) true s) /\
      title_right k t x n /\ visible n = false /\ placement n = match k with WindowsApi => Standard | _ => m end /\
      inside n = (w, h) /\ (k = WindowsApi -> place d w h = Ok (corner n))
  end.
Proof.
  intros k d o w h t m c s x D W H (l & L & ->) G E. unfold open_window, with_object. rewrite G, E.
  destruct k.
  - rewrite (plain_to_wide WindowsApi l L). cbn [bind]. rewrite place_ok by assumption. cbn [bind].
    rewrite (plain_c_string WindowsApi l L). destruct c; [|reflexivity].
    eexists. split; [reflexivity|]. cbn. repeat split; auto. exists l. repeat split; auto.
  - rewrite (plain_c_string Gtk l L). destruct c; [|reflexivity].
    eexists. split; [reflexivity|]. cbn. repeat split; auto; [|congruence]. exists l. repeat split; auto.
  - rewrite (plain_c_string MacOS l L), (plain_valid MacOS l L). destruct c; [|reflexivity].
    eexists. split; [reflexivity|]. cbn. repeat split; auto; [|congruence]. exists l. repeat split; auto.
Qed.

(* ---------------------------------------------------------------- titles *)

Ltac other_updates :=
  match goal with
  | |- forall q, get q _ = if ?o =? q then Some _ else get q _ =>
      let q := fresh "q" in intro q; cbn [update_native with_natives with_objects objects natives]; rewrite ?get_put;
      destruct (N.eqb_spec o q); first [reflexivity | congruence]
  end.

Lemma title_fine_open : forall k d r, moderate_display d -> fine_request k r -> fine_open k d title_given (title_right k) r.
Proof.
  intros k d r D F o w h t m c s O G E.
  destruct (get o (objects s)) as [x|] eqn:Gx; [|congruence].
  assert (Ft : moderate w /\ moderate h /\ plain_title k t) by (destruct O as [-> | ->]; exact F).
  assert (Nt : title_given r = t) by (destruct O as [-> | ->]; reflexivity).
  destruct Ft as (F1 & F2 & F3).
  pose proof (opened k d o w h t m c s x D F1 F2 F3 Gx (E x eq_refl)) as P.
  destruct c as [i|]; [|exact P]. destruct P as (n & R & T & _). eexists _, _. split; [exact R|].
  rewrite Nt. exact T.
Qed.

Lemma title_fine_change : forall k d rst r, fine_request k r -> fine_change k d rst retitle (title_right k) r.
Proof.
  intros k d rst r F o s x h w t T G E Gn (l & L & -> & Tw).
  destruct r as [| |o' nt|o'|o'|o'| |o' m|]; cbn [target] in T; try discriminate T; injection T as ->; cbn [run].
  - destruct F as (l' & L' & ->). unfold set_title, with_object, with_native. rewrite G, E.
    assert (X : exists s' w', Ok (Done, update_native h (set_text (native_title k l') w) s) = Ok (Done, s') /\
       (forall q, get q (objects s') = if o =? q then Some x else get q (objects s)) /\
       (forall q, get q (natives s') = if h =? q then Some (Some w') else get q (natives s)) /\
       associations s' = associations s /\ title_right k (encode UTF8 l') x w').
    { eexists _, (set_text (native_title k l') w). split; [reflexivity|]. split; [other_updates|]. split; [other_updates|].
      split; [reflexivity|]. exists l'. auto. }
    destruct X as (s' & w' & X1 & X2 & X3 & X4 & X5). cbn [retitle]. destruct k.
    + rewrite (plain_to_wide WindowsApi l' L'). cbn [bind]. rewrite Gn, (plain_c_string WindowsApi l' L').
      exists Done, s', x, w'. auto 10.
    + rewrite Gn, (plain_c_string Gtk l' L'). exists Done, s', x, w'. auto 10.
    + rewrite (plain_c_string MacOS l' L'), (plain_valid MacOS l' L'), Gn. exists Done, s', x, w'. auto 10.
  - unfold get_title, with_object, with_native. rewrite G, E, Gn. cbn [bind retitle].
    assert (X : match k with
                | WindowsApi => match convert_string K8 KW2 (text w) with Throw e => Ok (Refused e, s) | r => bind r (fun t => Ok (Title t, s)) end
                | _ => Ok (Title (text w), s)
                end = Ok (Title (encode UTF8 l), s)).
    { rewrite Tw. destruct k; [|reflexivity..]. cbn [native_title]. rewrite (plain_from_wide WindowsApi l L eq_refl). reflexivity. }
    exists (Title (encode UTF8 l)), s, x, w. split; [destruct k; exact X|]. split; [other_updates|]. split; [other_updates|].
    split; [reflexivity|]. split; [assumption|]. exists l. auto.
  - unfold show_window, with_object, with_native. rewrite G, E, Gn. cbn [retitle].
    destruct (says_visible k w).
    + exists Done, s, x, w. split; [reflexivity|]. split; [other_updates|]. split; [other_updates|]. split; [reflexivity|]. split; [assumption|]. exists l. auto.
    + destruct k.
      * eexists _, _, _, _. split; [reflexivity|]. split; [other_updates|]. split; [other_updates|]. split; [reflexivity|]. split; [reflexivity|]. exists l. auto.
      * eexists _, _, x, _. split; [reflexivity|]. split; [other_updates|]. split; [other_updates|]. split; [reflexivity|]. split; [exact E|]. exists l. auto.
      * eexists _, _, x, _. split; [reflexivity|]. split; [other_updates|]. split; [other_updates|]. split; [reflexivity|]. split; [exact E|].
        exists l. repeat split; auto. destruct rst, (placement (set_visible true w)); exact Tw.
  - unfold hide_window, with_object, with_native. rewrite G, E, Gn. cbn [retitle].
    eexists _, _, x, _. split; [reflexivity|]. split; [other_updates|]. split; [other_updates|]. split; [reflexivity|]. split; [exact E|]. exists l. auto.
  - unfold rearrange. rewrite G. destruct x as [hd cmd]. cbn [handle] in E. subst hd. rewrite Gn. cbn [retitle].
    destruct (visible w).
    + eexists _, _, {| handle := Some h; show_command := cmd |}, _. split; [reflexivity|]. split; [other_updates|]. split; [other_updates|]. split; [reflexivity|]. split; [reflexivity|]. exists l. auto.
    + exists Done, s, {| handle := Some h; show_command := cmd |}, w. split; [reflexivity|]. split; [other_updates|]. split; [other_updates|]. split; [reflexivity|]. split; [reflexivity|]. exists l. auto.
Qed.

(** Requests to objects without window do nothing; only macOS cannot answer with a title. *)
Lemma fine_without : forall k d rst r, fine_request k r -> (k = MacOS -> forall o, r <> GetTitle o) -> fine_empty k d rst r.
Proof.
  intros k d rst r F Q o s x T G E.
  assert (Same : forall s', s' = s -> (forall q, get q (objects s') = if o =? q then Some x else get q (objects s)) /\ natives s' = natives s /\ associations s' = associations s).
  { intros s' ->. split; [other_updates|]. auto. }
  destruct r as [| |o' nt|o'|o'|o'| |o' m|]; cbn [target] in T; try discriminate T; injection T as ->; cbn [run].
  - destruct F as (l' & L' & ->). unfold set_title, with_object. rewrite G, E.
    exists Done, s, x. split; [|split; [assumption|apply Same; reflexivity]].
    destruct k; [rewrite (plain_to_wide WindowsApi l' L'); reflexivity|reflexivity|].
    destruct (valid_utf8 0 0 0 (c_string (encode UTF8 l'))); reflexivity.
  - unfold get_title, with_object. rewrite G, E.
    exists (Title []), s, x. split; [|split; [assumption|apply Same; reflexivity]].
    destruct k; [reflexivity..|]. exfalso. apply (Q eq_refl o). reflexivity.
  - unfold show_window, with_object. rewrite G, E. destruct k.
    + eexists _, _, _. split; [reflexivity|]. split; [|split; [other_updates|]]; reflexivity || auto.
    + exists Done, s, x. split; [reflexivity|]. split; [assumption|apply Same; reflexivity].
    + exists Done, s, x. split; [reflexivity|]. split; [assumption|apply Same; reflexivity].
  - unfold hide_window, with_object. rewrite G, E.
    exists Done, s, x. split; [reflexivity|]. split; [assumption|apply Same; reflexivity].
  - unfold rearrange. rewrite G. destruct x as [hd cmd]. cbn [handle] in E. subst hd.
    eexists _, _, _. split; [reflexivity|]. split; [|apply Same; reflexivity]. reflexivity.
Qed.

Lemma titles_simulated : forall k d rst l dk s dk',
  moderate_display d -> Forall (fine_request k) l -> (k = MacOS -> asks_windows l dk) ->
  matches (title_right k) dk s -> titles l dk = Some dk' ->
  exists reps s', run_all k d rst l s = Ok (reps, s') /\ matches (title_right k) dk' s'.
Proof.
  intros k d rst l. induction l as [|r l IH]; intros dk s dk' D F Q M E; unfold titles in *; cbn [steps run_all asks_windows] in *.
  - injection E as <-. eauto.
  - apply Forall_cons_iff in F. destruct F as [F1 F].
    destruct (step title_given retitle r dk) as [d1|] eqn:S1; [|discriminate E].
    destruct (step_simulated k d rst title_given retitle (title_right k) r dk s d1) as (rep & s1 & R & M1); auto.
    + apply title_fine_open; assumption.
    + apply title_fine_change; assumption.
    + intros o T G. apply fine_without; [assumption|]. intros K o' ->. destruct (Q K) as [(t & X) _]. cbn in T. congruence.
    + rewrite R. cbn [bind].
      destruct (IH d1 s1 dk' D F (fun K => proj2 (Q K)) M1 E) as (reps & s' & -> & M'). cbn [bind]. eauto.
Qed.

Lemma title_answered : forall k dk s o t, matches (title_right k) dk s ->
  title_of o dk = Some t -> (k = MacOS -> get o (panes dk) <> Some Empty) -> get_title k o s = Ok (Title t, s).
Proof.
  intros k dk s o t (M & _) T Q. specialize (M o). unfold title_of in T. unfold get_title, with_object, with_native.
  destruct (get o (panes dk)) as [[|a|]|]; try discriminate T; injection T as ->;
    (destruct (get o (objects s)) as [x|]; [|destruct M]); cbn [object_right] in M.
  - rewrite M. destruct k; [reflexivity..|]. destruct (Q eq_refl eq_refl).
  - destruct M as (h & w & E1 & E2 & _ & (l & L & -> & Tw)). rewrite E1, E2. cbn [bind]. rewrite Tw.
    destruct k; [|reflexivity..]. cbn [native_title]. rewrite (plain_from_wide WindowsApi l L eq_refl). reflexivity.
Qed.
