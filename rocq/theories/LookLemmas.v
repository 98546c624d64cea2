(** Simulation of a desk by the model of window looks. *)
From Coq Require Import NArith ZArith List Bool Lia.
Require Import ZifyBool ZifyNat ZifyN.
From Verif Require Import Base UnicodeSpec UnicodeModel UnicodeText UnicodeLemmas2 KeySpec LookSpec LookModel LookText.
Import ListNotations.
Open Scope N_scope.

Lemma get_put : forall A k k' (x : A) t, get k (put k' x t) = if k' =? k then Some x else get k t.
Proof. reflexivity. Qed.
Lemma get_put_same : forall A k (x : A) t, get k (put k x t) = Some x.
Proof. intros. rewrite get_put, N.eqb_refl. reflexivity. Qed.
Lemma get_put_other : forall A k k' (x : A) t, k' <> k -> get k (put k' x t) = get k t.
Proof. intros A k k' x t H. rewrite get_put. destruct (N.eqb_spec k' k); congruence. Qed.

Lemma get_app : forall A k (a b : table A), get k (a ++ b) = match get k a with Some x => Some x | None => get k b end.
Proof.
  intros A k a b. induction a as [|[k' x] a IH]; cbn [app get]; [reflexivity|].
  destruct (k' =? k); auto.
Qed.

Lemma get_dissociate : forall h h' l, h <> h' -> get h (dissociate h' l) = get h l.
Proof.
  intros h h' l D. induction l as [|[x o] l IH]; cbn [dissociate get]; [reflexivity|].
  destruct (N.eqb_spec x h').
  - subst. destruct (N.eqb_spec h' h); congruence.
  - cbn [get]. rewrite IH. reflexivity.
Qed.
Lemma get_dissociate_some : forall h h' l, get h (dissociate h' l) <> None -> get h l <> None.
Proof.
  intros h h' l. induction l as [|[x o] l IH]; cbn [dissociate get]; [congruence|].
  destruct (N.eqb_spec x h'); cbn [get]; destruct (x =? h); auto; congruence.
Qed.

Lemma redirect_ok : forall h o l, get h l <> None -> exists l', redirect h o l = Some l' /\
  forall h', get h' l' = if h =? h' then Some o else get h' l.
Proof.
  intros h o l. induction l as [|[x p] l IH]; cbn [redirect get]; [congruence|].
  intro G. destruct (N.eqb_spec x h).
  - subst. eexists. split; [reflexivity|]. intro h'. cbn [get]. destruct (h =? h'); reflexivity.
  - destruct (IH G) as (l' & E & F). rewrite E. eexists. split; [reflexivity|].
    intro h'. cbn [get]. rewrite F. destruct (N.eqb_spec x h'), (N.eqb_spec h h'); congruence.
Qed.

Section Simulation.
Variables (k : toolkit) (dsp : display) (rst : bool).
Context {A : Type}.
Variable new : request -> A.
Variable f : request -> A -> A.
(** What is known about a window is right. *)
Variable P : A -> object -> native_window -> Prop.

Definition object_right (s : state) (o : N) (p : option (pane A)) (x : option object) : Prop :=
  match p, x with
  | None, None => True
  | Some Empty, Some x => handle x = None
  | Some (Pane a), Some x =>
      exists h w, handle x = Some h /\ get h (natives s) = Some (Some w) /\ get h (associations s) = Some o /\ P a x w
  | Some Gone, Some x => exists h, handle x = Some h /\ get h (natives s) = Some None
  | _, _ => False
  end.

Definition matches (d : desk A) (s : state) : Prop :=
  (forall o, object_right s o (get o (panes d)) (get o (objects s))) /\
  (forall h, get h (natives s) <> None -> In h (used d)) /\
  (forall h, get h (associations s) <> None -> In h (used d)).

(** The requests with which windows are opened. *)
Definition opening (r : request) (o : N) (width height : Z) (t : list N) (m : mode) (c : option N) : Prop :=
  r = Construct o width height t m c \/ r = Open o width height t m c.

Definition fine_open (r : request) : Prop :=
  forall o width height t m c s, opening r o width height t m c ->
  get o (objects s) <> None -> (forall x, get o (objects s) = Some x -> handle x = None) ->
  match c with
  | None => open_window k dsp o width height t m c s = Ok (Opened false, s)
  | Some h => exists w command, open_window k dsp o width height t m c s = Ok (Opened true, install o h w command true s) /\
                P (new r) {| handle := Some h; show_command := command |} w
  end.

(** A request about object [o] changes the object, its native window, nothing else. *)
Definition target (r : request) : option N :=
  match r with
  | SetTitle o _ | GetTitle o | Show o | Hide o | Rearrange o _ => Some o
  | _ => None
  end.

Definition fine_change (r : request) : Prop :=
  forall o s x h w a, target r = Some o -> get o (objects s) = Some x -> handle x = Some h ->
  get h (natives s) = Some (Some w) -> P a x w ->
  exists rep s' x' w', run k dsp rst r s = Ok (rep, s') /\
    (forall o', get o' (objects s') = if o =? o' then Some x' else get o' (objects s)) /\
    (forall h', get h' (natives s') = if h =? h' then Some (Some w') else get h' (natives s)) /\
    associations s' = associations s /\ handle x' = Some h /\ P (f r a) x' w'.

Definition fine_empty (r : request) : Prop :=
  forall o s x, target r = Some o -> get o (objects s) = Some x -> handle x = None ->
  exists rep s' x', run k dsp rst r s = Ok (rep, s') /\ handle x' = None /\
    (forall o', get o' (objects s') = if o =? o' then Some x' else get o' (objects s)) /\
    natives s' = natives s /\ associations s' = associations s.

Lemma install_gets : forall o h w m s,
  (forall o', get o' (objects (install o h w m true s)) = if o =? o' then Some {| handle := Some h; show_command := m |} else get o' (objects s)) /\
  (forall h', get h' (natives (install o h w m true s)) = if h =? h' then Some (Some w) else get h' (natives s)) /\
  associations (install o h w m true s) = associations s ++ [(h, o)].
Proof. intros. repeat split; intros; reflexivity. Qed.

Lemma fresh : forall (h : N) l, negb (existsb (N.eqb h) l) = true -> ~ In h l.
Proof.
  intros h l E I. apply negb_true_iff in E. enough (existsb (N.eqb h) l = true) by congruence.
  apply existsb_exists. exists h. split; [assumption|apply N.eqb_refl].
Qed.

Lemma gone_in : forall d s o h, matches d s -> forall x, get o (objects s) = Some x -> handle x = Some h -> In h (used d).
Proof.
  intros d s o h (M & U & _) x G E. specialize (M o). rewrite G in M.
  destruct (get o (panes d)) as [[|a|]|]; cbn in M; try contradiction.
  - congruence.
  - destruct M as (h' & w & E' & N' & _). apply U. rewrite E' in E. injection E as ->. congruence.
  - destruct M as (h' & E' & N'). apply U. rewrite E' in E. injection E as ->. congruence.
Qed.

(** A new window. *)
Lemma matches_open : forall d s o h w m a,
  matches d s -> (forall x, get o (objects s) = Some x -> handle x = None) ->
  negb (existsb (N.eqb h) (used d)) = true ->
  P a {| handle := Some h; show_command := m |} w ->
  matches (with_pane o (Pane a) (use h d)) (install o h w m true s).
Proof.
  intros d s o h w m a (M & U & V) E F Pa. apply fresh in F.
  destruct (install_gets o h w m s) as (Go & Gn & Ga).
  split; [|split].
  - intro o'. rewrite Go. cbn [with_pane panes use]. rewrite get_put.
    destruct (N.eqb_spec o o').
    + subst o'. cbn [object_right]. exists h, w. rewrite Gn, N.eqb_refl, Ga, get_app. repeat split; auto.
      destruct (get h (associations s)) as [q|] eqn:Q.
      * exfalso. apply F, V. congruence.
      * cbn [get]. rewrite N.eqb_refl. reflexivity.
    + specialize (M o').
      destruct (get o' (panes d)) as [[|b|]|], (get o' (objects s)) as [x|]; cbn [object_right] in M |- *; auto.
      * destruct M as (h' & w' & E1 & E2 & E3 & E4). exists h', w'. rewrite Gn, Ga, get_app, E3.
        destruct (N.eqb_spec h h'); [exfalso; apply F, U; subst; congruence|]. auto.
      * destruct M as (h' & E1 & E2). exists h'. rewrite Gn.
        destruct (N.eqb_spec h h'); [exfalso; apply F, U; subst; congruence|]. auto.
  - intro h'. rewrite Gn. cbn [with_pane use used In]. destruct (N.eqb_spec h h'); [auto|]. intro H. right. auto.
  - intro h'. rewrite Ga, get_app. cbn [with_pane use used In get]. intro H.
    destruct (get h' (associations s)) eqn:Q; [right; apply V; congruence|].
    destruct (N.eqb_spec h h'); [auto|congruence].
Qed.

Lemma matches_ext : forall d s s',
  matches d s -> (forall o, get o (objects s') = get o (objects s)) -> natives s' = natives s -> associations s' = associations s ->
  matches d s'.
Proof.
  intros d s s' (M & U & V) Eo En Ea. split; [|split]; [intro o|rewrite En; assumption|rewrite Ea; assumption].
  specialize (M o). rewrite Eo. unfold object_right in *. rewrite En, Ea. exact M.
Qed.

(** An object of which nothing but the handle counts gets another one without handle. *)
Lemma matches_empty : forall d s s' o x,
  matches d s -> (forall y, get o (objects s) = Some y -> handle y = None) -> handle x = None ->
  (forall o', get o' (objects s') = if o =? o' then Some x else get o' (objects s)) ->
  natives s' = natives s -> associations s' = associations s ->
  matches (with_pane o Empty d) s'.
Proof.
  intros d s s' o x (M & U & V) E Ex Eo En Ea. split; [|split]; [|rewrite En; assumption|rewrite Ea; assumption].
  intro o'. rewrite Eo. cbn [with_pane panes]. rewrite get_put.
  destruct (N.eqb_spec o o'); [exact Ex|].
  specialize (M o'). unfold object_right in *. rewrite En, Ea. exact M.
Qed.

Lemma matches_change : forall d s s' o x h x' w' a b,
  matches d s -> get o (panes d) = Some (Pane a) -> get o (objects s) = Some x -> handle x = Some h ->
  (forall o', get o' (objects s') = if o =? o' then Some x' else get o' (objects s)) ->
  (forall h', get h' (natives s') = if h =? h' then Some (Some w') else get h' (natives s)) ->
  associations s' = associations s -> handle x' = Some h -> P b x' w' ->
  matches (with_pane o (Pane b) d) s'.
Proof.
  intros d s s' o x h x' w' a b (M & U & V) Ed Es Eh Go Gn Ga Eh' Pb.
  pose proof (M o) as Mo. rewrite Ed, Es in Mo. destruct Mo as (h0 & w0 & E1 & E2 & E3 & _).
  rewrite Eh in E1. injection E1 as <-.
  split; [|split].
  - intro o'. rewrite Go. cbn [with_pane panes]. rewrite get_put.
    destruct (N.eqb_spec o o').
    + subst o'. cbn. exists h, w'. rewrite Gn, N.eqb_refl, Ga. auto.
    + specialize (M o').
      destruct (get o' (panes d)) as [[|c|]|], (get o' (objects s)) as [y|]; cbn [object_right] in M |- *; auto.
      * destruct M as (h' & v & F1 & F2 & F3 & F4). exists h', v. rewrite Gn, Ga.
        destruct (N.eqb_spec h h'); [subst; congruence|]. auto.
      * destruct M as (h' & F1 & F2). exists h'. rewrite Gn. destruct (N.eqb_spec h h'); [subst; congruence|]. auto.
  - intro h'. rewrite Gn. cbn [with_pane used]. destruct (N.eqb_spec h h'); [|auto]. intros _. subst. apply U. congruence.
  - intro h'. rewrite Ga. apply V.
Qed.

Lemma matches_close : forall d s o x h a,
  matches d s -> get o (panes d) = Some (Pane a) -> get o (objects s) = Some x -> handle x = Some h ->
  matches (with_pane o Gone d) (with_associations (dissociate h (associations s)) (with_natives (put h None (natives s)) s)).
Proof.
  intros d s o x h a (M & U & V) Ed Es Eh.
  pose proof (M o) as Mo. rewrite Ed, Es in Mo. destruct Mo as (h0 & w0 & E1 & E2 & E3 & _).
  rewrite Eh in E1. injection E1 as <-.
  split; [|split].
  - intro o'. cbn [with_pane panes with_associations with_natives objects natives associations]. rewrite get_put.
    destruct (N.eqb_spec o o').
    + subst o'. rewrite Es. cbn. exists h. rewrite N.eqb_refl. auto.
    + specialize (M o').
      destruct (get o' (panes d)) as [[|c|]|], (get o' (objects s)) as [y|]; cbn [object_right] in M |- *; auto.
      * destruct M as (h' & v & F1 & F2 & F3 & F4). exists h', v.
        assert (h' <> h) by congruence. cbn [with_associations with_natives natives associations].
        rewrite get_put_other, get_dissociate by congruence. auto.
      * destruct M as (h' & F1 & F2). exists h'. cbn [with_associations with_natives natives]. split; [assumption|].
        rewrite get_put_other by congruence. assumption.
  - intro h'. cbn [with_associations with_natives natives with_pane used]. rewrite get_put. destruct (N.eqb_spec h h'); [|apply U].
    intros _. subst. apply U. congruence.
  - intro h'. cbn [with_associations with_natives associations with_pane used]. intro G. apply get_dissociate_some in G. auto.
Qed.

(** What is known about a moved window does not depend on the object but for its members. *)
Lemma matches_move : forall d s o from p,
  matches d s -> get o (panes d) = None -> get from (panes d) = Some p -> p <> Gone ->
  exists rep s', move_construct o from s = Ok (rep, s') /\ matches (with_pane from Empty (with_pane o p d)) s'.
Proof.
  intros d s o from p M Ho Hf Hp. pose proof M as (M0 & U & V).
  assert (D : from <> o) by congruence.
  pose proof (M0 o) as Mo. rewrite Ho in Mo. destruct (get o (objects s)) as [|] eqn:Eo; [destruct Mo|].
  pose proof (M0 from) as Mf. rewrite Hf in Mf.
  unfold move_construct, with_object.
  destruct (get from (objects s)) as [x|] eqn:Ef; [|destruct p; destruct Mf].
  destruct p as [|a|]; [| |congruence]; cbn [object_right] in Mf.
  - rewrite Mf. cbn [bind]. eexists _, _. split; [reflexivity|]. split; [|split]; [|assumption..].
    intro q. cbn [with_pane panes with_objects objects]. rewrite !get_put.
    destruct (N.eqb_spec from q); [reflexivity|]. destruct (N.eqb_spec o q); [exact Mf|]. exact (M0 q).
  - destruct Mf as (h & w & E1 & E2 & E3 & E4). rewrite E1.
    destruct (redirect_ok h o (associations s)) as (l & -> & L); [congruence|]. cbn [bind].
    eexists _, _. split; [reflexivity|]. split; [|split].
    + intro q. cbn [with_pane panes with_associations with_objects objects]. rewrite !get_put.
      destruct (N.eqb_spec from q); [reflexivity|]. destruct (N.eqb_spec o q).
      * subst q. cbn. exists h, w. rewrite L, N.eqb_refl. auto.
      * specialize (M0 q).
        destruct (get q (panes d)) as [[|c|]|], (get q (objects s)) as [y|]; cbn [object_right] in M0 |- *; auto.
        destruct M0 as (h' & v & F1 & F2 & F3 & F4). exists h', v. cbn [with_objects with_associations natives associations]. rewrite L.
        destruct (N.eqb_spec h h'); [subst; congruence|]. auto.
    + exact U.
    + intro h'. cbn [with_objects with_associations associations with_pane used]. rewrite L. destruct (N.eqb_spec h h'); [|apply V].
      intros _. subst. apply V. congruence.
Qed.

Lemma step_simulated : forall r d s d',
  fine_open r -> fine_change r ->
  (forall o, target r = Some o -> get o (panes d) = Some Empty -> fine_empty r) ->
  matches d s -> step new f r d = Some d' ->
  exists rep s', run k dsp rst r s = Ok (rep, s') /\ matches d' s'.
Proof.
  intros r d s d' FO FC FE M E. pose proof M as (M0 & U & V).
  assert (Target : forall o, target r = Some o ->
    match get o (panes d) with
    | Some Empty => Some d
    | Some (Pane x) => Some (with_pane o (Pane (f r x)) d)
    | _ => None
    end = Some d' -> exists rep s', run k dsp rst r s = Ok (rep, s') /\ matches d' s').
  { intros o T E'. pose proof (M0 o) as Mo.
    destruct (get o (panes d)) as [[|a|]|] eqn:Ed; try discriminate E'; injection E' as <-;
      (destruct (get o (objects s)) as [x|] eqn:Es; [|destruct Mo]); cbn [object_right] in Mo.
    - destruct (FE o T Ed o s x T Es Mo) as (rep & s' & x' & R & Ex & Go & Gn & Ga).
      exists rep, s'. split; [exact R|]. split; [|split]; [|rewrite Gn; assumption|rewrite Ga; assumption].
      intro q. rewrite Go. destruct (N.eqb_spec o q).
      + subst q. rewrite Ed. exact Ex.
      + specialize (M0 q). unfold object_right in *. rewrite Gn, Ga. exact M0.
    - destruct Mo as (h & w & E1 & E2 & E3 & E4).
      destruct (FC o s x h w a T Es E1 E2 E4) as (rep & s' & x' & w' & R & Go & Gn & Ga & Ex & Px).
      exists rep, s'. split; [exact R|]. eapply matches_change; eauto. }
  destruct r as [o wd ht t m c|o wd ht t m c|o t|o|o|o|o from|o m|o]; try (apply (Target o); [reflexivity|exact E]);
    cbn [step run] in *.
  - unfold unless_there in E. destruct (get o (panes d)) eqn:Ed; [discriminate E|].
    unfold construct.
    set (s0 := with_objects (put o {| handle := None; show_command := Standard |} (objects s)) s).
    assert (G0 : get o (objects s0) = Some {| handle := None; show_command := Standard |}) by apply get_put_same.
    assert (M1 : matches (with_pane o Empty d) s0).
    { apply (matches_empty d s s0 o {| handle := None; show_command := Standard |}); auto.
      intros y Y. pose proof (M0 o) as Mo. rewrite Ed, Y in Mo. destruct Mo. }
    assert (H0 : forall x, get o (objects s0) = Some x -> handle x = None) by (intros x X; rewrite G0 in X; injection X as <-; reflexivity).
    specialize (FO o wd ht t m c s0 (or_introl eq_refl) ltac:(congruence) H0).
    unfold open_with in E. destruct c as [h|].
    + destruct FO as (w & cmd & -> & Pn). unfold when in E.
      destruct (negb (existsb (N.eqb h) (used d))) eqn:Fr; [|discriminate E]. injection E as <-. cbn [bind].
      eexists _, _. split; [reflexivity|].
      pose proof (matches_open _ s0 o h w cmd _ M1 H0 Fr Pn) as (M2 & U2 & V2).
      split; [|split]; [|exact U2|exact V2].
      intro q. specialize (M2 q). cbn [with_pane panes use] in M2 |- *. rewrite !get_put in *. destruct (o =? q); exact M2.
    + rewrite FO. injection E as <-. cbn [bind]. eexists _, _. split; [reflexivity|]. exact M1.
  - destruct (get o (panes d)) as [[|a|]|] eqn:Ed; try discriminate E.
    + pose proof (M0 o) as Mo. rewrite Ed in Mo.
      destruct (get o (objects s)) as [x|] eqn:Es; [|destruct Mo]. cbn [object_right] in Mo.
      assert (H0 : forall x, get o (objects s) = Some x -> handle x = None) by (intros y Y; congruence).
      specialize (FO o wd ht t m c s (or_intror eq_refl) ltac:(congruence) H0).
      unfold open_with in E. destruct c as [h|].
      * destruct FO as (w & cmd & -> & Pn). unfold when in E.
        destruct (negb (existsb (N.eqb h) (used d))) eqn:Fr; [|discriminate E]. injection E as <-.
        eexists _, _. split; [reflexivity|]. apply matches_open; auto.
      * rewrite FO. injection E as <-. eexists _, _. split; [reflexivity|].
        apply (matches_empty d s s o x); auto. intro q. destruct (N.eqb_spec o q); congruence.
    + injection E as <-. pose proof (M0 o) as Mo. rewrite Ed in Mo.
      destruct (get o (objects s)) as [x|] eqn:Es; [|destruct Mo]. destruct Mo as (h & w & E1 & _).
      unfold open_window, with_object. rewrite Es, E1. eexists _, _. split; [reflexivity|]. exact M.
  - unfold unless_there in E. destruct (get o (panes d)) eqn:Ed; [discriminate E|].
    destruct (get from (panes d)) as [[|a|]|] eqn:Ef; try discriminate E; injection E as <-;
      apply matches_move; auto; congruence.
  - destruct (get o (panes d)) as [[|a|]|] eqn:Ed; try discriminate E. injection E as <-.
    pose proof (M0 o) as Mo. rewrite Ed in Mo. unfold user_close.
    destruct (get o (objects s)) as [x|] eqn:Es; [|destruct Mo]. destruct Mo as (h & w & E1 & E2 & E3 & _).
    destruct x as [hd cmd]. cbn [handle] in E1. subst hd. rewrite E2, E3.
    eexists _, _. split; [reflexivity|]. eapply matches_close; eauto.
Qed.

Lemma start_matches : matches nothing start.
Proof. split; [|split]; cbn; auto; congruence. Qed.

Lemma steps_simulated : forall l d s d',
  Forall (fun r => fine_open r /\ fine_change r /\ fine_empty r) l -> matches d s -> steps new f l d = Some d' ->
  exists reps s', run_all k dsp rst l s = Ok (reps, s') /\ matches d' s'.
Proof.
  induction l as [|r l IH]; intros d s d' F M E; cbn [steps run_all] in *.
  - injection E as <-. eauto.
  - apply Forall_cons_iff in F. destruct F as ((F1 & F2 & F3) & F).
    destruct (step new f r d) as [d1|] eqn:S1; [|discriminate E].
    destruct (step_simulated r d s d1 F1 F2 (fun _ _ _ => F3) M S1) as (rep & s1 & R & M1).
    rewrite R. cbn [bind]. destruct (IH d1 s1 d' F M1 E) as (reps & s' & -> & M'). cbn [bind]. eauto.
Qed.
End Simulation.
