(** The model of windows does what the specification expects. *)
From Coq Require Import NArith ZArith List Bool Lia.
From Coq Require Import ZifyBool ZifyNat ZifyN.
From Verif Require Import Base KeySpec KeyModel WindowSpec WindowModel WindowText.
Import ListNotations.
Open Scope N_scope.

Record agrees (t : toolkit) (d : desk) (s : application) : Prop := {
  ag_assoc : window_associations s = map (fun w => (handle w, owner w)) (windows d);
  ag_natives : natives s = map handle (windows d);
  ag_handles : NoDup (map handle (windows d));
  ag_owners : NoDup (map owner (windows d));
  ag_shown_in : forall h, In h (shown s) -> In h (map handle (windows d));
  ag_shown : forall w, In w (windows d) -> presented w = member (handle w) (shown s);
  ag_time : clock s = time d;
  ag_story : calls s = map (as_call t) (story d);
  ag_closed : forall o, In o (closed d) -> In o (alive d);
  ag_owned : forall w, In w (windows d) -> In (owner w) (alive d) /\ ~ In (owner w) (closed d);
  ag_alive : forall o, In o (alive d) <-> object_at s o <> None;
  ag_open : forall w, In w (windows d) -> object_at s (owner w) =
    Some {| native := Some (handle w); start_time := opened w; last_time := updated w |};
  ag_empty : forall o x, object_at s o = Some x -> ~ In o (closed d) ->
    (forall w, In w (windows d) -> owner w <> o) -> native x = None }.

Lemma agrees_start : forall t, agrees t empty_desk start.
Proof.
  intro t. constructor; cbn; try reflexivity; try constructor; try easy.
Qed.

(** ** Lists *)

Lemma member_in : forall x l, member x l = true <-> In x l.
Proof.
  intros x l. unfold member. rewrite existsb_exists. split.
  - intros (y & I & E). apply N.eqb_eq in E. now subst.
  - intro I. exists x. split; [assumption|apply N.eqb_refl].
Qed.

Lemma member_out : forall x l, member x l = false <-> ~ In x l.
Proof. intros x l. rewrite <- member_in. destruct (member x l); split; congruence. Qed.

Lemma without_in : forall x y l, In y (without x l) <-> In y l /\ y <> x.
Proof. intros x y l. unfold without. rewrite filter_In. rewrite negb_true_iff, N.eqb_neq. tauto. Qed.

Lemma window_of_some : forall o d w, window_of o d = Some w -> In w (windows d) /\ owner w = o.
Proof. intros o d w H. apply find_some in H. destruct H as [I E]. apply N.eqb_eq in E. now split. Qed.

Lemma window_of_none : forall o d, window_of o d = None <-> forall w, In w (windows d) -> owner w <> o.
Proof.
  intros o d. unfold window_of. split.
  - intros H w I E. apply (find_none _ _ H) in I. cbn beta in I. apply N.eqb_neq in I. contradiction.
  - intro H. destruct (find _ _) as [w|] eqn:E; [|reflexivity]. apply find_some in E. destruct E as [I E].
    apply N.eqb_eq in E. exfalso. exact (H w I E).
Qed.

Lemma window_at_some : forall h d w, window_at h d = Some w -> In w (windows d) /\ handle w = h.
Proof. intros h d w H. apply find_some in H. destruct H as [I E]. apply N.eqb_eq in E. now split. Qed.

Lemma window_at_none : forall h d, window_at h d = None <-> ~ In h (map handle (windows d)).
Proof.
  intros h d. unfold window_at. split.
  - intros H I. apply in_map_iff in I. destruct I as (w & E & I). apply (find_none _ _ H) in I. cbn beta in I. apply N.eqb_neq in I. contradiction.
  - intro H. destruct (find _ _) as [w|] eqn:E; [|reflexivity]. apply find_some in E. destruct E as [I E].
    apply N.eqb_eq in E. exfalso. apply H. apply in_map_iff. now exists w.
Qed.

Lemma has_window_false : forall o d, has_window o d = false <-> forall w, In w (windows d) -> owner w <> o.
Proof. intros o d. rewrite <- window_of_none. unfold has_window. destruct (window_of o d); split; congruence. Qed.

Lemma has_window_true : forall o d, has_window o d = true -> exists w, In w (windows d) /\ owner w = o.
Proof. intros o d H. unfold has_window in H. destruct (window_of o d) as [w|] eqn:E; [|discriminate]. exists w. now apply window_of_some. Qed.

Lemma NoDup_map_same : forall (A : Type) (f : A -> N) l a b, NoDup (map f l) -> In a l -> In b l -> f a = f b -> a = b.
Proof.
  intros A f l. induction l as [|x l IH]; intros a b D Ia Ib E; [contradiction|]. cbn [map] in D. inversion D as [|? ? N1 N2]; subst.
  destruct Ia as [->|Ia], Ib as [->|Ib]; try reflexivity.
  - exfalso. apply N1. rewrite E. now apply in_map.
  - exfalso. apply N1. rewrite <- E. now apply in_map.
  - now apply IH.
Qed.

(** ** Objects *)

Lemma find_filter_other : forall (l : list (N * object)) o o', o' <> o ->
  find (fun p => fst p =? o') (filter (fun p => negb (fst p =? o)) l) = find (fun p => fst p =? o') l.
Proof.
  intros l o o' H. induction l as [|[k x] l IH]; [reflexivity|]. cbn [filter find fst]. destruct (N.eqb_spec k o) as [->|K]; cbn [negb].
  - rewrite IH. destruct (N.eqb_spec o o'); [congruence|reflexivity].
  - cbn [find fst]. destruct (k =? o'); [reflexivity|assumption].
Qed.

Lemma find_filter_gone : forall (l : list (N * object)) o, find (fun p => fst p =? o) (filter (fun p => negb (fst p =? o)) l) = None.
Proof.
  intros l o. induction l as [|[k x] l IH]; [reflexivity|]. cbn [filter fst]. destruct (N.eqb_spec k o) as [->|K]; cbn [negb]; [assumption|].
  cbn [find fst]. apply N.eqb_neq in K. rewrite K. assumption.
Qed.

Lemma object_put : forall o x s o', object_at (put o x s) o' = if o' =? o then Some x else object_at s o'.
Proof.
  intros o x s o'. unfold object_at, put, set_objects. cbn [objects find fst snd]. rewrite (N.eqb_sym o o').
  destruct (N.eqb_spec o' o) as [->|H]; [reflexivity|]. now rewrite find_filter_other.
Qed.

Lemma object_gone : forall o s o',
  object_at (set_objects (filter (fun p => negb (fst p =? o)) (objects s)) s) o' = if o' =? o then None else object_at s o'.
Proof.
  intros o s o'. unfold object_at, set_objects. cbn [objects]. destruct (N.eqb_spec o' o) as [->|H].
  - now rewrite find_filter_gone.
  - now rewrite find_filter_other.
Qed.

Lemma alive_object : forall t d s o, agrees t d s -> In o (alive d) -> exists x, object_at s o = Some x.
Proof. intros t d s o A I. apply (ag_alive _ _ _ A) in I. destruct (object_at s o) as [x|]; [now exists x|congruence]. Qed.

(** ** Associations *)

Lemma find_association : forall h l, find (fun a => fst a =? h) (map (fun w => (handle w, owner w)) l) =
  match find (fun w => handle w =? h) l with Some w => Some (handle w, owner w) | None => None end.
Proof. intros h l. induction l as [|w l IH]; [reflexivity|]. cbn [map find fst]. destruct (handle w =? h); [reflexivity|assumption]. Qed.

Lemma associated_window : forall t d s h, agrees t d s ->
  associated h s = match window_at h d with Some w => Some (handle w, owner w) | None => None end.
Proof. intros t d s h A. unfold associated. rewrite (ag_assoc _ _ _ A). apply find_association. Qed.

Lemma erase_out : forall h l, ~ In h (map handle l) -> filter (fun w => negb (handle w =? h)) l = l.
Proof.
  intros h l. induction l as [|w l IH]; intro H; [reflexivity|]. cbn [filter map] in *. destruct (N.eqb_spec (handle w) h) as [E|E]; cbn [negb].
  - exfalso. apply H. now left.
  - rewrite IH; [reflexivity|]. intro I. apply H. now right.
Qed.

Lemma erase_map : forall h l, NoDup (map handle l) ->
  erase_association h (map (fun w => (handle w, owner w)) l) = map (fun w => (handle w, owner w)) (filter (fun w => negb (handle w =? h)) l).
Proof.
  intros h l. induction l as [|w l IH]; intro D; [reflexivity|]. cbn [map] in D. inversion D as [|? ? N1 N2]; subst.
  cbn [map erase_association filter fst]. destruct (N.eqb_spec (handle w) h) as [E|E]; cbn [negb].
  - rewrite erase_out; [reflexivity|now subst].
  - cbn [map]. now rewrite IH.
Qed.

Lemma remove_map : forall h l, remove h (map handle l) = map handle (filter (fun w => negb (handle w =? h)) l).
Proof.
  intros h l. unfold remove. induction l as [|w l IH]; [reflexivity|]. cbn [map filter]. destruct (handle w =? h); cbn [negb map]; now rewrite IH.
Qed.

Lemma remove_in : forall x y l, In y (remove x l) <-> In y l /\ y <> x.
Proof. exact without_in. Qed.

Lemma NoDup_map_filter : forall (A : Type) (f : A -> N) p l, NoDup (map f l) -> NoDup (map f (filter p l)).
Proof.
  intros A f p l. induction l as [|a l IH]; intro D; [constructor|]. cbn [map] in D. inversion D as [|? ? N1 N2]; subst.
  cbn [filter]. destruct (p a); [|now apply IH]. cbn [map]. constructor; [|now apply IH].
  intro I. apply N1. apply in_map_iff in I. destruct I as (b & E & I). apply filter_In in I. rewrite <- E. apply in_map. tauto.
Qed.

(** ** Steps *)

Lemma agrees_tell : forall t d s o h n, agrees t d s -> agrees t (tell o h n d) (add_call (o, h, as_event t n) s).
Proof.
  intros t d s o h n [A1 A2 A3 A4 A5 A6 A7 A8 A9 A10 A11 A12 A13].
  constructor; cbn [tell add_call windows alive closed time story window_associations natives shown clock calls]; try assumption.
  rewrite map_app, A8. reflexivity.
Qed.

Lemma agrees_time : forall t d s z, agrees t d s -> agrees t (with_time z d) (set_clock z s).
Proof.
  intros t d s z [A1 A2 A3 A4 A5 A6 A7 A8 A9 A10 A11 A12 A13].
  constructor; cbn [with_time set_clock windows alive closed time story window_associations natives shown clock calls]; try assumption. reflexivity.
Qed.

Lemma NoDup_snoc : forall (l : list N) x, NoDup l -> ~ In x l -> NoDup (l ++ [x]).
Proof.
  intros l x D H. induction l as [|a l IH]; cbn [app].
  - constructor; [easy|constructor].
  - inversion D as [|? ? N1 N2]; subst. constructor.
    + rewrite in_app_iff. intros [I|[->|[]]]; [contradiction|]. apply H. now left.
    + apply IH; [assumption|]. intro I. apply H. now right.
Qed.

(** [open] for an object without a window. *)
Lemma agrees_open : forall t d s o h, agrees t d s -> In o (alive d) -> ~ In o (closed d) ->
  (forall w, In w (windows d) -> owner w <> o) -> window_at h d = None ->
  agrees t (open_window_for o h d)
    (changed (set_associations (window_associations s ++ [(h, o)])
      (put o {| native := Some h; start_time := clock s; last_time := clock s |} (set_natives (natives s ++ [h]) s)))).
Proof.
  intros t d s o h [A1 A2 A3 A4 A5 A6 A7 A8 A9 A10 A11 A12 A13] L C W F. apply window_at_none in F.
  constructor; cbn [open_window_for with_windows changed set_associations set_natives put set_objects windows alive closed time story window_associations natives shown clock calls]; try assumption.
  - rewrite map_app, A1. reflexivity.
  - rewrite map_app, A2. reflexivity.
  - rewrite map_app. cbn [map handle]. now apply NoDup_snoc.
  - rewrite map_app. cbn [map owner]. apply NoDup_snoc; [assumption|]. intro I. apply in_map_iff in I. destruct I as (w & E & I). exact (W w I E).
  - intros h' I. rewrite map_app. apply in_or_app. left. now apply A5.
  - intros w I. apply in_app_or in I. destruct I as [I|[<-|[]]]; [now apply A6|]. cbn [presented handle].
    symmetry. apply member_out. intro I. apply F. now apply A5.
  - intros w I. apply in_app_or in I. destruct I as [I|[<-|[]]]; [now apply A10|]. cbn [owner]. now split.
  - intros o'. change (In o' (alive d) <-> object_at (put o {| native := Some h; start_time := clock s; last_time := clock s |} s) o' <> None).
    rewrite object_put. destruct (N.eqb_spec o' o) as [->|]; [|apply A11]. split; [discriminate|tauto].
  - intros w I. change (object_at (put o {| native := Some h; start_time := clock s; last_time := clock s |} s) (owner w) =
      Some {| native := Some (handle w); start_time := opened w; last_time := updated w |}). rewrite object_put.
    apply in_app_or in I. destruct I as [I|[<-|[]]].
    + specialize (W w I). apply N.eqb_neq in W. rewrite W. now apply A12.
    + cbn [owner handle opened updated]. rewrite N.eqb_refl, A7. reflexivity.
  - intros o' x. change (object_at (put o {| native := Some h; start_time := clock s; last_time := clock s |} s) o' = Some x -> ~ In o' (closed d) ->
      (forall w, In w (windows d ++ [{| handle := h; owner := o; opened := time d; updated := time d; presented := false |}]) -> owner w <> o') -> native x = None).
    rewrite object_put. intros E K V. destruct (N.eqb_spec o' o) as [->|N].
    + exfalso. refine (V _ _ _); [apply in_or_app; right; left; reflexivity|reflexivity].
    + apply (A13 o'); try assumption. intros w I. apply V. apply in_or_app. now left.
Qed.

(** A new object, without a window. *)
Lemma agrees_new : forall t d s o x, agrees t d s -> ~ In o (alive d) -> native x = None ->
  agrees t (with_alive (o :: alive d) d) (put o x s).
Proof.
  intros t d s o x [A1 A2 A3 A4 A5 A6 A7 A8 A9 A10 A11 A12 A13] L X.
  constructor; cbn [with_alive put set_objects windows alive closed time story window_associations natives shown clock calls]; try assumption.
  - intros o' I. right. now apply A9.
  - intros w I. destruct (A10 w I). split; [now right|assumption].
  - intros o'. change (In o' (o :: alive d) <-> object_at (put o x s) o' <> None). rewrite object_put.
    destruct (N.eqb_spec o' o) as [->|]; [split; [discriminate|intros _; now left]|]. rewrite <- A11. cbn [In]. split; [intros [->|?]; [congruence|assumption]|tauto].
  - intros w I. change (object_at (put o x s) (owner w) = Some {| native := Some (handle w); start_time := opened w; last_time := updated w |}).
    rewrite object_put. destruct (N.eqb_spec (owner w) o) as [<-|]; [|now apply A12]. exfalso. apply L. apply (A10 w I).
  - intros o' y. change (object_at (put o x s) o' = Some y -> ~ In o' (closed d) -> (forall w, In w (windows d) -> owner w <> o') -> native y = None).
    rewrite object_put. intros E K V. destruct (N.eqb_spec o' o) as [->|N]; [congruence|]. now apply (A13 o').
Qed.

(** The end of an object without a window. *)
Lemma agrees_destroy : forall t d s o, agrees t d s -> (forall w, In w (windows d) -> owner w <> o) ->
  agrees t (with_closed (without o (closed d)) (with_alive (without o (alive d)) d))
    (set_objects (filter (fun p => negb (fst p =? o)) (objects s)) s).
Proof.
  intros t d s o [A1 A2 A3 A4 A5 A6 A7 A8 A9 A10 A11 A12 A13] W.
  constructor; cbn [with_alive with_closed windows alive closed time story]; try assumption.
  - intros o' I. apply without_in in I. apply without_in. destruct I. split; [now apply A9|assumption].
  - intros w I. rewrite !without_in. destruct (A10 w I). split; [split; [assumption|now apply W]|tauto].
  - intros o'. rewrite object_gone, without_in. destruct (N.eqb_spec o' o) as [->|N]; [split; [tauto|congruence]|]. rewrite A11. tauto.
  - intros w I. rewrite object_gone. specialize (W w I). apply N.eqb_neq in W. rewrite W. now apply A12.
  - intros o' x. rewrite object_gone, without_in. destruct (N.eqb_spec o' o) as [->|N]; [discriminate|]. intros E K V. apply (A13 o'); try assumption. tauto.
Qed.

Lemma agrees_present : forall t d s o w, agrees t d s -> In w (windows d) -> owner w = o ->
  agrees t (present o d) (set_shown (handle w :: shown s) s).
Proof.
  intros t d s o w [A1 A2 A3 A4 A5 A6 A7 A8 A9 A10 A11 A12 A13] Iw Ow.
  set (g := fun w => if owner w =? o then {| handle := handle w; owner := owner w; opened := opened w; updated := updated w; presented := true |} else w).
  assert (G1 : forall l, map (fun w => (handle w, owner w)) (map g l) = map (fun w => (handle w, owner w)) l).
  { intro l. rewrite map_map. apply map_ext. intro v. unfold g. destruct (owner v =? o); reflexivity. }
  assert (G2 : forall l, map handle (map g l) = map handle l).
  { intro l. rewrite map_map. apply map_ext. intro v. unfold g. destruct (owner v =? o); reflexivity. }
  assert (G3 : forall l, map owner (map g l) = map owner l).
  { intro l. rewrite map_map. apply map_ext. intro v. unfold g. destruct (owner v =? o); reflexivity. }
  assert (G4 : forall v, handle (g v) = handle v /\ owner (g v) = owner v /\ opened (g v) = opened v /\ updated (g v) = updated v).
  { intro v. unfold g. destruct (owner v =? o); repeat split. }
  constructor; cbn [present with_windows set_shown windows alive closed time story window_associations natives shown clock calls]; try assumption; fold g.
  - now rewrite G1.
  - now rewrite G2.
  - now rewrite G2.
  - now rewrite G3.
  - rewrite G2. intros h [<-|I]; [|now apply A5]. now apply in_map.
  - intros v I. apply in_map_iff in I. destruct I as (u & <- & I). destruct (G4 u) as (-> & _). unfold g.
    destruct (N.eqb_spec (owner u) o) as [E|E]; cbn [presented].
    + symmetry. apply member_in. left. f_equal. apply (NoDup_map_same _ owner (windows d)); congruence || assumption.
    + rewrite (A6 u I). unfold member. cbn [existsb]. destruct (N.eqb_spec (handle u) (handle w)) as [E'|]; [|reflexivity]. exfalso. apply E.
      rewrite <- Ow. f_equal. apply (NoDup_map_same _ handle (windows d)); assumption.
  - intros v I. apply in_map_iff in I. destruct I as (u & <- & I). destruct (G4 u) as (_ & -> & _). now apply A10.
  - intros v I. apply in_map_iff in I. destruct I as (u & <- & I). destruct (G4 u) as (-> & -> & -> & ->). now apply (A12 u).
  - intros o' x E K V. apply (A13 o' x E K). intros u I. destruct (G4 u) as (_ & <- & _). apply V. now apply in_map.
Qed.

Lemma present_none : forall o d, (forall w, In w (windows d) -> owner w <> o) -> present o d = d.
Proof.
  intros o d H. unfold present, with_windows. destruct d as [ws al cl ti st]. cbn [windows alive closed time story] in *. f_equal.
  rewrite <- (map_id ws) at 2. apply map_ext_in. intros w I. specialize (H w I). apply N.eqb_neq in H. now rewrite H.
Qed.

(** The update of a window. *)
Lemma agrees_touch : forall t d s w, agrees t d s -> In w (windows d) ->
  agrees t (touch (handle w) d)
    (put (owner w) {| native := Some (handle w); start_time := opened w; last_time := clock s |} s).
Proof.
  intros t d s w [A1 A2 A3 A4 A5 A6 A7 A8 A9 A10 A11 A12 A13] Iw.
  set (g := fun v => if handle v =? handle w then {| handle := handle v; owner := owner v; opened := opened v; updated := time d; presented := presented v |} else v).
  assert (G4 : forall v, handle (g v) = handle v /\ owner (g v) = owner v /\ opened (g v) = opened v /\ presented (g v) = presented v).
  { intro v. unfold g. destruct (handle v =? handle w); repeat split. }
  assert (G1 : forall l, map (fun w => (handle w, owner w)) (map g l) = map (fun w => (handle w, owner w)) l).
  { intro l. rewrite map_map. apply map_ext. intro v. destruct (G4 v) as (-> & -> & _). reflexivity. }
  assert (G2 : forall l, map handle (map g l) = map handle l).
  { intro l. rewrite map_map. apply map_ext. intro v. apply G4. }
  assert (G3 : forall l, map owner (map g l) = map owner l).
  { intro l. rewrite map_map. apply map_ext. intro v. apply G4. }
  constructor; cbn [touch with_windows put set_objects windows alive closed time story window_associations natives shown clock calls]; try assumption; fold g.
  - now rewrite G1.
  - now rewrite G2.
  - now rewrite G2.
  - now rewrite G3.
  - now rewrite G2.
  - intros v I. apply in_map_iff in I. destruct I as (u & <- & I). destruct (G4 u) as (-> & _ & _ & ->). now apply A6.
  - intros v I. apply in_map_iff in I. destruct I as (u & <- & I). destruct (G4 u) as (_ & -> & _). now apply A10.
  - intro o'. change (In o' (alive d) <-> object_at (put (owner w) {| native := Some (handle w); start_time := opened w; last_time := clock s |} s) o' <> None).
    rewrite object_put. destruct (N.eqb_spec o' (owner w)) as [->|]; [|apply A11]. split; [discriminate|]. intros _. now apply A10.
  - intros v I. change (object_at (put (owner w) {| native := Some (handle w); start_time := opened w; last_time := clock s |} s) (owner v) =
      Some {| native := Some (handle v); start_time := opened v; last_time := updated v |}). rewrite object_put.
    apply in_map_iff in I. destruct I as (u & <- & I). destruct (G4 u) as (-> & -> & -> & _). unfold g.
    destruct (N.eqb_spec (owner u) (owner w)) as [E|E].
    + assert (u = w) by now apply (NoDup_map_same _ owner (windows d)). subst u. rewrite N.eqb_refl. cbn [updated]. now rewrite A7.
    + destruct (N.eqb_spec (handle u) (handle w)) as [E'|_]; [|now apply A12]. exfalso. apply E. f_equal. now apply (NoDup_map_same _ handle (windows d)).
  - intros o' x. change (object_at (put (owner w) {| native := Some (handle w); start_time := opened w; last_time := clock s |} s) o' = Some x ->
      ~ In o' (closed d) -> (forall v, In v (map g (windows d)) -> owner v <> o') -> native x = None).
    rewrite object_put. intros E K V. assert (V' : forall u, In u (windows d) -> owner u <> o').
    { intros u I. destruct (G4 u) as (_ & <- & _). apply V. now apply in_map. }
    destruct (N.eqb_spec o' (owner w)) as [->|N]; [exfalso; exact (V' w Iw eq_refl)|]. now apply (A13 o').
Qed.

(** A window is closed. *)
Lemma agrees_drop : forall t d s w, agrees t d s -> In w (windows d) ->
  agrees t (drop_window (handle w) d)
    (destroy_native (handle w) (changed (set_associations (erase_association (handle w) (window_associations s)) s))).
Proof.
  intros t d s w A Iw. assert (F : window_at (handle w) d = Some w).
  { destruct (window_at (handle w) d) as [v|] eqn:E.
    - apply window_at_some in E. destruct E as [I E]. f_equal. now apply (NoDup_map_same _ handle (windows d)); [apply (ag_handles _ _ _ A)| | |].
    - exfalso. apply window_at_none in E. apply E. now apply in_map. }
  unfold drop_window. rewrite F. destruct A as [A1 A2 A3 A4 A5 A6 A7 A8 A9 A10 A11 A12 A13].
  assert (FI : forall v, In v (filter (fun w0 => negb (handle w0 =? handle w)) (windows d)) <-> In v (windows d) /\ v <> w).
  { intro v. rewrite filter_In, negb_true_iff, N.eqb_neq. split; intros [I E]; (split; [assumption|]).
    - now intros ->.
    - intro E'. apply E. now apply (NoDup_map_same _ handle (windows d)). }
  constructor; cbn [destroy_native changed set_associations set_shown set_natives windows alive closed time story window_associations natives shown clock calls]; try assumption.
  - rewrite A1. now apply erase_map.
  - rewrite A2. apply remove_map.
  - now apply NoDup_map_filter.
  - now apply NoDup_map_filter.
  - intros h I. apply remove_in in I. destruct I as [I N]. apply A5 in I. apply in_map_iff in I. destruct I as (v & E & I). apply in_map_iff. exists v.
    split; [assumption|]. apply FI. split; [assumption|]. intros ->; congruence.
  - intros v I. apply FI in I. destruct I as [I N]. rewrite (A6 v I).
    assert (Nh : handle v <> handle w) by (intro E; apply N; now apply (NoDup_map_same _ handle (windows d))).
    destruct (member (handle v) (shown s)) eqn:E.
    + symmetry. apply member_in. apply remove_in. split; [now apply member_in|assumption].
    + symmetry. apply member_out. rewrite remove_in. apply member_out in E. tauto.
  - intros o [<-|I]; [|now apply A9]. now apply A10.
  - intros v I. apply FI in I. destruct I as [I N]. destruct (A10 v I) as [L C]. split; [assumption|]. intros [E|I']; [|contradiction].
    apply N. now apply (NoDup_map_same _ owner (windows d)).
  - intros v I. apply FI in I. destruct I as [I N]. now apply A12.
  - intros o x E K V. apply (A13 o x E).
    + intro I. apply K. now right.
    + intros v I Ov. destruct (N.eq_dec (handle v) (handle w)) as [Eh|Nh].
      * assert (v = w) by now apply (NoDup_map_same _ handle (windows d)). subst v. apply K. now left.
      * refine (V v _ Ov). apply FI. split; [assumption|]. now intros ->.
Qed.

(** ** Moves *)

Lemma redirect_map : forall h o l, NoDup (map handle l) -> In h (map handle l) ->
  redirect h o (map (fun w => (handle w, owner w)) l) =
  Some (map (fun w => (handle w, if handle w =? h then o else owner w)) l).
Proof.
  intros h o l. induction l as [|w l IH]; intros D I; [contradiction|]. cbn [map] in *. inversion D as [|? ? N1 N2]; subst. cbn [redirect fst].
  destruct (N.eqb_spec (handle w) h) as [E|E].
  - rewrite E. f_equal. f_equal. apply map_ext_in. intros v Iv. destruct (N.eqb_spec (handle v) h) as [E'|]; [|reflexivity].
    exfalso. apply N1. rewrite E, <- E'. now apply in_map.
  - destruct I as [I|I]; [contradiction|]. now rewrite IH.
Qed.

(** A window passes to an object that has none and is not [from]. *)
Lemma agrees_take_over : forall t d s o from, agrees t d s -> In from (alive d) -> ~ In from (closed d) -> o <> from ->
  (forall w, In w (windows d) -> owner w <> o) ->
  exists s', take_over o from s = Ok s' /\
    agrees t (hand_over from o (with_closed (without o (closed d)) (with_alive (o :: without o (alive d)) d))) s'.
Proof.
  intros t d s o from A L C Hne W. destruct (alive_object _ _ _ _ A L) as [x Hx]. unfold take_over, with_object. rewrite Hx.
  set (g := fun w => if owner w =? from then {| handle := handle w; owner := o; opened := opened w; updated := updated w; presented := presented w |} else w).
  assert (G4 : forall v, handle (g v) = handle v /\ opened (g v) = opened v /\ updated (g v) = updated v /\ presented (g v) = presented v).
  { intro v. unfold g. destruct (owner v =? from); repeat split. }
  assert (G2 : forall l, map handle (map g l) = map handle l).
  { intro l. rewrite map_map. apply map_ext. intro v. apply G4. }
  assert (Go : forall v, owner (g v) = if owner v =? from then o else owner v).
  { intro v. unfold g. destruct (owner v =? from); reflexivity. }
  assert (G3 : NoDup (map owner (map g (windows d)))).
  { rewrite map_map. pose proof (ag_owners _ _ _ A) as D. clear - D W Go Hne. induction (windows d) as [|w l IH]; [constructor|].
    cbn [map] in *. inversion D as [|? ? N1 N2]; subst. constructor.
    - intro I. apply in_map_iff in I. destruct I as (v & E & I). rewrite !Go in E. apply N1.
      destruct (N.eqb_spec (owner w) from) as [Ew|Ew], (N.eqb_spec (owner v) from) as [Ev|Ev].
      + rewrite Ew, <- Ev. now apply in_map.
      + exfalso. exact (W v (or_intror I) E).
      + exfalso. exact (W w (or_introl eq_refl) (eq_sym E)).
      + rewrite <- E. now apply in_map.
    - apply IH; [|assumption]. intros v I. apply W. now right. }
  set (a' := map (fun w => (handle w, owner w)) (map g (windows d))).
  assert (Fix : bind (match native x with Some h => fix_association h o (put o x s) | None => Ok (put o x s) end)
      (fun s0 => match object_at s0 from with Some x0 => Ok (put from {| native := None; start_time := start_time x0; last_time := last_time x0 |} s0) | None => UB DanglingPointer end) =
    Ok (put from {| native := None; start_time := start_time x; last_time := last_time x |} (set_associations a' (put o x s)))).
  { destruct (window_of from d) as [w|] eqn:Ew.
    - apply window_of_some in Ew. destruct Ew as [Iw Ow]. pose proof (ag_open _ _ _ A w Iw) as X. rewrite Ow, Hx in X. injection X as ->. cbn [native].
      unfold fix_association. change (window_associations (put o _ s)) with (window_associations s). rewrite (ag_assoc _ _ _ A).
      rewrite redirect_map; [|apply (ag_handles _ _ _ A)|now apply in_map]. cbn [bind].
      replace (map (fun w0 => (handle w0, if handle w0 =? handle w then o else owner w0)) (windows d)) with a'.
      + match goal with |- context [object_at (set_associations a' ?p) from] => change (object_at (set_associations a' p) from) with (object_at p from) end.
        rewrite object_put. apply not_eq_sym in Hne. apply N.eqb_neq in Hne. rewrite Hne, Hx. reflexivity.
      + unfold a'. rewrite map_map. apply map_ext_in. intros v Iv. destruct (G4 v) as (-> & _). rewrite Go.
        destruct (N.eqb_spec (owner v) from) as [E|E], (N.eqb_spec (handle v) (handle w)) as [E'|E']; try reflexivity; exfalso.
        * apply E'. f_equal. apply (NoDup_map_same _ owner (windows d)); try assumption; [apply (ag_owners _ _ _ A)|congruence].
        * apply E. rewrite <- Ow. f_equal. apply (NoDup_map_same _ handle (windows d)); try assumption. apply (ag_handles _ _ _ A).
    - pose proof (proj1 (window_of_none _ _) Ew) as V. rewrite (ag_empty _ _ _ A from x Hx C V). cbn [bind]. rewrite object_put.
      pose proof (not_eq_sym Hne) as Hne'. apply N.eqb_neq in Hne'. rewrite Hne', Hx. do 2 f_equal.
      replace a' with (window_associations s); [destruct s; reflexivity|]. rewrite (ag_assoc _ _ _ A). unfold a'. rewrite map_map. apply map_ext_in.
      intros v Iv. unfold g. specialize (V v Iv). apply N.eqb_neq in V. rewrite V. reflexivity. }
  rewrite Fix. eexists. split; [reflexivity|].
  assert (Obj : forall o', object_at (put from {| native := None; start_time := start_time x; last_time := last_time x |} (set_associations a' (put o x s))) o' =
    if o' =? from then Some {| native := None; start_time := start_time x; last_time := last_time x |} else if o' =? o then Some x else object_at s o').
  { intro o'. rewrite object_put. match goal with |- context [object_at (set_associations a' ?p) ?q] => change (object_at (set_associations a' p) q) with (object_at p q) end.
    now rewrite object_put. }
  pose proof Hne as Hne1. apply N.eqb_neq in Hne1. pose proof (not_eq_sym Hne) as Hne2. apply N.eqb_neq in Hne2.
  destruct A as [A1 A2 A3 A4 A5 A6 A7 A8 A9 A10 A11 A12 A13].
  constructor; cbn [hand_over with_windows with_closed with_alive put set_objects set_associations windows alive closed time story window_associations natives shown clock calls]; try assumption; fold g.
  - reflexivity.
  - now rewrite G2.
  - now rewrite G2.
  - now rewrite G2.
  - intros v I. apply in_map_iff in I. destruct I as (u & <- & I). destruct (G4 u) as (-> & _ & _ & ->). now apply A6.
  - intros o' I. apply without_in in I. destruct I as [I N]. right. apply without_in. split; [now apply A9|assumption].
  - intros v I. apply in_map_iff in I. destruct I as (u & <- & I). rewrite Go. destruct (A10 u I) as [Lu Cu].
    destruct (N.eqb_spec (owner u) from) as [E|E].
    + split; [now left|]. rewrite without_in. tauto.
    + pose proof (W u I). split; [right; now apply without_in|]. rewrite without_in. tauto.
  - intro o'. change (In o' (o :: without o (alive d)) <-> object_at (put from {| native := None; start_time := start_time x; last_time := last_time x |} (set_associations a' (put o x s))) o' <> None).
    rewrite Obj. cbn [In]. rewrite without_in. destruct (N.eqb_spec o' from) as [->|E1].
    + split; [discriminate|]. intros _. right. split; [assumption|]. now apply not_eq_sym.
    + destruct (N.eqb_spec o' o) as [->|E2]; [split; [discriminate|intros _; now left]|]. rewrite <- A11.
      split; [intros [E|[I _]]; [congruence|assumption]|]. intro I. right. now split.
  - intros v I. change (object_at (put from {| native := None; start_time := start_time x; last_time := last_time x |} (set_associations a' (put o x s))) (owner v) =
      Some {| native := Some (handle v); start_time := opened v; last_time := updated v |}). rewrite Obj.
    apply in_map_iff in I. destruct I as (u & <- & I). rewrite Go. destruct (G4 u) as (-> & -> & -> & _).
    destruct (N.eqb_spec (owner u) from) as [E|E].
    + rewrite Hne1, N.eqb_refl. rewrite <- Hx, <- E. now apply A12.
    + apply N.eqb_neq in E. rewrite E. pose proof (W u I) as Wu. apply N.eqb_neq in Wu. rewrite Wu. now apply A12.
  - intros o' y. change (object_at (put from {| native := None; start_time := start_time x; last_time := last_time x |} (set_associations a' (put o x s))) o' = Some y ->
      ~ In o' (without o (closed d)) -> (forall v, In v (map g (windows d)) -> owner v <> o') -> native y = None).
    rewrite Obj, without_in. intros E K V. destruct (N.eqb_spec o' from) as [->|E1]; [injection E as <-; reflexivity|].
    destruct (N.eqb_spec o' o) as [->|E2].
    + injection E as <-. apply (A13 from); try assumption. intros u I Eu. refine (V (g u) (in_map _ _ _ I) _). rewrite Go, Eu, N.eqb_refl. reflexivity.
    + apply (A13 o'); try assumption; [tauto|]. intros u I Eu. refine (V (g u) (in_map _ _ _ I) _). rewrite Go, Eu. apply N.eqb_neq in E1. rewrite E1. reflexivity.
Qed.
