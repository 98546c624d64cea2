(** Copying and moving opaque container resources: the properties. *)
From Coq Require Import NArith ZArith List Bool Lia ZifyBool ZifyN.
From Verif Require Import Base Integers ResourceModel ResourceSpec ResourceText OpaqueModel.
Import ListNotations.
Open Scope Z_scope.

Lemma find_put_same : forall a o w, find_object a (put a o w) = Some o.
Proof. intros. unfold find_object, put. cbn [find]. now rewrite N.eqb_refl. Qed.

Lemma find_remove : forall a b w, a <> b -> find_object a (remove_object b w) = find_object a w.
Proof.
  intros a b w H. unfold find_object, remove_object. f_equal. induction w as [|[c o] w IH]; [reflexivity|].
  cbn [filter find]. destruct (N.eqb b c) eqn:E; cbn [negb].
  - apply N.eqb_eq in E. subst c. replace (N.eqb a b) with false by lia. exact IH.
  - cbn [find]. destruct (N.eqb a c); [reflexivity|exact IH].
Qed.

Lemma find_put_other : forall a b o w, a <> b -> find_object a (put b o w) = find_object a w.
Proof.
  intros a b o w H. unfold put. rewrite <- (find_remove a b w H). unfold find_object. cbn [find].
  now replace (N.eqb a b) with false by lia.
Qed.

Lemma find_destroyed : forall a w, find_object a (destroy a w) = None.
Proof.
  intros a w. unfold destroy, find_object, remove_object. induction w as [|[c o] w IH]; [reflexivity|].
  cbn [filter]. destruct (N.eqb a c) eqn:E; cbn [negb]; [exact IH|]. cbn [find]. rewrite E. exact IH.
Qed.

(** The property: after copying, using the copy leaves the original's content alone.
    It does not: a byte written through the copy goes to the original, and the copy's
    own content stays as it was. *)
Theorem C57_copy_refuted :
  exists w, acts 1 [] [Construct 1 [65; 66; 67]%N 0; Copy 1 2; Use 2 (Write [120]%N)]
            = Ok (w, [None; None; Some (Wrote 1)]) /\
    grab_content 1 w = Some [120; 66; 67]%N /\ grab_content 2 w = Some [65; 66; 67]%N.
Proof. eexists. split; [vm_compute; reflexivity|]. split; vm_compute; reflexivity. Qed.
Print Assumptions C57_copy_refuted.

(** After a move the new object reads the moved-from object's content: nothing. *)
Theorem C57_move_refuted :
  exists w, acts 1 [] [Construct 1 [65; 66; 67]%N 0; Move 1 2; Use 2 (Read [0; 0]%N 2)]
            = Ok (w, [None; None; Some (Got [0; 0]%N 0)]) /\
    grab_content 2 w = Some [65; 66; 67]%N.
Proof. eexists. split; vm_compute; reflexivity. Qed.
Print Assumptions C57_move_refuted.

(** Once the original is gone, using the copy is undefined behaviour. *)
Theorem C57_dangling_refuted :
  acts 1 [] [Construct 1 [65; 66; 67]%N 0; Copy 1 2; Destroy 1; Use 2 (Read [0; 0]%N 2)] = UB DanglingPointer.
Proof. vm_compute. reflexivity. Qed.
Print Assumptions C57_dangling_refuted.

(** These are not accidents.  For every object at [from] that works on its own
    content, every call on a copy of it leaves the copy's own content as it was
    copied and gives the original's content what the call does; and it is undefined
    behaviour once the original is gone. *)
Theorem C57_copy : forall width w from to o c w1 w2 ans, from <> to ->
  find_object from w = Some o -> points_to o = from ->
  copy from to w = Ok w1 -> call_object width to c w1 = Ok (w2, ans) ->
  grab_content to w2 = Some (own o) /\
  exists r, call_io (Resource (Container (own o) width (place o) (fill_amount o)) (obuf o)) c = Ok (r, ans) /\
    grab_content from w2 = Some (content (inner r)).
Proof.
  intros width w from to o c w1 w2 ans D F P C U. unfold copy in C. rewrite F in C. injection C as <-.
  unfold call_object in U. rewrite find_put_same in U. rewrite P in U. rewrite find_put_other, F in U by assumption.
  destruct (call_io _ c) as [[r a]| | | |] eqn:E; try discriminate. cbn [bind] in U.
  rewrite find_put_other, find_put_same in U by auto. injection U as <- <-.
  unfold grab_content. split.
  - now rewrite find_put_same.
  - exists r. split; [reflexivity|]. rewrite find_put_other, find_put_same by auto. reflexivity.
Qed.
Print Assumptions C57_copy.

Theorem C57_dangling : forall width w from to o c w1, from <> to ->
  find_object from w = Some o -> points_to o = from ->
  copy from to w = Ok w1 -> call_object width to c (destroy from w1) = UB DanglingPointer.
Proof.
  intros width w from to o c w1 D F P C. unfold copy in C. rewrite F in C. injection C as <-.
  unfold call_object, destroy. rewrite find_remove, find_put_same by auto. rewrite P.
  change (remove_object from (put to o w)) with (destroy from (put to o w)). now rewrite find_destroyed.
Qed.
Print Assumptions C57_dangling.

Example C57_copy_example :
  let w := construct 1 [65; 66]%N 0 [] in
  exists o w1 w2 ans, find_object 1 w = Some o /\ points_to o = 1%N /\ copy 1 2 w = Ok w1 /\
    call_object 1 2 (Write [120]%N) w1 = Ok (w2, ans) /\ ans = Wrote 1.
Proof.
  cbn zeta. do 4 eexists. split; [vm_compute; reflexivity|]. split; [reflexivity|]. split; [vm_compute; reflexivity|].
  split; [vm_compute; reflexivity|]. reflexivity.
Qed.

(** No call changes the size of an element. *)
Ltac step H := match type of H with bind ?m _ = _ => let E := fresh "E" in destruct m as [?| | | |] eqn:E; try discriminate; cbn [bind] in H end.
Ltac pairs := repeat match goal with x : (_ * _)%type |- _ => destruct x end.

Lemma raw_read_elem : forall c dst off n rr c' dst' k,
  raw_read container_ops c dst off n rr = Ok (c', dst', k) -> elem c' = elem c.
Proof.
  intros c dst off n rr c' dst' k H. unfold container_ops in H. cbn [raw_read] in H. unfold container_read in H. cbv zeta in H.
  step H. injection H as <- <- <-. destruct rr; [reflexivity|].
  unfold go_back, set_position_raw, set_position. cbn [elem]. now destruct (0 <? last_fill c).
Qed.

Lemma raw_write_elem : forall c d c' k, raw_write container_ops c d = Ok (c', k) -> elem c' = elem c.
Proof.
  intros c d c' k H. unfold container_ops in H. cbn [raw_write] in H. unfold container_write in H. cbv zeta in H.
  step H. injection H as <- <-. reflexivity.
Qed.

Lemma fill_elem : forall r r' k, fill container_ops r = Ok (r', k) -> elem (inner r') = elem (inner r).
Proof.
  intros r r' k H. unfold fill in H. step H. pairs. injection H as <- <-. cbn [inner]. eapply raw_read_elem. eassumption.
Qed.

Lemma flush_elem : forall r r', flush container_ops r = Ok r' -> elem (inner r') = elem (inner r).
Proof.
  intros r r' H. unfold flush in H. destruct (write_dirty (buf r)); [|now injection H as <-].
  step H. step H. pairs. injection H as <-. cbn [inner]. eapply raw_write_elem. eassumption.
Qed.

Lemma read_elem : forall r dst n r' dst' k, read container_ops r dst n = Ok (r', dst', k) -> elem (inner r') = elem (inner r).
Proof.
  intros r dst n r' dst' k H. unfold read in H. destruct (0 <? capacity (buf r)).
  - unfold read_buffered in H. step H.
    assert (E1 : elem (inner a) = elem (inner r)).
    { destruct (read_dirty (buf r)); [|now injection E as <-]. step E. pairs. injection E as <-. eapply fill_elem. eassumption. }
    rewrite <- E1. clear E E1. destruct (filled (buf a) <? bpos (buf a) + n).
    + cbv zeta in H. step H. pairs. 
      assert (E1 : elem (inner r0) = elem (inner a)).
      { destruct (0 <? as_size (filled (buf a) - bpos (buf a))); [|now injection E as <- <- <- <-].
        step E. pairs. injection E as <- <- <- <-. reflexivity. }
      rewrite <- E1. clear E E1. destruct (capacity (buf r0) <? z).
      * step H. pairs. injection H as <- <- <-. cbn [inner]. eapply raw_read_elem. eassumption.
      * step H. pairs. step H. pairs. injection H as <- <- <-. cbn [inner]. eapply fill_elem. eassumption.
    + step H. pairs. injection H as <- <- <-. reflexivity.
  - step H. pairs. injection H as <- <- <-. cbn [inner]. eapply raw_read_elem. eassumption.
Qed.

Lemma write_elem : forall r d r' k, write container_ops r d = Ok (r', k) -> elem (inner r') = elem (inner r).
Proof.
  intros r d r' k H. unfold write in H. destruct (0 <? capacity (buf r)).
  - unfold write_buffered in H. cbv zeta in H. step H.
    assert (E1 : elem (inner a) = elem (inner r)).
    { destruct (capacity (buf r) <? bpos (buf r) + size_of d); [now apply flush_elem|now injection E as <-]. }
    rewrite <- E1. destruct ((capacity (buf r) <? bpos (buf r) + size_of d) && (capacity (buf r) <? size_of d)).
    + step H. pairs. injection H as <- <-. cbn [inner]. eapply raw_write_elem. eassumption.
    + step H. injection H as <- <-. reflexivity.
  - step H. pairs. injection H as <- <-. cbn [inner]. eapply raw_write_elem. eassumption.
Qed.

Lemma call_elem : forall r c r' ans, call_io r c = Ok (r', ans) -> elem (inner r') = elem (inner r).
Proof.
  intros r c r' ans H. destruct c as [b n|d| |n o|n|n]; cbn [call_io] in H.
  - step H. pairs. injection H as <- <-. eapply read_elem. eassumption.
  - step H. pairs. injection H as <- <-. eapply write_elem. eassumption.
  - step H. injection H as <- <-. eapply flush_elem. eassumption.
  - step H. injection H as <- <-. unfold seek_io in E. destruct (flush container_ops r) eqn:F; try discriminate.
    cbn [bind noexcept] in E. injection E as <-. cbn [inner]. rewrite <- (flush_elem _ _ F). reflexivity.
  - injection H as <- <-. reflexivity.
  - injection H as <- <-. reflexivity.
Qed.

(** Whether an action concerns the object at address a other than by using it. *)
Definition leaves_alone (a : N) (x : action) : Prop :=
  match x with
  | Construct b _ _ | Destroy b => b <> a
  | Copy from to => from <> a /\ to <> a
  | Move from to => from <> a /\ to <> a
  | Use _ _ => True
  end.

Definition calls_on (a : N) (xs : list action) : list call :=
  flat_map (fun x => match x with Use b c => if N.eqb a b then [c] else [] | _ => [] end) xs.

Definition answers_on (a : N) (xs : list action) (l : list (option answer)) : list answer :=
  flat_map (fun '(x, o) => match x, o with Use b _, Some ans => if N.eqb a b then [ans] else [] | _, _ => [] end)
    (combine xs l).

Definition own_only (a : N) (w : world) : Prop :=
  forall b o, find_object b w = Some o -> (points_to o = a <-> b = a).

Lemma own_only_step : forall width a x w w' r, own_only a w -> leaves_alone a x ->
  act width w x = Ok (w', r) -> own_only a w'.
Proof.
  intros width a x w w' r I L H. destruct x as [b l cap|from to|from to|b|b c]; cbn [act leaves_alone] in *.
  - injection H as <- _. intros d o F. unfold construct in F. destruct (N.eq_dec d b) as [->|N].
    + rewrite find_put_same in F. injection F as <-. cbn. tauto.
    + rewrite find_put_other in F by assumption. now apply I.
  - unfold copy in H. destruct (find_object from w) as [o|] eqn:F; try discriminate. injection H as <- _.
    intros d o' F'. destruct (N.eq_dec d to) as [->|N].
    + rewrite find_put_same in F'. injection F' as <-. specialize (I _ _ F). destruct L. tauto.
    + rewrite find_put_other in F' by assumption. now apply I.
  - unfold move in H. destruct (find_object from w) as [o|] eqn:F; try discriminate. injection H as <- _.
    assert (If := I _ _ F). destruct L as [L1 L2].
    intros d o' F'. destruct (N.eq_dec d from) as [->|N].
    + rewrite find_put_same in F'. injection F' as <-. cbn. tauto.
    + rewrite find_put_other in F' by assumption. destruct (N.eq_dec d to) as [->|N'].
      * rewrite find_put_same in F'. injection F' as <-. tauto.
      * rewrite find_put_other in F' by assumption. now apply I.
  - injection H as <- _. intros d o F. unfold destroy in F. destruct (N.eq_dec d b) as [->|N].
    + change (remove_object b w) with (destroy b w) in F. rewrite find_destroyed in F. discriminate.
    + rewrite find_remove in F by assumption. now apply I.
  - unfold call_object in H. destruct (find_object b w) as [o|] eqn:F; try discriminate.
    destruct (find_object (points_to o) w) as [t|] eqn:T; try discriminate.
    destruct (call_io _ c) as [[r1 ans]| | | |]; try discriminate. cbn [bind] in H.
    set (w1 := put (points_to o) (Object (content (inner r1)) (points_to t) (place t) (fill_amount t) (obuf t)) w) in *.
    assert (I1 : own_only a w1).
    { intros d o' F'. unfold w1 in F'. destruct (N.eq_dec d (points_to o)) as [->|N].
      - rewrite find_put_same in F'. injection F' as <-. cbn. now apply (I _ t).
      - rewrite find_put_other in F' by assumption. now apply I. }
    destruct (find_object b w1) as [o1|] eqn:F1; try discriminate. cbn [bind] in H. injection H as <- _.
    intros d o' F'. destruct (N.eq_dec d b) as [->|N].
    + rewrite find_put_same in F'. injection F' as <-. cbn. now apply (I1 _ o1).
    + rewrite find_put_other in F' by assumption. now apply I1.
Qed.

(** One step, seen from the object at a. *)
Lemma own_step : forall width a x w w' r o, own_only a w -> leaves_alone a x -> find_object a w = Some o ->
  act width w x = Ok (w', r) ->
  let res := Resource (Container (own o) width (place o) (fill_amount o)) (obuf o) in
  match x with
  | Use b c =>
      if N.eqb a b
      then exists r1 ans, call_io res c = Ok (r1, ans) /\ r = Some ans /\
           find_object a w' = Some (Object (content (inner r1)) a (position (inner r1)) (last_fill (inner r1)) (buf r1))
      else find_object a w' = Some o
  | _ => find_object a w' = Some o
  end.
Proof.
  intros width a x w w' r o I L A H res. destruct x as [b l cap|from to|from to|b|b c]; cbn [act leaves_alone] in *.
  - injection H as <- _. unfold construct. now rewrite find_put_other by auto.
  - unfold copy in H. destruct (find_object from w) as [o'|] eqn:F; try discriminate. injection H as <- _.
    destruct L. now rewrite find_put_other by auto.
  - unfold move in H. destruct (find_object from w) as [o'|] eqn:F; try discriminate. injection H as <- _.
    destruct L. now rewrite !find_put_other by auto.
  - injection H as <- _. unfold destroy. now rewrite find_remove by auto.
  - unfold call_object in H. destruct (N.eqb a b) eqn:E.
    + apply N.eqb_eq in E. subst b. rewrite A in H. assert (P : points_to o = a) by now apply (I _ _ A).
      rewrite P, A in H. fold res in H. destruct (call_io res c) as [[r1 ans]| | | |] eqn:C; try discriminate.
      cbn [bind] in H. rewrite find_put_same in H. cbn [bind own points_to] in H. injection H as <- <-.
      exists r1, ans. split; [reflexivity|]. split; [reflexivity|]. rewrite find_put_same. now rewrite P.
    + assert (b <> a) by lia. destruct (find_object b w) as [o'|] eqn:F; try discriminate.
      destruct (find_object (points_to o') w) as [t|] eqn:T; try discriminate.
      destruct (call_io _ c) as [[r1 ans]| | | |]; try discriminate. cbn [bind] in H.
      match type of H with context [find_object b ?w1] => destruct (find_object b w1) as [o1|] eqn:F1; try discriminate end.
      cbn [bind] in H. injection H as <- _. rewrite find_put_other by auto. rewrite find_put_other; [assumption|].
      intros X. apply H0. apply (I _ _ F). now symmetry.
Qed.

Lemma own_run : forall width a xs w w' l o, own_only a w -> Forall (leaves_alone a) xs ->
  find_object a w = Some o -> acts width w xs = Ok (w', l) ->
  exists r, run call_io (Resource (Container (own o) width (place o) (fill_amount o)) (obuf o)) (calls_on a xs)
      = Ok (r, answers_on a xs l) /\
    grab_content a w' = Some (content (inner r)).
Proof.
  intros width a. induction xs as [|x xs IH]; intros w w' l o I L A H.
  - injection H as <- <-. eexists. split; [reflexivity|]. unfold grab_content. now rewrite A.
  - inversion L as [|? ? L1 L2]; subst. cbn [acts] in H. destruct (act width w x) as [[w1 r1]| | | |] eqn:E; try discriminate.
    cbn [bind] in H. destruct (acts width w1 xs) as [[w2 l2]| | | |] eqn:E2; try discriminate. cbn [bind] in H.
    injection H as <- <-. assert (I1 := own_only_step _ _ _ _ _ _ I L1 E). assert (S := own_step _ _ _ _ _ _ _ I L1 A E).
    cbv zeta in S. unfold calls_on, answers_on. cbn [flat_map combine].
    destruct x as [b c cap|from to|from to|b|b c]; try (destruct (IH _ _ _ _ I1 L2 S E2) as (r & R & G); exists r; split; assumption).
    destruct (N.eqb a b) eqn:X.
    + destruct S as (r2 & ans & C & -> & F). destruct (IH _ _ _ _ I1 L2 F E2) as (r & R & G).
      exists r. split; [|exact G]. cbn [app run]. rewrite C. cbn [bind own place fill_amount obuf] in *.
      destruct r2 as [c2 b2]. cbn [inner buf] in *.
      assert (El : elem c2 = width).
      { exact (call_elem _ _ _ _ C). }
      destruct c2 as [cc ce cp cl]. cbn in *. subst ce. change (flat_map _ xs) with (calls_on a xs).
      rewrite R. reflexivity.
    + destruct (IH _ _ _ _ I1 L2 S E2) as (r & R & G). exists r. split; [|exact G].
      destruct r1; cbn [app]; exact R.
Qed.

(** The part that holds.  An object made by a constructor, that is neither copied
    nor moved from nor assigned to nor destroyed, works on its own content alone,
    whatever is done to other objects: the calls on it have the answers they have on
    a resource by itself, and its content is that resource's.
    Partial: copied, moved and assigned objects do not (C57_copy). *)
Theorem C57_independent_partial : forall width a l cap xs w answers,
  Forall (leaves_alone a) xs ->
  acts width [] (Construct a l cap :: xs) = Ok (w, None :: answers) ->
  exists r, run call_io (new_resource l width cap) (calls_on a xs) = Ok (r, answers_on a xs answers) /\
    grab_content a w = Some (content (inner r)).
Proof.
  intros width a l cap xs w answers L H. cbn [acts act bind] in H.
  destruct (acts width (construct a l cap []) xs) as [[w' l']| | | |] eqn:E; try discriminate. cbn [bind] in H.
  injection H as <- <-.
  apply (own_run width a xs (construct a l cap []) w' l' (Object l a 0 0 (new_buffer cap))); try assumption.
  - intros b o F. unfold construct, put, find_object in F. cbn [find remove_object filter] in F.
    destruct (N.eqb b a) eqn:X; [|discriminate]. cbn in F. injection F as <-. cbn. apply N.eqb_eq in X. split; congruence.
  - apply find_put_same.
Qed.
Print Assumptions C57_independent_partial.

Definition C57_actions : list action :=
  [Construct 2 [1; 2]%N 0; Use 1 (Write [9; 9]%N); Copy 2 3; Use 3 (Write [7]%N); Use 1 (SetPosition 1 Begin); Destroy 2; Use 1 (Read [0; 0]%N 2)].

Example C57_independent_example : Forall (leaves_alone 1) C57_actions /\
  exists w answers, acts 1 [] (Construct 1 [65; 66; 67]%N 4 :: C57_actions) = Ok (w, None :: answers) /\
    answers_on 1 C57_actions answers = [Wrote 2; Done; Got [9; 67]%N 2] /\ grab_content 1 w = Some [9; 9; 67]%N.
Proof.
  split; [repeat constructor; discriminate|]. eexists. eexists. split; [vm_compute; reflexivity|].
  split; vm_compute; reflexivity.
Qed.
