(** Writers, readers and the owner of a container do what the machine of CrowdSpec does. *)
From Coq Require Import NArith ZArith List Bool Lia.
From Coq Require Import ZifyBool ZifyNat ZifyN.
From Verif Require Import Base Integers ResourceModel ResourceSpec ResourceText ResourceLemmas ResourceLemmas2
  CursorSpec CursorLemmas PenSpec PenLemmas SharedModel CrowdSpec CrowdText.
Import ListNotations.
Open Scope Z_scope.

Definition is_user (big w : Z) (l : list N) (u : user) (m : bool * resource container) : Prop :=
  match u with
  | Writer cap s wt => fst m = true /\ at_pen w cap (Pen l s wt) (look_at (snd m) l)
  | Reader cap c => fst m = false /\ 0 <= cap /\ at_cursor big w cap l c (look_at (snd m) l)
  end.

(** Another content makes no difference to them. *)
Lemma user_other : forall big w l l' u m, is_user big w l u m -> is_user big w l' u m.
Proof.
  intros big w l l' [cap s wt|cap c] [b r] H; cbn [is_user] in *.
  - destruct H as (Hb & A). split; [exact Hb|]. destruct A as [E K C P D B M F Z0].
    constructor; cbn [look_at inner buf elem content position page spot waiting snd] in *; auto.
  - destruct H as (Hb & Cp & A). split; [exact Hb|]. split; [exact Cp|]. destruct A as [E K Ct S P T U Bd F Ba Id R M].
    constructor; cbn [look_at inner buf elem content position last_fill snd] in *; auto.
Qed.

Lemma look_same : forall r l, content (inner r) = l -> look_at r l = r.
Proof. intros [[c e p f] b] l H. cbn in *. now subst. Qed.

Lemma user_new : forall big w l x, is_user big w l (newcomer x) (new_member l w x).
Proof.
  intros big w l [b cap]. unfold newcomer, new_member. cbn [fst snd]. destruct b; cbn [is_user fst snd].
  - split; [reflexivity|]. rewrite look_same by reflexivity. apply fresh_at_pen.
  - split; [reflexivity|]. split; [lia|]. rewrite look_same by reflexivity. apply start_cursor.
Qed.

Lemma nth_both : forall A B (P : A -> B -> Prop) xs ys k, Forall2 P xs ys ->
  match nth_error xs k with
  | None => nth_error ys k = None
  | Some x => exists y, nth_error ys k = Some y /\ P x y
  end.
Proof.
  intros A B P xs ys k H. revert k. induction H as [|x y xs ys H0 H IH]; intros [|k]; cbn [nth_error]; eauto. apply IH.
Qed.

Lemma instead_both : forall A B (P : A -> B -> Prop) xs ys k x y, Forall2 P xs ys -> P x y ->
  Forall2 P (instead k x xs) (instead k y ys).
Proof.
  intros A B P xs ys k x y H Q. unfold instead. revert k. induction H as [|x' y' xs ys H0 H IH]; intros [|k]; cbn [firstn skipn app].
  - constructor; auto.
  - constructor; auto.
  - constructor; auto.
  - constructor; [exact H0|]. apply IH.
Qed.

(** What waits with the users. *)
Definition waits_with (u : user) : Z :=
  match u with Writer _ _ (Some d) => len d | _ => 0 end.

Fixpoint all_wait (us : list user) : Z := match us with [] => 0 | u :: us => waits_with u + all_wait us end.

Lemma waits_with_nonneg : forall u, 0 <= waits_with u.
Proof. intros [cap s [d|]|cap c]; cbn; try apply len_nonneg; lia. Qed.

Lemma all_wait_nonneg : forall us, 0 <= all_wait us.
Proof. induction us as [|u us IH]; cbn [all_wait]; [lia|]. pose proof (waits_with_nonneg u). lia. Qed.

Lemma all_wait_instead : forall us k u v, nth_error us k = Some u -> all_wait (instead k v us) = all_wait us - waits_with u + waits_with v.
Proof.
  induction us as [|u0 us IH]; intros [|k] u v H; cbn [nth_error] in H; try discriminate.
  - injection H as ->. unfold instead. cbn [firstn skipn app all_wait]. lia.
  - assert (X := IH k u v H). unfold instead in *. cbn [firstn skipn app all_wait] in *. lia.
Qed.

Lemma brought_nonneg : forall es, 0 <= brought es.
Proof.
  induction es as [|[l|k x] es IH]; cbn [brought]; [lia| |].
  - pose proof (len_nonneg l). lia.
  - destruct x as [b n|d| |n o|n|n]; try lia. pose proof (len_nonneg d). lia.
Qed.

Definition written (x : call) : Z := match x with Write d => len d | _ => 0 end.

Lemma inked_growth : forall w p d q, 1 <= w -> inked w p d = Some q -> len (page q) <= len (page p) + len d /\ waiting q = waiting p.
Proof.
  intros w p d q W E. unfold inked in E. cbv zeta in E.
  set (more := if len (page p) <? spot p + len d then len d / w * w else 0) in E.
  destruct (0 <=? spot p) eqn:S; [|discriminate]. cbn [andb] in E.
  match type of E with (if ?b then _ else _) = _ => destruct b eqn:F; [|discriminate] end. injection E as <-. cbn [page waiting].
  split; [|reflexivity]. pose proof (len_nonneg d).
  assert (M : 0 <= more <= len d).
  { unfold more. destruct (len (page p) <? spot p + len d); [|lia].
    assert (X := Z.mul_div_le (len d) w ltac:(lia)). assert (Y := Z.div_pos (len d) w ltac:(lia) ltac:(lia)). nia. }
  clearbody more. unfold overwrite, len, take, drop in *. rewrite !app_length, firstn_length, skipn_length, app_length, repeat_length. lia.
Qed.

Lemma delivered_growth : forall w p q, 1 <= w -> delivered_all w p = Some q ->
  len (page q) <= len (page p) + len (waits p) /\ waiting q = None.
Proof.
  intros w p q W E. unfold delivered_all in E. unfold waits. destruct (waiting p) as [d|] eqn:Wp.
  - apply inked_growth in E; [|exact W]. cbn [page waiting] in E. exact E.
  - injection E as <-. split; [change (len []) with 0; lia|exact Wp].
Qed.

Lemma stroke_growth : forall w cap p x q a, 1 <= w -> stroke w cap p x = Some (q, a) ->
  len (page q) + len (waits q) <= len (page p) + len (waits p) + written x.
Proof.
  intros w cap p x q a W E. pose proof (len_nonneg (waits p)). destruct x as [b n|d| |n o|n|n]; cbn [stroke written] in *.
  - injection E as <- _. lia.
  - destruct (put_down w cap p d) as [p'|] eqn:P; [|discriminate]. injection E as <- _. unfold put_down in P. pose proof (len_nonneg d).
    destruct (cap =? 0).
    + apply inked_growth in P; [|exact W]. destruct P as (P1 & P2). unfold waits. rewrite P2. unfold waits in *. lia.
    + destruct (if cap <? len (waits p) + len d then delivered_all w p else Some p) as [p1|] eqn:Q; [|discriminate].
      assert (G : len (page p1) + len (waits p1) <= len (page p) + len (waits p)).
      { destruct (cap <? len (waits p) + len d).
        - apply delivered_growth in Q; [|exact W]. destruct Q as (Q1 & Q2). unfold waits at 1. rewrite Q2. change (len []) with 0. lia.
        - injection Q as <-. lia. }
      destruct (cap <? len d).
      * apply inked_growth in P; [|exact W]. destruct P as (P1 & P2). unfold waits at 1. rewrite P2. fold (waits p1). lia.
      * injection P as <-. cbn [page]. unfold waits at 1. cbn [waiting]. rewrite len_app. lia.
  - destruct (delivered_all w p) as [p'|] eqn:P; [|discriminate]. injection E as <- _.
    apply delivered_growth in P; [|exact W]. destruct P as (P1 & P2). unfold waits at 1. rewrite P2. change (len []) with 0. lia.
  - destruct (delivered_all w p) as [p'|] eqn:P; [|discriminate]. injection E as <- _.
    apply delivered_growth in P; [|exact W]. destruct P as (P1 & P2). cbn [moved page]. unfold waits at 1. cbn [moved waiting]. rewrite P2. change (len []) with 0. lia.
  - injection E as <- _. unfold waits, moved. cbn [page waiting]. lia.
  - injection E as <- _. unfold waits, moved. cbn [page waiting]. lia.
Qed.

Lemma waits_pen : forall cap s wt l, waits_with (Writer cap s wt) = len (waits (Pen l s wt)).
Proof. intros cap s [d|] l; reflexivity. Qed.

(** All kinds stay what they are. *)
Definition kind_is (x : bool * nat) (u : user) : Prop :=
  match u with Writer _ _ _ => fst x = true | Reader _ _ => fst x = false end.

Lemma instead_same : forall A (xs : list A) k x, nth_error xs k = Some x -> instead k x xs = xs.
Proof.
  unfold instead. induction xs as [|y xs IH]; intros [|k] x H; cbn [nth_error] in H; try discriminate; [now injection H as ->|].
  cbn [firstn skipn app]. f_equal. now apply IH.
Qed.

Lemma users_other : forall big w l l' us ms, Forall2 (is_user big w l) us ms -> Forall2 (is_user big w l') us ms.
Proof. intros big w l l' us ms H. induction H; constructor; eauto using user_other. Qed.

Lemma crowd_run : forall big w kinds es l us ms, 1 <= w -> big * (w + 1) < 2 ^ 63 ->
  len l + all_wait us + brought es <= big -> Forall2 (is_user big w l) us ms -> Forall2 kind_is kinds us -> Forall (suited kinds) es ->
  match crowd w l us es with
  | Outside b => run_crowd l ms es = UB (if b then OutOfBoundsWrite else OutOfBoundsRead)
  | Now l' us' answers => exists ms', run_crowd l ms es = Ok (l', ms', answers) /\ Forall2 (is_user big w l') us' ms'
  end.
Proof.
  intros big w kinds. induction es as [|e es IH]; intros l us ms W B Sz Us Ks Fs.
  - cbn [crowd run_crowd]. now exists ms.
  - inversion Fs as [|? ? F0 F1]; subst. destruct e as [l'|k x]; cbn [crowd run_crowd] in *.
    + cbn [brought] in Sz. pose proof (len_nonneg l). apply IH; try assumption; [lia|]. now apply (users_other _ _ l).
    + cbn [suited] in F0. assert (Xk := nth_both _ _ _ _ _ k Ks). assert (Xm := nth_both _ _ _ _ _ k Us).
      pose proof (brought_nonneg es) as Bn. pose proof (all_wait_nonneg us) as An.
      assert (Bx : len l + all_wait us + written x + brought es <= big).
      { destruct x as [b n|d| |n o|n|n]; cbn [brought written] in *; lia. }
      assert (Wx : 0 <= written x) by (destruct x; cbn [written]; try lia; apply len_nonneg).
      destruct (nth_error us k) as [u|] eqn:Nu; [|rewrite Xm; apply IH; try assumption; lia].
      destruct Xm as ((b & r) & Em & Iu). rewrite Em.
      destruct (nth_error kinds k) as [(kb & kc)|] eqn:Nk; [|congruence].
      destruct Xk as (u' & Eu & Ku). injection Eu as <-.
      destruct u as [cap s wt|cap c]; cbn [is_user fst snd kind_is] in *; subst kb.
      * destruct Iu as (-> & A).
        assert (X := stroke_step call_output w cap _ _ x (or_introl eq_refl) A).
        assert (Fo : for_output x = true) by (destruct x; [destruct F0| | | | |]; reflexivity). specialize (X Fo).
        destruct (stroke w cap (Pen l s wt) x) as [[p a]|] eqn:St; [|rewrite X; reflexivity].
        destruct X as (r' & -> & A'). cbn [bind].
        assert (Gr := stroke_growth _ _ _ _ _ _ W St). cbn [page] in Gr.
        assert (Cr : content (inner r') = page p) by apply (ap_page _ _ _ _ A').
        set (us1 := instead k (Writer cap (spot p) (waiting p)) us).
        assert (Sz1 : len (page p) + all_wait us1 + brought es <= big).
        { unfold us1. rewrite (all_wait_instead _ _ _ _ Nu), (waits_pen _ _ _ l), (waits_pen _ _ _ (page p)).
          destruct p as [pp ps pw]. cbn [page spot waiting] in *. lia. }
        assert (Us1 : Forall2 (is_user big w (page p)) us1 (instead k (true, r') ms)).
        { apply instead_both; [now apply (users_other _ _ l)|]. cbn [is_user fst snd]. split; [reflexivity|].
          rewrite look_same by exact Cr. destruct p. exact A'. }
        assert (Ks1 : Forall2 kind_is kinds us1).
        { rewrite <- (instead_same _ kinds k (true, kc) Nk). apply instead_both; [exact Ks|reflexivity]. }
        assert (Y := IH (page p) us1 (instead k (true, r') ms) W B Sz1 Us1 Ks1 F1). rewrite Cr.
        destruct (crowd w (page p) us1 es) as [b|l2 us2 answers]; cbn [answered].
        -- rewrite Y. reflexivity.
        -- destruct Y as (ms2 & -> & I2). cbn [bind]. now exists ms2.
      * destruct Iu as (-> & Cp & A).
        assert (Fi : for_input x = true) by (destruct x; try destruct F0; reflexivity).
        assert (Rd : forall b n, x = Read b n -> 0 <= n <= len b) by (intros b n ->; exact F0).
        assert (X := turn_step big w cap l c _ x W Cp A ltac:(lia) B Fi Rd).
        destruct (turn w cap l c x) as [[c' a]|]; [|rewrite X; reflexivity].
        destruct X as (r' & -> & A'). cbn [bind].
        assert (Cr : content (inner r') = l) by apply (ac_content _ _ _ _ _ _ A').
        set (us1 := instead k (Reader cap c') us).
        assert (Sz1 : len l + all_wait us1 + brought es <= big).
        { unfold us1. rewrite (all_wait_instead _ _ _ _ Nu). cbn [waits_with]. lia. }
        assert (Us1 : Forall2 (is_user big w l) us1 (instead k (false, r') ms)).
        { apply instead_both; [exact Us|]. cbn [is_user fst snd]. split; [reflexivity|]. split; [exact Cp|].
          rewrite look_same by exact Cr. exact A'. }
        assert (Ks1 : Forall2 kind_is kinds us1).
        { rewrite <- (instead_same _ kinds k (false, kc) Nk). apply instead_both; [exact Ks|reflexivity]. }
        assert (Y := IH l us1 (instead k (false, r') ms) W B Sz1 Us1 Ks1 F1). rewrite Cr.
        destruct (crowd w l us1 es) as [b|l2 us2 answers]; cbn [answered].
        -- rewrite Y. reflexivity.
        -- destruct Y as (ms2 & -> & I2). cbn [bind]. now exists ms2.
Qed.

Lemma new_crowd : forall big w l kinds, Forall2 (is_user big w l) (map newcomer kinds) (map (new_member l w) kinds) /\
  Forall2 kind_is kinds (map newcomer kinds) /\ all_wait (map newcomer kinds) = 0.
Proof.
  intros big w l. induction kinds as [|x kinds (I1 & I2 & I3)]; cbn [map all_wait]; [repeat constructor|].
  split; [constructor; [apply user_new|exact I1]|]. split.
  - constructor; [|exact I2]. destruct x as [[] cap]; reflexivity.
  - rewrite I3. destruct x as [[] cap]; reflexivity.
Qed.

Lemma user_position : forall big w l u m, is_user big w l u m -> get_position (look_at (snd m) l) = reported u.
Proof.
  intros big w l [cap s wt|cap c] [b r] H; cbn [is_user snd reported] in *; unfold get_position.
  - destruct H as (_ & A). rewrite (ap_spot _ _ _ _ A), (ap_bpos _ _ _ _ A). reflexivity.
  - destruct H as (_ & _ & A). now rewrite (ac_place _ _ _ _ _ _ A), (ac_spent _ _ _ _ _ _ A).
Qed.

(* ------------------------------------------------ a write followed by a flush *)

Lemma instead_nth : forall A (xs : list A) k x y, nth_error xs k = Some x -> nth_error (instead k y xs) k = Some y.
Proof.
  unfold instead. induction xs as [|z xs IH]; intros [|k] x y H; cbn [nth_error] in H; try discriminate; [reflexivity|].
  cbn [firstn skipn app nth_error]. now apply (IH k x).
Qed.

Lemma instead_twice : forall A (xs : list A) k x y z, nth_error xs k = Some x -> instead k z (instead k y xs) = instead k z xs.
Proof.
  unfold instead. induction xs as [|v xs IH]; intros [|k] x y z H; cbn [nth_error] in H; try discriminate; [reflexivity|].
  cbn [firstn skipn app]. f_equal. now apply (IH k x).
Qed.

Lemma instead_length : forall A (xs : list A) k x y, nth_error xs k = Some x -> length (instead k y xs) = length xs.
Proof.
  unfold instead. induction xs as [|v xs IH]; intros [|k] x y H; cbn [nth_error] in H; try discriminate; [reflexivity|].
  cbn [firstn skipn app length]. f_equal. now apply (IH k x).
Qed.

Lemma instead_forall : forall A (P : A -> Prop) xs k x, Forall P xs -> P x -> Forall P (instead k x xs).
Proof.
  unfold instead. intros A P. induction xs as [|v xs IH]; intros [|k] x F H; cbn [firstn skipn app]; inversion F; subst; auto.
  constructor; [assumption|]. now apply IH.
Qed.

Lemma write_flush : forall w l us k cap s x es, 1 <= w -> 0 <= cap -> nth_error us k = Some (Writer cap s None) ->
  crowd w l us (By k (Write x) :: By k Flush :: es) =
  match inked w (Pen l s None) x with
  | None => Outside true
  | Some q => answered (Wrote (len x)) (answered Done (crowd w (page q) (instead k (Writer cap (spot q) None) us) es))
  end.
Proof.
  intros w l us k cap s x es W C Nu. pose proof (len_nonneg x).
  assert (Wn : forall q, inked w (Pen l s None) x = Some q -> waiting q = None).
  { intros q E. apply inked_growth in E; [|exact W]. now destruct E. }
  assert (Nn := fun v => instead_nth _ us k _ v Nu). assert (Tw := fun y z => instead_twice _ us k _ y z Nu).
  cbn [crowd]. rewrite Nu. cbn [stroke]. unfold put_down. cbn [waits waiting]. change (len []) with 0.
  destruct (inked w (Pen l s None) x) as [q|] eqn:I.
  - specialize (Wn q eq_refl). destruct (cap =? 0) eqn:Z0.
    + cbn [crowd]. rewrite ?I, Nn. rewrite Wn. cbn [delivered_all waiting page spot]. now rewrite Tw.
    + cbn [delivered_all waiting]. replace (if cap <? 0 + len x then Some (Pen l s None) else Some (Pen l s None)) with (Some (Pen l s None)) by now destruct (cap <? 0 + len x).
      destruct (cap <? len x) eqn:Q.
      * rewrite ?I, Nn, Wn. cbn [delivered_all waiting page spot]. now rewrite Tw.
      * cbn [page spot waiting]. rewrite Nn. cbn [delivered_all waits waiting page spot app]. rewrite ?I, Tw, Wn. reflexivity.
  - destruct (cap =? 0) eqn:Z0.
    + rewrite ?I. reflexivity.
    + cbn [delivered_all waiting]. replace (if cap <? 0 + len x then Some (Pen l s None) else Some (Pen l s None)) with (Some (Pen l s None)) by now destruct (cap <? 0 + len x).
      destruct (cap <? len x) eqn:Q.
      * rewrite ?I. reflexivity.
      * cbn [page spot waiting]. rewrite Nn. cbn [delivered_all waits waiting page spot app]. rewrite ?I. reflexivity.
Qed.

(* ------------------------------------------------------------------ appending *)

(** A writer that has nothing in its buffer. *)
Definition idle (u : user) : Prop := match u with Writer cap _ None => 0 <= cap | _ => False end.

Lemma inked_end : forall w l d, 1 <= w -> (w | len d) -> inked w (Pen l (len l) None) d = Some (Pen (l ++ d) (len l + len d) None).
Proof.
  intros w l d W (q & Dq). unfold inked. cbn [page spot waiting]. cbv zeta. pose proof (len_nonneg l). pose proof (len_nonneg d).
  assert (Dv : len d / w * w = len d) by (rewrite Dq; rewrite Z.div_mul by lia; reflexivity). rewrite Dv.
  destruct (len l <? len l + len d) eqn:Q.
  - replace ((0 <=? len l) && (len l + len d <=? len l + Z.max 0 (len d))) with true by lia. f_equal. f_equal.
    unfold overwrite. rewrite take_app_exact. f_equal. rewrite drop_all; [apply app_nil_r|].
    rewrite len_app. unfold len at 2. rewrite repeat_length. lia.
  - assert (E : d = []) by (apply len_zero; lia). subst d. change (len []) with 0.
    replace ((0 <=? len l) && (len l + 0 <=? len l + Z.max 0 0)) with true by lia. f_equal. f_equal.
    unfold overwrite. cbn [Z.to_nat repeat app]. rewrite !app_nil_r. change (len []) with 0. rewrite Z.add_0_r.
    now rewrite take_all, drop_all, app_nil_r by lia.
Qed.

Lemma sought_end : forall w l s, 1 <= w -> (w | len l) -> len l < 2 ^ 63 -> sought w l s 0 End = len l.
Proof.
  intros w l s W (q & D) B. unfold sought. rewrite Z.sub_0_r. rewrite D, Z.div_mul, <- D by lia.
  rewrite <- convert_wrap. apply convert_I64. pose proof (len_nonneg l). lia.
Qed.

Lemma appends_step : forall w l us k d es, 1 <= w -> (w | len l) -> len l < 2 ^ 63 -> (w | len d) ->
  Forall idle us -> (k < length us)%nat ->
  exists us', length us' = length us /\ Forall idle us' /\
    crowd w l us (appends (k, d) ++ es) = answered Done (answered (Wrote (len d)) (answered Done (crowd w (l ++ d) us' es))).
Proof.
  intros w l us k d es W Dl B Dd F K. destruct (nth_error us k) as [u|] eqn:Nu; [|apply nth_error_None in Nu; lia].
  assert (Iu : idle u) by (rewrite Forall_forall in F; apply F; now apply nth_error_In in Nu).
  destruct u as [cap s [wt|]|cap c]; cbn [idle] in Iu; [contradiction| |contradiction].
  set (us1 := instead k (Writer cap (len l) None) us).
  assert (N1 : nth_error us1 k = Some (Writer cap (len l) None)) by (eapply instead_nth; exact Nu).
  exists (instead k (Writer cap (len l + len d) None) us1). split.
  - unfold us1. erewrite !instead_length; eauto.
  - split.
    + apply instead_forall; [|exact Iu]. unfold us1. apply instead_forall; [exact F|exact Iu].
    + unfold appends. cbn [fst snd app]. cbn [crowd]. rewrite Nu. cbn [stroke delivered_all waiting moved page spot].
      rewrite sought_end by assumption. f_equal. fold us1.
      assert (X := write_flush w l us1 k cap (len l) d es W Iu N1). rewrite inked_end in X by assumption. exact X.
Qed.

Lemma appends_all : forall w ts l us, 1 <= w -> (w | len l) -> len l + len (concat (map snd ts)) < 2 ^ 63 ->
  Forall (fun t => (fst t < length us)%nat /\ (w | len (snd t))) ts -> Forall idle us ->
  exists us' answers, crowd w l us (flat_map appends ts) = Now (l ++ concat (map snd ts)) us' answers.
Proof.
  intros w. induction ts as [|[k d] ts IH]; intros l us W Dl B F I; cbn [flat_map map concat snd] in *.
  - rewrite app_nil_r. now exists us, [].
  - inversion F as [|? ? (F1 & F2) F3]; subst. cbn [fst snd] in *. rewrite len_app in B.
    pose proof (len_nonneg d). pose proof (len_nonneg (concat (map snd ts))).
    destruct (appends_step w l us k d (flat_map appends ts) W Dl ltac:(lia) F2 I F1) as (us' & L & I' & E). rewrite E.
    destruct (IH (l ++ d) us') as (us2 & answers & E2); try assumption.
    + rewrite len_app. now apply Z.divide_add_r.
    + rewrite len_app. lia.
    + rewrite L. exact F3.
    + rewrite E2. cbn [answered]. rewrite <- app_assoc. eauto.
Qed.

Lemma appends_brought : forall ts, brought (flat_map appends ts) = len (concat (map snd ts)).
Proof.
  induction ts as [|[k d] ts IH]; [reflexivity|]. cbn [flat_map appends app brought fst snd map concat]. rewrite len_app. now rewrite IH.
Qed.

Lemma skipn_repeat : forall A (x : A) m n, skipn n (repeat x m) = repeat x (m - n).
Proof. intros A x. induction m as [|m IH]; intros [|n]; cbn [skipn repeat Nat.sub]; auto. Qed.
