(** C113, C114, C115 and C162: what writers, readers and the owner of one container do to each
    other, exactly. *)
From Coq Require Import NArith ZArith List Bool Lia.
From Coq Require Import ZifyBool ZifyNat ZifyN.
From Verif Require Import Base Integers ResourceModel ResourceSpec ResourceText ResourceLemmas ResourceLemmas2
  CursorSpec CursorLemmas CursorProps PenSpec PenLemmas SharedModel CrowdSpec CrowdText CrowdLemmas.
Import ListNotations.
Open Scope Z_scope.

(** Any number of writers and readers of a container, with any buffers and with none, and its
    owner, in every order, with writes, flushes, reads and seeks of every kind and size: the
    content, the answers and the positions are those of the machine of CrowdSpec, and memory
    outside the container is written or read exactly when the machine says so. *)
Theorem C114_exact : forall w kinds l es, 1 <= w -> (len l + brought es) * (w + 1) < 2 ^ 63 -> Forall (suited kinds) es ->
  match crowd w l (map newcomer kinds) es with
  | Outside true => run_crowd l (map (new_member l w) kinds) es = UB OutOfBoundsWrite
  | Outside false => run_crowd l (map (new_member l w) kinds) es = UB OutOfBoundsRead
  | Now l' us answers => exists ms, run_crowd l (map (new_member l w) kinds) es = Ok (l', ms, answers) /\
      map (fun m => get_position (look_at (snd m) l')) ms = map reported us
  end.
Proof.
  intros w kinds l es W B F. destruct (new_crowd (len l + brought es) w l kinds) as (I1 & I2 & I3).
  assert (X := crowd_run (len l + brought es) w kinds es l (map newcomer kinds) (map (new_member l w) kinds) W B).
  rewrite I3, Z.add_0_r in X. specialize (X (Z.le_refl _) I1 I2 F).
  destruct (crowd w l (map newcomer kinds) es) as [[]|l' us answers]; [exact X|exact X|].
  destruct X as (ms & R & I). exists ms. split; [exact R|]. clear - I.
  induction I as [|u m us ms H I IH]; cbn [map]; [reflexivity|]. f_equal; [|exact IH]. now apply user_position in H.
Qed.
Print Assumptions C114_exact.

(** Two writers, a reader with a buffer and one without. *)
Example C114_exact_example :
  let kinds := [(true, 4%nat); (true, 0%nat); (false, 4%nat); (false, 0%nat)] in
  let b := [0; 0; 0; 0; 0; 0]%N in
  let es := [By 0 (Write [65; 66]); By 3 (Read b 2); By 0 Flush; By 3 (Read b 2); By 1 (Write [67]); By 2 (Read b 1);
             By 0 (Write [68; 69; 70; 71; 72]); By 2 (Read b 6); Replaced [90; 90]; By 2 (Read b 1)]%N in
  Forall (suited kinds) es /\
  crowd 1 [] (map newcomer kinds) es = Outside false /\
  exists us, crowd 1 [] (map newcomer kinds) (firstn 8 es) = Now [67; 66; 68; 69; 70; 71; 72]%N us
    [Wrote 2; Got b 0; Done; Got [65; 66; 0; 0; 0; 0]%N 2; Wrote 1; Got [67; 0; 0; 0; 0; 0]%N 1; Wrote 5; Got [66; 67; 66; 68; 69; 70]%N 6].
Proof.
  cbv zeta. split; [repeat constructor; try (cbn; lia); vm_compute; discriminate|]. split; [vm_compute; reflexivity|].
  eexists. vm_compute. reflexivity.
Qed.

(* ---------------------------------------------------------------------- C113 *)

(** What a reader has in its buffer it hands out, whatever the owner did to the container in
    between. *)
Theorem C113_old_bytes : forall cap l l' b k b' m, (0 < cap)%nat -> (len l + len l') * 2 < 2 ^ 63 ->
  0 <= k <= len b -> 0 <= m <= len b' -> k + m <= Z.min (Z.of_nat cap) (len l) ->
  exists ms answers, run_crowd l [new_member l 1 (false, cap)] [By 0 (Read b k); Replaced l'; By 0 (Read b' m)] = Ok (l', ms, answers) /\
    received answers = [take k l; take m (drop k l)].
Proof.
  intros cap l l' b k b' m C B K M Km. pose proof (len_nonneg l). pose proof (len_nonneg l').
  assert (X := C114_exact 1 [(false, cap)] l [By 0 (Read b k); Replaced l'; By 0 (Read b' m)] ltac:(lia)).
  cbn [brought] in X. specialize (X ltac:(lia)).
  assert (F : Forall (suited [(false, cap)]) [By 0 (Read b k); Replaced l'; By 0 (Read b' m)]).
  { repeat constructor; cbn [suited nth_error]; lia. }
  specialize (X F). clear F. set (f := Z.min (Z.of_nat cap) (len l)) in *.
  assert (First : taken 1 (Z.of_nat cap) l start k = Some (take k l, Cursor 0 f (drop k (take f l)) k false)).
  { unfold taken. replace (Z.of_nat cap =? 0) with false by lia. cbn [stale start]. unfold refilled at 1. cbn [place step start].
    rewrite Z.mul_0_l, Z.add_0_r. unfold inside. replace ((0 <=? 0) && (0 <=? len l)) with true by lia. cbv zeta. cbn [held].
    rewrite drop_0, Z.mul_1_r, Z.add_0_l, Z.sub_diag. rewrite len_take by lia. fold f.
    replace (k <=? f) with true by lia. unfold hand_out. cbn [held place step spent stale].
    assert (Tf : take (Z.of_nat cap) l = take f l).
    { unfold f. destruct (Z.le_ge_cases (Z.of_nat cap) (len l)); [now rewrite Z.min_l by lia|].
      rewrite Z.min_r by lia. now rewrite !take_all by lia. }
    rewrite Tf. f_equal. f_equal. rewrite take_take by lia. f_equal. lia. }
  assert (Lh : len (drop k (take f l)) = f - k) by (rewrite len_drop, len_take by (unfold f in *; lia); unfold f in *; lia).
  assert (Second : taken 1 (Z.of_nat cap) l' (Cursor 0 f (drop k (take f l)) k false) m
    = Some (take m (drop k l), Cursor 0 f (drop m (drop k (take f l))) (k + m) false)).
  { unfold taken. replace (Z.of_nat cap =? 0) with false by lia. cbn [stale held]. rewrite Lh.
    replace (m <=? f - k) with true by lia. cbv zeta. unfold hand_out. cbn [held place step spent stale]. f_equal. f_equal.
    replace f with (k + (f - k)) by lia. rewrite take_drop_comm by lia. rewrite take_take by lia. f_equal. lia. }
  cbn [map newcomer fst snd crowd nth_error turn instead firstn skipn app] in X. rewrite First in X.
  cbn [instead firstn skipn app nth_error] in X. rewrite Second in X. cbn [instead firstn skipn app answered] in X.
  destruct X as (ms & R & _). exists ms. eexists. split; [exact R|].
  unfold received. cbn [flat_map app]. now rewrite !take_app_exact.
Qed.
Print Assumptions C113_old_bytes.

(** The container is even empty then. *)
Example C113_old_bytes_example : exists ms,
  run_crowd [65; 66; 67]%N [new_member [65; 66; 67]%N 1 (false, 4%nat)] [By 0 (Read [0]%N 1); Replaced []; By 0 (Read [0; 0]%N 2)]
  = Ok ([], ms, [Got [65]%N 1; Got [66; 67]%N 2]).
Proof. eexists. vm_compute. reflexivity. Qed.

(* ---------------------------------------------------------------------- C115 *)

(** A writer has delivered d to an empty container, then the owner changes the content to l'.
    The next bytes d' that it delivers go behind where d ended: outside the container if that
    is now shorter than d, and over what the owner put there if it is not. *)
Theorem C115_exact : forall cap d l' d', 0 < len d -> 0 < len d' -> (len d + len l' + len d') * 2 < 2 ^ 63 ->
  let es := [By 0 (Write d); By 0 Flush; Replaced l'; By 0 (Write d'); By 0 Flush] in
  (len l' < len d -> run_crowd [] [new_member [] 1 (true, cap)] es = UB OutOfBoundsWrite) /\
  (len d <= len l' < len d + len d' -> exists ms, run_crowd [] [new_member [] 1 (true, cap)] es
     = Ok (take (len d) l' ++ d' ++ repeat 0%N (Z.to_nat (len l' - len d)), ms, [Wrote (len d); Done; Wrote (len d'); Done])) /\
  (len d + len d' <= len l' -> exists ms, run_crowd [] [new_member [] 1 (true, cap)] es
     = Ok (overwrite l' (len d) d', ms, [Wrote (len d); Done; Wrote (len d'); Done])).
Proof.
  intros cap d l' d' D D' B es. pose proof (len_nonneg l').
  assert (X := C114_exact 1 [(true, cap)] [] es ltac:(lia)). unfold es in X at 1. cbn [brought] in X. change (len []) with 0 in X.
  specialize (X ltac:(lia)). assert (F : Forall (suited [(true, cap)]) es) by (repeat constructor). specialize (X F). clear F.
  assert (First : inked 1 (Pen [] 0 None) d = Some (Pen d (len d) None)).
  { unfold inked. cbn [page spot waiting]. cbv zeta. change (len []) with 0. replace (0 <? 0 + len d) with true by lia.
    rewrite Z.div_1_r, Z.mul_1_r. replace ((0 <=? 0) && (0 + len d <=? 0 + Z.max 0 (len d))) with true by lia.
    cbn [app]. f_equal. f_equal. unfold overwrite. change (take 0 (repeat 0%N (Z.to_nat (len d)))) with (@nil N). cbn [app].
    rewrite drop_all; [apply app_nil_r|]. unfold len. rewrite repeat_length. unfold len. lia. }
  cbn [map newcomer fst snd] in X. unfold es in X at 1.
  rewrite (write_flush 1 [] [Writer (Z.of_nat cap) 0 None] 0 (Z.of_nat cap) 0 d) in X by (try reflexivity; lia). rewrite First in X. cbn [page spot instead firstn skipn app] in X.
  change (crowd 1 d [Writer (Z.of_nat cap) (len d) None] [Replaced l'; By 0 (Write d'); By 0 Flush])
    with (crowd 1 l' [Writer (Z.of_nat cap) (len d) None] [By 0 (Write d'); By 0 Flush]) in X.
  assert (Y' := write_flush 1 l' [Writer (Z.of_nat cap) (len d) None] 0 (Z.of_nat cap) (len d) d' [] ltac:(lia) ltac:(lia) eq_refl).
  assert (Ink : inked 1 (Pen l' (len d) None) d' =
    if len d <=? len l' then Some (Pen (overwrite (l' ++ repeat 0%N (Z.to_nat (if len l' <? len d + len d' then len d' else 0))) (len d) d') (len d + len d') None) else
    None).
  { unfold inked. cbn [page spot waiting]. cbv zeta. rewrite Z.div_1_r, Z.mul_1_r.
    destruct (len d <=? len l') eqn:Q; destruct (len l' <? len d + len d') eqn:P; try lia.
    - replace ((0 <=? len d) && (len d + len d' <=? len l' + Z.max 0 (len d'))) with true by lia. reflexivity.
    - replace ((0 <=? len d) && (len d + len d' <=? len l' + Z.max 0 0)) with true by lia. reflexivity.
    - replace ((0 <=? len d) && (len d + len d' <=? len l' + Z.max 0 (len d'))) with false by lia. reflexivity. }
  rewrite Ink in Y'. clear Ink. split; [|split]; intros Q.
  - replace (len d <=? len l') with false in Y' by lia. rewrite Y' in X. exact X.
  - replace (len d <=? len l') with true in Y' by lia. rewrite Y' in X. cbn [crowd answered page spot] in X.
    destruct X as (ms & R & _). exists ms. cbn [map] in R. rewrite R. f_equal. f_equal. f_equal.
    replace (len l' <? len d + len d') with true by lia. unfold overwrite.
    rewrite take_app_l by lia. f_equal. f_equal. rewrite drop_app_r by lia.
    unfold drop, len. rewrite skipn_repeat. f_equal. unfold len in *. lia.
  - replace (len d <=? len l') with true in Y' by lia. rewrite Y' in X. cbn [crowd answered page spot] in X.
    destruct X as (ms & R & _). exists ms. cbn [map] in R. rewrite R. f_equal. f_equal. f_equal.
    replace (len l' <? len d + len d') with false by lia. cbn [Z.to_nat repeat]. now rewrite app_nil_r.
Qed.
Print Assumptions C115_exact.

(** Three bytes, then the owner leaves two, three, five and seven. *)
Example C115_exact_example :
  let es := fun l' => [By 0 (Write [1; 2; 3]); By 0 Flush; Replaced l'; By 0 (Write [4; 5; 6]); By 0 Flush]%N in
  let end_of := fun l' => match run_crowd [] [new_member [] 1 (true, 4%nat)] (es l') with Ok (l, _, _) => Some l | _ => None end in
  end_of [7; 7]%N = None /\ end_of [7; 7; 7]%N = Some [7; 7; 7; 4; 5; 6]%N /\
  end_of [7; 7; 7; 7; 7]%N = Some [7; 7; 7; 4; 5; 6; 0; 0]%N /\ end_of [7; 7; 7; 7; 7; 7; 7]%N = Some [7; 7; 7; 4; 5; 6; 7]%N.
Proof. vm_compute. repeat split; reflexivity. Qed.

(* ---------------------------------------------------------------------- C162 *)

(** Any number of writers, with any buffers, that take turns in any order, each turn beginning
    at the end of the container and ending with a flush: what they append is all there, in
    that order. *)
Theorem C162_turns : forall w caps l ts, 1 <= w -> (w | len l) -> (len l + len (concat (map snd ts))) * (w + 1) < 2 ^ 63 ->
  Forall (fun t => (fst t < length caps)%nat /\ (w | len (snd t))) ts ->
  exists ms answers, run_crowd l (map (fun c => new_member l w (true, c)) caps) (flat_map appends ts)
    = Ok (l ++ concat (map snd ts), ms, answers).
Proof.
  intros w caps l ts W D B F. pose proof (len_nonneg l). pose proof (len_nonneg (concat (map snd ts))).
  set (kinds := map (fun c => (true, c)) caps).
  assert (X := C114_exact w kinds l (flat_map appends ts) W). rewrite appends_brought in X. specialize (X B).
  assert (Su : Forall (suited kinds) (flat_map appends ts)).
  { clear - F. induction F as [|[k d] ts (F1 & _) F IH]; cbn [flat_map]; [constructor|]. cbn [fst] in F1.
    apply Forall_app. split; [|exact IH]. unfold appends. cbn [fst snd].
    assert (N : exists c, nth_error kinds k = Some (true, c)).
    { unfold kinds. rewrite nth_error_map. destruct (nth_error caps k) as [c|] eqn:E; [now exists c|]. apply nth_error_None in E. lia. }
    destruct N as (c & N). repeat constructor; cbn [suited]; rewrite N; exact I. }
  specialize (X Su). destruct (appends_all w ts l (map newcomer kinds)) as (us & answers & E); try assumption.
  - nia.
  - rewrite map_length. unfold kinds. rewrite map_length. exact F.
  - unfold kinds. clear. induction caps as [|c caps IH]; cbn [map]; constructor; [|exact IH]. cbn. lia.
  - rewrite E in X. destruct X as (ms & R & _). unfold kinds in R. rewrite map_map in R. eauto.
Qed.
Print Assumptions C162_turns.

Example C162_turns_example : exists ms answers,
  run_crowd [1]%N (map (fun c => new_member [1]%N 1 (true, c)) [0; 2; 8]%nat)
    (flat_map appends [(2%nat, [2; 3]); (0%nat, [4]); (1%nat, [5; 6; 7]); (2%nat, [8])]%N)
  = Ok ([1; 2; 3; 4; 5; 6; 7; 8]%N, ms, answers).
Proof. do 2 eexists. vm_compute. reflexivity. Qed.

(** Without that they destroy each other's bytes: of two writers that went to the end at the same
    time the later flush wins, and if it delivers more, zeros follow. *)
Theorem C162_overwritten : forall c1 c2 l d1 d2, 0 < len d1 -> 0 < len d2 -> (len l + len d1 + len d2) * 2 < 2 ^ 63 ->
  exists ms answers, run_crowd l [new_member l 1 (true, c1); new_member l 1 (true, c2)]
      [By 0 (SetPosition 0 End); By 1 (SetPosition 0 End); By 0 (Write d1); By 0 Flush; By 1 (Write d2); By 1 Flush]
    = Ok (l ++ d2 ++ (if len d2 <=? len d1 then drop (len d2) d1 else repeat 0%N (length d1)), ms, answers).
Proof.
  intros c1 c2 l d1 d2 L1 L2 B. pose proof (len_nonneg l).
  set (es := [By 0 (SetPosition 0 End); By 1 (SetPosition 0 End); By 0 (Write d1); By 0 Flush; By 1 (Write d2); By 1 Flush]).
  assert (X := C114_exact 1 [(true, c1); (true, c2)] l es ltac:(lia)). unfold es in X at 1. cbn [brought] in X. specialize (X ltac:(lia)).
  assert (F : Forall (suited [(true, c1); (true, c2)]) es) by (repeat constructor). specialize (X F). clear F.
  cbn [map newcomer fst snd] in X. unfold es in X at 1.
  assert (Mv : forall u x es', crowd 1 l [Writer (Z.of_nat c1) x None; u] (By 0 (SetPosition 0 End) :: es')
    = answered Done (crowd 1 l [Writer (Z.of_nat c1) (len l) None; u] es')).
  { intros u x es'. cbn [crowd nth_error stroke delivered_all waiting moved page spot instead firstn skipn app].
    rewrite sought_end; [reflexivity|lia|exists (len l); lia|lia]. }
  assert (Mv1 : forall u x es', crowd 1 l [u; Writer (Z.of_nat c2) x None] (By 1 (SetPosition 0 End) :: es')
    = answered Done (crowd 1 l [u; Writer (Z.of_nat c2) (len l) None] es')).
  { intros u x es'. cbn [crowd nth_error stroke delivered_all waiting moved page spot instead firstn skipn app].
    rewrite sought_end; [reflexivity|lia|exists (len l); lia|lia]. }
  rewrite Mv, Mv1 in X. clear Mv Mv1.
  rewrite (write_flush 1 l _ 0 (Z.of_nat c1) (len l) d1) in X by (try reflexivity; lia).
  rewrite inked_end in X by (try lia; exists (len d1); lia). cbn [page spot instead firstn skipn app] in X.
  rewrite (write_flush 1 (l ++ d1) _ 1 (Z.of_nat c2) (len l) d2) in X by (try reflexivity; lia).
  assert (Ink : inked 1 (Pen (l ++ d1) (len l) None) d2 =
    Some (Pen (l ++ d2 ++ (if len d2 <=? len d1 then drop (len d2) d1 else repeat 0%N (length d1))) (len l + len d2) None)).
  { unfold inked. cbn [page spot waiting]. cbv zeta. rewrite Z.div_1_r, Z.mul_1_r, !len_app.
    destruct (len d2 <=? len d1) eqn:Q.
    - replace (len l + len d1 <? len l + len d2) with false by lia.
      replace ((0 <=? len l) && (len l + len d2 <=? len l + len d1 + Z.max 0 0)) with true by lia. f_equal. f_equal.
      cbn [Z.to_nat repeat]. rewrite app_nil_r. unfold overwrite. rewrite take_app_exact. f_equal. f_equal.
      rewrite drop_app_r by lia. f_equal. lia.
    - replace (len l + len d1 <? len l + len d2) with true by lia.
      replace ((0 <=? len l) && (len l + len d2 <=? len l + len d1 + Z.max 0 (len d2))) with true by lia. f_equal. f_equal.
      unfold overwrite. rewrite <- app_assoc, take_app_exact. f_equal. f_equal.
      rewrite drop_app_r by lia. rewrite drop_app_r by lia. unfold drop. 
      replace (Z.to_nat (len d2)) with (Z.to_nat (len l + len d2 - len l - len d1) + length d1)%nat by (unfold len in *; lia).
      rewrite repeat_app, skipn_app, repeat_length, Nat.sub_diag, skipn_all2 by (rewrite repeat_length; lia). reflexivity. }
  rewrite Ink in X. cbn [crowd answered page spot] in X. destruct X as (ms & R & _). cbn [map] in R. eauto.
Qed.
Print Assumptions C162_overwritten.

Example C162_overwritten_example : exists ms answers,
  run_crowd [1]%N [new_member [1]%N 1 (true, 0%nat); new_member [1]%N 1 (true, 4%nat)]
    [By 0 (SetPosition 0 End); By 1 (SetPosition 0 End); By 0 (Write [2; 3]); By 0 Flush; By 1 (Write [4; 5; 6]); By 1 Flush]%N
  = Ok ([1; 4; 5; 6; 0; 0]%N, ms, answers).
Proof. do 2 eexists. vm_compute. reflexivity. Qed.
