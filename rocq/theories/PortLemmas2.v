(** The two implementations of files do the same: raw operations and calls. *)
From Coq Require Import NArith ZArith List Bool Lia.
From Coq Require Import ZifyBool ZifyNat.
From Verif Require Import Base Integers ResourceSpec ResourceModel ResourceText FileSpec FileModel FileText FileLemmas FileLemmas4 PortText PortLemmas.
Import ListNotations.
Open Scope Z_scope.

(* ----------------------------------------------------- what is left of the script *)

(** Requirements on each response stay met. *)
Definition uses (w w' : world) : Prop := forall P, Forall P (script w) -> Forall P (script w').

Lemma uses_refl : forall w, uses w w.
Proof. intros w P H. exact H. Qed.

Lemma uses_trans : forall a b c, uses a b -> uses b c -> uses a c.
Proof. intros a b c H K P X. apply K, H, X. Qed.

Lemma sys_read_uses : forall w fd n, uses w (fst (sys_read w fd n)).
Proof.
  intros w fd n P H. unfold sys_read. destruct (lookup w fd) as [[k h]|]; [|exact H].
  destruct (readable h); [|exact H]. rewrite respond_eq. cbv zeta.
  destruct (response_now w); cbn [fst set_handle script]; now apply Forall_tl.
Qed.

Lemma sys_write_uses : forall w fd d, uses w (fst (sys_write w fd d)).
Proof.
  intros w fd d P H. unfold sys_write. destruct (lookup w fd) as [[k h]|]; [|exact H].
  destruct (writable h); [|exact H]. rewrite respond_eq. cbv zeta.
  destruct (response_now w); cbn [fst set_handle set_content script]; now apply Forall_tl.
Qed.

Lemma sys_seek_uses : forall w fd n pr, uses w (fst (sys_seek w fd n pr)).
Proof.
  intros w fd n pr P H. unfold sys_seek. destruct (lookup w fd) as [[k h]|]; [|exact H].
  match goal with |- context [if ?b then _ else _] => destruct b end; exact H.
Qed.

Lemma unix_block_uses : forall fuel w fd dst off n t w' dst' k,
  unix_block fuel w fd dst off n t = Ok (w', dst', k) -> uses w w' /\ size_of dst' = size_of dst /\ t <= k.
Proof.
  induction fuel as [|fuel IH]; intros w fd dst off n t w' dst' k H; [discriminate|]. cbn [unix_block] in H.
  pose proof (sys_read_uses w fd n) as T. destruct (sys_read w fd n) as [w1 [[|x d]|]]; cbn [fst] in T.
  - injection H as <- <- <-. split; [assumption|lia].
  - destruct (blit dst off (x :: d)) as [dst1| | | |] eqn:E; cbn [bind] in H; try discriminate. apply blit_size in E.
    assert (X : 0 <= size_of (x :: d)) by (unfold size_of; lia).
    destruct (t + size_of (x :: d) =? n); [injection H as <- <- <-; split; [assumption|lia]|].
    apply IH in H. destruct H as (H1 & H2 & H3). split; [eapply uses_trans; eassumption|lia].
  - injection H as <- <- <-. split; [assumption|lia].
Qed.

Lemma read_blocks_uses : forall fuel w fd dst off n t w' dst' k,
  read_blocks UnixLike fuel w fd dst off n t = Ok (w', dst', k) -> uses w w' /\ size_of dst' = size_of dst /\ t <= k.
Proof.
  induction fuel as [|fuel IH]; intros w fd dst off n t w' dst' k H; cbn [read_blocks] in H;
    destruct (n <=? 0); try discriminate; try (injection H as <- <- <-; split; [apply uses_refl|lia]).
  destruct (read_block UnixLike w fd dst off (Z.min n (chunk_max UnixLike))) as [[[w1 d1] k1]| | | |] eqn:E; cbn [bind] in H; try discriminate.
  cbn [read_block] in E. apply unix_block_uses in E. destruct E as (E1 & E2 & E3).
  destruct (k1 =? Z.min n (chunk_max UnixLike)); [|injection H as <- <- <-; split; [assumption|lia]].
  apply IH in H. destruct H as (H1 & H2 & H3). split; [eapply uses_trans; eassumption|lia].
Qed.

Lemma write_blocks_uses : forall pl fuel w fd d n t w' k,
  write_blocks pl fuel w fd d n t = Ok (w', k) -> uses w w'.
Proof.
  intros pl. induction fuel as [|fuel IH]; intros w fd d n t w' k H; cbn [write_blocks] in H;
    destruct (n <=? 0); try discriminate; try (injection H as <- _; apply uses_refl).
  pose proof (sys_write_uses w fd (firstn (Z.to_nat (Z.min n (chunk_max pl))) d)) as T.
  destruct (sys_write w fd (firstn (Z.to_nat (Z.min n (chunk_max pl))) d)) as [w1 r]. cbn [fst] in T.
  match type of H with (if ?b then _ else _) = _ => destruct b end; [|injection H as <- _; assumption].
  eapply uses_trans; [exact T|]. eapply IH; exact H.
Qed.

(* ----------------------------------------------------------------- one block *)

Lemma sys_read_whole : forall w fd n, whole_or_none w -> sane w fd ->
  snd (sys_read w fd n) = None \/
  exists k h w1, lookup w fd = Some (k, h) /\ readable h = true /\
    let d := firstn (Z.to_nat n) (skipn (Z.to_nat (offset h)) (content_of w (file_name h))) in
    sys_read w fd n = (w1, Some d) /\ whole_or_none w1 /\ lookup w1 fd = Some (k, move_to h (offset h + size_of d)) /\
    disk w1 = disk w.
Proof.
  intros w fd n P Sn. unfold sys_read, sane in *. destruct (lookup w fd) as [[k h]|] eqn:L; [|now left].
  destruct (readable h) eqn:R; [|now left]. rewrite respond_eq. cbv zeta.
  pose proof (hd_Forall _ _ (or_introl eq_refl) P) as Q. fold (response_now w) in Q.
  destruct Q as [-> | ->]; [|now left]. right. exists k, h. eexists. split; [reflexivity|]. split; [assumption|].
  split; [reflexivity|]. split; [unfold whole_or_none; cbn [set_handle script]; now apply Forall_tl|].
  split; [|reflexivity]. apply lookup_set with h. now rewrite lookup_world.
Qed.

(** A read at the end of the file. *)
Lemma sys_read_at_end : forall w fd k h n m, lookup w fd = Some (k, h) -> readable h = true -> whole_or_none w ->
  size_of (content_of w (file_name h)) <= offset h ->
  sys_read w fd n = sys_read w fd m /\ (snd (sys_read w fd n) = None \/ snd (sys_read w fd n) = Some []).
Proof.
  intros w fd k h n m L R P O. unfold sys_read. rewrite L, R, respond_eq. cbv zeta.
  change (content_of (World (disk w) (table w) (unused w) (tl (script w)))) with (content_of w).
  rewrite (skipn_all2 (content_of w (file_name h))) by (unfold size_of in O; lia). rewrite !firstn_nil.
  pose proof (hd_Forall _ _ (or_introl eq_refl) P) as Q. fold (response_now w) in Q.
  destruct Q as [-> | ->]; split; cbn [snd]; auto.
Qed.

Lemma block_same : forall w fd dst off n, whole_or_none w -> sane w fd -> 0 < n -> 0 <= off <= size_of dst ->
  read_block UnixLike w fd dst off n = read_block Windows w fd dst off n.
Proof.
  intros w fd dst off n P Sn N0 Off. unfold read_block. assert (F : exists k, block_fuel w fd = S k).
  { unfold block_fuel. destruct (lookup w fd) as [[? ?]|]; eauto. }
  pose proof (sys_read_whole w fd n P Sn) as C. unfold sane in Sn.
  remember (block_fuel w fd) as fuel eqn:EF. destruct fuel as [|fuel]; [destruct F; discriminate|]. clear F.
  cbn [unix_block windows_block]. rewrite Z.sub_0_r, Z.add_0_r.
  destruct C as [C|(k & h & w1 & L & R & E & P1 & L1 & D1)].
  { destruct (sys_read w fd n) as [w1 r]. cbn [snd] in C. now subst r. }
  rewrite L in Sn. rewrite E. set (d := firstn _ _) in *. rewrite !Z.add_0_l.
  assert (LD : d <> [] -> fuel <> O).
  { intros X Y. subst fuel. unfold block_fuel in EF. rewrite L in EF. injection EF as EF. apply X. unfold d.
    destruct (content_of w (file_name h)); [now rewrite skipn_nil, firstn_nil|discriminate]. }
  assert (SD : size_of d = Z.min n (Z.max 0 (size_of (content_of w (file_name h)) - offset h))).
  { unfold d, size_of. rewrite firstn_length, skipn_length. lia. }
  clearbody d. assert (C : d = [] \/ d <> []) by (destruct d; [now left|right; discriminate]).
  destruct C as [-> | NE].
  { rewrite blit_nothing by assumption. reflexivity. }
  specialize (LD NE).
  assert (NZ : size_of d =? 0 = false) by (destruct d; [now elim NE|unfold size_of; cbn [length]; lia]).
  replace (match d with [] => Ok (w1, dst, 0) | _ :: _ => bind (blit dst off d) (fun dst0 => if size_of d =? n then Ok (w1, dst0, size_of d) else unix_block fuel w1 fd dst0 off n (size_of d)) end)
    with (bind (blit dst off d) (fun dst0 => if size_of d =? n then Ok (w1, dst0, size_of d) else unix_block fuel w1 fd dst0 off n (size_of d)))
    by (destruct d; [now elim NE|reflexivity]).
  destruct (blit dst off d) as [dst1| | | |] eqn:B; cbn [bind]; try reflexivity. rewrite NZ. cbn [orb].
  destruct (size_of d =? n) eqn:Q; [reflexivity|]. apply blit_size in B.
  assert (End : size_of (content_of w1 (file_name h)) <= offset h + size_of d).
  { replace (content_of w1 (file_name h)) with (content_of w (file_name h)) by (unfold content_of; now rewrite D1).
    lia. }
  destruct fuel as [|fuel]; [congruence|]. cbn [unix_block windows_block].
  destruct (sys_read_at_end w1 fd k (move_to h (offset h + size_of d)) n (n - size_of d) L1 R P1) as [X Y]; [exact End|].
  rewrite <- X. destruct (sys_read w1 fd n) as [w2 r]. cbn [snd] in Y. destruct Y as [-> | ->]; [reflexivity|].
  rewrite blit_nothing by (unfold size_of in *; lia). cbn [bind]. change (size_of []) with 0. cbn [Z.eqb orb]. now rewrite Z.add_0_r.
Qed.

(* ------------------------------------------------------------- raw operations *)

Definition calm (s : sys) : Prop := whole_or_none (os s) /\ sane (os s) (descriptor s).

Lemma chunk_small : forall pl n, 0 < n < 2 ^ 32 -> Z.min n (chunk_max pl) = n.
Proof. intros [] n H; cbn [chunk_max]; lia. Qed.

Lemma read_blocks_same : forall w fd dst off n, whole_or_none w -> sane w fd -> 0 <= off <= size_of dst -> n < 2 ^ 32 ->
  read_blocks UnixLike (chunk_count UnixLike n) w fd dst off n 0 = read_blocks Windows (chunk_count Windows n) w fd dst off n 0.
Proof.
  intros w fd dst off n P Sn Off L. destruct (Z.leb_spec n 0) as [H|H].
  { assert (Q : n <=? 0 = true) by lia.
    destruct (chunk_count UnixLike n), (chunk_count Windows n); cbn [read_blocks]; now rewrite Q. }
  destruct (chunk_count_pos UnixLike n ltac:(lia)) as [a ->]. destruct (chunk_count_pos Windows n ltac:(lia)) as [b ->].
  cbn [read_blocks]. replace (n <=? 0) with false by lia. rewrite !chunk_small by lia.
  rewrite block_same by (assumption || lia). apply bind_same; [reflexivity|]. intros [[w1 d1] k1] _.
  destruct (k1 =? n); [|reflexivity]. rewrite Z.sub_diag. now destruct a, b.
Qed.

Lemma write_blocks_same : forall w fd d n, n < 2 ^ 32 ->
  write_blocks UnixLike (chunk_count UnixLike n) w fd d n 0 = write_blocks Windows (chunk_count Windows n) w fd d n 0.
Proof.
  intros w fd d n L. destruct (Z.leb_spec n 0) as [H|H].
  { assert (Q : n <=? 0 = true) by lia.
    destruct (chunk_count UnixLike n), (chunk_count Windows n); cbn [write_blocks]; now rewrite Q. }
  destruct (chunk_count_pos UnixLike n ltac:(lia)) as [a ->]. destruct (chunk_count_pos Windows n ltac:(lia)) as [b ->].
  cbn [write_blocks]. replace (n <=? 0) with false by lia. rewrite !chunk_small by lia.
  destruct (sys_write w fd (firstn (Z.to_nat n) d)) as [w1 r]. destruct ((match r with Some k => k | None => 0 end) =? n); [|reflexivity].
  rewrite Z.sub_diag. now destruct a, b.
Qed.

Lemma seek_same : forall s n pr, (pr = FromBegin -> 0 <= n) -> seek_raw UnixLike s n pr = seek_raw Windows s n pr.
Proof.
  intros s n pr H. unfold seek_raw. destruct pr; [|reflexivity|reflexivity]. now rewrite Z.max_r by auto.
Qed.

Lemma seek_calm : forall pl s n pr, calm s -> calm (seek_raw pl s n pr).
Proof.
  intros pl s n pr [P Sn]. unfold seek_raw. split; cbn [os descriptor].
  - now apply sys_seek_uses.
  - match goal with |- sane (fst (sys_seek _ _ ?m _)) _ => destruct (sys_seek_tame (os s) (descriptor s) m pr) as [T _] end. auto.
Qed.

Lemma read_raw_same : forall s dst off n rr, calm s -> 0 <= off <= size_of dst -> n <= 2 ^ 32 - 1 ->
  raw_read (file_ops UnixLike) s dst off n rr = raw_read (file_ops Windows) s dst off n rr.
Proof.
  intros s dst off n rr C Off L. cbn [file_ops raw_read]. unfold file_read_raw.
  set (s1 := match rr with FillBuffer => if 0 <? filled_last s then seek_raw UnixLike s (filled_last s) FromCurrent else s | LeanRetrieval => s end).
  change (match rr with FillBuffer => if 0 <? filled_last s then seek_raw Windows s (filled_last s) FromCurrent else s | LeanRetrieval => s end) with s1.
  assert (C1 : calm s1).
  { unfold s1. destruct rr; [assumption|]. destruct (0 <? filled_last s); [now apply seek_calm|assumption]. }
  destruct C1 as [P1 S1]. rewrite read_blocks_same by (assumption || lia). reflexivity.
Qed.

Lemma read_raw_calm : forall s dst off n rr s' dst' k, calm s -> raw_read (file_ops UnixLike) s dst off n rr = Ok (s', dst', k) ->
  calm s' /\ size_of dst' = size_of dst /\ 0 <= k.
Proof.
  intros s dst off n rr s' dst' k C H. pose proof (ops_read_tame _ _ _ _ _ _ _ _ _ H) as [T1 T2].
  cbn [file_ops raw_read] in H. unfold file_read_raw in H.
  set (s1 := match rr with FillBuffer => _ | LeanRetrieval => _ end) in H.
  assert (C1 : calm s1).
  { unfold s1. destruct rr; [assumption|]. destruct (0 <? filled_last s); [now apply seek_calm|assumption]. }
  destruct (read_blocks UnixLike (chunk_count UnixLike n) (os s1) (descriptor s1) dst off n 0) as [[[w1 d1] k1]| | | |] eqn:E; cbn [bind] in H; try discriminate.
  apply read_blocks_uses in E. destruct E as (E1 & E2 & E3). injection H as <- <- <-. split; [|lia]. split.
  - destruct C1 as [P1 _]. apply E1 in P1. destruct rr; [exact P1|]. cbn [os seek_raw]. now apply sys_seek_uses.
  - rewrite T1. destruct T2 as [T2 _]. apply T2, C.
Qed.

Lemma write_raw_same : forall s d, calm s -> size_of d <= 2 ^ 32 - 1 ->
  raw_write (file_ops UnixLike) s d = raw_write (file_ops Windows) s d.
Proof. intros s d C L. cbn [file_ops raw_write]. unfold file_write_raw. rewrite write_blocks_same by lia. reflexivity. Qed.

Lemma write_raw_calm : forall s d s' k, calm s -> raw_write (file_ops UnixLike) s d = Ok (s', k) -> calm s'.
Proof.
  intros s d s' k [P C] H. pose proof (ops_write_tame _ _ _ _ _ H) as [T1 [T2 _]].
  split; [|rewrite T1; auto]. cbn [file_ops raw_write] in H. unfold file_write_raw in H.
  destruct (write_blocks UnixLike (chunk_count UnixLike (size_of d)) (os s) (descriptor s) d (size_of d) 0) as [[w1 k1]| | | |] eqn:E; cbn [bind] in H; try discriminate.
  apply write_blocks_uses in E. injection H as <- _. now apply E.
Qed.

(* ---------------------------------------------------------------------- calls *)

Definition fits (f : file) : Prop := fit calm (2 ^ 32 - 1) (res f).

Lemma flush_alike : forall r, fit calm (2 ^ 32 - 1) r -> flush (file_ops UnixLike) r = flush (file_ops Windows) r.
Proof.
  intros. eapply (flush_same (file_ops UnixLike) (file_ops Windows) calm (2 ^ 32 - 1)); try eassumption;
  first [exact read_raw_same | exact read_raw_calm | exact write_raw_same | exact write_raw_calm | lia].
Qed.
Lemma flush_fits : forall r r', fit calm (2 ^ 32 - 1) r -> flush (file_ops UnixLike) r = Ok r' -> fit calm (2 ^ 32 - 1) r'.
Proof.
  intros. first [eapply (flush_fit (file_ops UnixLike) calm (2 ^ 32 - 1)) | eapply (flush_fit (file_ops UnixLike) (file_ops Windows) calm (2 ^ 32 - 1))]; try eassumption;
  first [exact read_raw_same | exact read_raw_calm | exact write_raw_same | exact write_raw_calm | lia].
Qed.
Lemma write_alike : forall r d, fit calm (2 ^ 32 - 1) r -> size_of d <= 2 ^ 32 - 1 -> write (file_ops UnixLike) r d = write (file_ops Windows) r d.
Proof.
  intros. eapply (write_same (file_ops UnixLike) (file_ops Windows) calm (2 ^ 32 - 1)); try eassumption;
  first [exact read_raw_same | exact read_raw_calm | exact write_raw_same | exact write_raw_calm | lia].
Qed.
Lemma write_fits : forall r d r' k, fit calm (2 ^ 32 - 1) r -> write (file_ops UnixLike) r d = Ok (r', k) -> fit calm (2 ^ 32 - 1) r'.
Proof.
  intros. first [eapply (write_fit (file_ops UnixLike) calm (2 ^ 32 - 1)) | eapply (write_fit (file_ops UnixLike) (file_ops Windows) calm (2 ^ 32 - 1))]; try eassumption;
  first [exact read_raw_same | exact read_raw_calm | exact write_raw_same | exact write_raw_calm | lia].
Qed.
Lemma read_fits : forall r dst n r' dst' k, fit calm (2 ^ 32 - 1) r -> read (file_ops UnixLike) r dst n = Ok (r', dst', k) -> fit calm (2 ^ 32 - 1) r'.
Proof.
  intros. first [eapply (read_fit (file_ops UnixLike) calm (2 ^ 32 - 1)) | eapply (read_fit (file_ops UnixLike) (file_ops Windows) calm (2 ^ 32 - 1))]; try eassumption;
  first [exact read_raw_same | exact read_raw_calm | exact write_raw_same | exact write_raw_calm | lia].
Qed.
Lemma read_alike : forall r dst n, fit calm (2 ^ 32 - 1) r -> 0 <= n < 2 ^ 32 -> read (file_ops UnixLike) r dst n = read (file_ops Windows) r dst n.
Proof.
  intros. eapply (read_same (file_ops UnixLike) (file_ops Windows) calm (2 ^ 32 - 1)); try eassumption;
  first [exact read_raw_same | exact read_raw_calm | exact write_raw_same | exact write_raw_calm | lia].
Qed.
Lemma seek_fit : forall pl r n pr x, fit calm (2 ^ 32 - 1) r -> fit calm (2 ^ 32 - 1) (Resource (seek_raw pl (inner r) n pr) (set_read_dirty (buf r) x)).
Proof. intros pl r n pr x (G & C & Z). split; [now apply seek_calm|]. now split. Qed.

Lemma flush_file_same : forall f, fits f -> file_flush UnixLike f = file_flush Windows f.
Proof. intros f F. unfold file_flush. now rewrite flush_alike. Qed.

Lemma flush_file_fits : forall f f', fits f -> file_flush UnixLike f = Ok f' -> fits f'.
Proof.
  intros f f' F H. unfold file_flush in H.
  destruct (flush (file_ops UnixLike) (res f)) as [r| | | |] eqn:E; cbn [bind] in H; try discriminate. injection H as <-.
  apply (flush_fits _ _ F) in E. exact E.
Qed.

Lemma close_same : forall f, fits f -> file_close UnixLike f = file_close Windows f.
Proof. intros f F. unfold file_close. now rewrite flush_file_same. Qed.

Lemma noexcept_ok : forall (A : Type) (x : outcome A) a, noexcept x = Ok a -> x = Ok a.
Proof. intros A x a H. destruct x; cbn [noexcept] in H; congruence. Qed.

Lemma close_fits : forall f f', fits f -> file_close UnixLike f = Ok f' -> fits f'.
Proof.
  intros f f' F H. unfold file_close in H. apply noexcept_ok in H.
  destruct (file_flush UnixLike f) as [f1| | | |] eqn:E; cbn [bind] in H; try discriminate. injection H as <-.
  apply flush_file_fits in E; [|assumption]. destruct E as ((P & _) & C & Z). split; [|now split].
  cbn [with_sys res inner]. split; cbn [os descriptor]; [|exact Logic.I]. unfold whole_or_none in *.
  destruct (descriptor (inner (res f1))); exact P.
Qed.

Lemma open_same : forall f p m how, fits f -> file_open UnixLike f p m how = file_open Windows f p m how.
Proof.
  intros f p m how F. unfold file_open. apply bind_same.
  { destruct (is_open f); [now apply close_same|reflexivity]. }
  intros f1 _. destruct how; [|reflexivity]. destruct (disk (os (inner (res f1))) p) eqn:D; [|reflexivity].
  unfold sys_open. rewrite respond_eq. cbn [disk]. rewrite D. now destruct (response_now (os (inner (res f1)))).
Qed.

Lemma open_fits : forall f p m how f' b, fits f -> file_open UnixLike f p m how = Ok (f', b) -> fits f'.
Proof.
  intros f p m how f' b F H. unfold file_open in H.
  match type of H with bind ?x _ = _ => assert (T : forall f1, x = Ok f1 -> fits f1); [|destruct x as [f1| | | |]; cbn [bind] in H; try discriminate] end.
  { intros f1. destruct (is_open f); [now apply close_fits|]. intro X. now injection X as <-. }
  specialize (T f1 eq_refl). destruct T as ((P & Sn) & C & Z).
  assert (X : forall create, fits (let '(w, fd) := sys_open (os (inner (res f1))) p create (mode_reads m) (mode_writes m) in
      File (Resource (Sys w fd (filled_last (inner (res f1)))) (buf (res f1))) (path f1) m)).
  { intros create. unfold sys_open. rewrite respond_eq. cbn [disk].
    apply Forall_tl in P.
    destruct (response_now (os (inner (res f1)))); [split; [split; [exact P|exact Logic.I]|now split]| |];
    (destruct (disk (os (inner (res f1))) p); destruct create;
     (split; [|now split]; split; [exact P|]; cbn [inner os descriptor sane lookup res];
      try exact Logic.I; unfold sane, lookup; cbn [table]; rewrite set_same; cbn [offset]; lia)). }
  destruct how; destruct (disk (os (inner (res f1))) p) eqn:D.
  - specialize (X false). destruct (sys_open (os (inner (res f1))) p false (mode_reads m) (mode_writes m)). injection H as <- _. exact X.
  - injection H as <- _. split; [now split|now split].
  - specialize (X true). destruct (sys_open (os (inner (res f1))) p true (mode_reads m) (mode_writes m)). injection H as <- _. exact X.
  - specialize (X true). destruct (sys_open (os (inner (res f1))) p true (mode_reads m) (mode_writes m)). injection H as <- _. exact X.
Qed.

Lemma call_same : forall f c, fits f -> portable (Call c) -> call_file UnixLike f c = call_file Windows f c.
Proof.
  intros f c F L. destruct c as [block n|data| |n o|n|n]; cbn [call_file portable] in *.
  - unfold file_read. destruct (mode f); rewrite ?read_alike by assumption; reflexivity.
  - assert (size_of data <= 2 ^ 32 - 1) by (unfold size_of; unfold len in L; lia).
    unfold file_write. destruct (mode f); rewrite ?write_alike by assumption; reflexivity.
  - now rewrite flush_file_same.
  - unfold file_seek. rewrite flush_alike by assumption. f_equal. f_equal. apply bind_same; [reflexivity|]. intros r _.
    rewrite seek_same; [reflexivity|]. destruct o; cbn [reference]; [auto|discriminate|discriminate].
  - unfold file_go. rewrite seek_same; [reflexivity|discriminate].
  - unfold file_go. rewrite seek_same; [reflexivity|discriminate].
Qed.

Lemma call_fits : forall f c f' a, fits f -> call_file UnixLike f c = Ok (f', a) -> fits f'.
Proof.
  intros f c f' a F H. destruct c as [block n|data| |n o|n|n]; cbn [call_file] in H.
  - unfold file_read in H. destruct (mode f).
    2:{ cbn [bind] in H. now injection H as <- _. }
    all: destruct (read (file_ops UnixLike) (res f) block n) as [[[r1 d1] k1]| | | |] eqn:E; cbn [bind] in H; try discriminate;
      injection H as <- _; exact (read_fits _ _ _ _ _ _ F E).
  - unfold file_write in H. destruct (mode f).
    1:{ cbn [bind] in H. now injection H as <- _. }
    all: destruct (write (file_ops UnixLike) (res f) data) as [[r1 k1]| | | |] eqn:E; cbn [bind] in H; try discriminate;
      injection H as <- _; exact (write_fits _ _ _ _ F E).
  - destruct (file_flush UnixLike f) as [f1| | | |] eqn:E; cbn [bind] in H; try discriminate. injection H as <- _.
    now apply flush_file_fits in E.
  - unfold file_seek in H. destruct (flush (file_ops UnixLike) (res f)) as [r| | | |] eqn:E; cbn [bind noexcept] in H; try discriminate.
    injection H as <- _. apply (flush_fits _ _ F) in E. now apply seek_fit.
  - injection H as <- _. destruct F as (G & C & Z). split; [now apply seek_calm|now split].
  - injection H as <- _. destruct F as (G & C & Z). split; [now apply seek_calm|now split].
Qed.

(** The one difference that is left. *)
Lemma position_same : forall f, file_position Windows f <> UB Indeterminate -> file_position UnixLike f = file_position Windows f.
Proof.
  intros f. unfold file_position. destruct (snd (sys_seek _ _ _ _)); [reflexivity|]. now intros [].
Qed.

Lemma act_same : forall f x, fits f -> portable x -> act Windows f x <> UB Indeterminate -> act UnixLike f x = act Windows f x.
Proof.
  intros f x F L H. destruct x as [c| | | |p m how|]; cbn [act] in *.
  - now rewrite call_same.
  - assert (Q : file_position Windows f <> UB Indeterminate) by (intro Q; rewrite Q in H; now apply H). now rewrite position_same.
  - unfold file_is_at_end in *. assert (Q : file_position Windows f <> UB Indeterminate) by (intro Q; rewrite Q in H; now apply H).
    now rewrite position_same.
  - reflexivity.
  - now rewrite open_same.
  - now rewrite close_same.
Qed.

Lemma act_fits : forall f x f' a, fits f -> act UnixLike f x = Ok (f', a) -> fits f'.
Proof.
  intros f x f' a F H. destruct x as [c| | | |p m how|]; cbn [act] in H.
  - destruct (call_file UnixLike f c) as [[f1 r1]| | | |] eqn:E; cbn [bind] in H; try discriminate. injection H as <- _. now apply call_fits in E.
  - destruct (file_position UnixLike f); cbn [bind] in H; try discriminate. now injection H as <- _.
  - destruct (file_is_at_end UnixLike f); cbn [bind] in H; try discriminate. now injection H as <- _.
  - now injection H as <- _.
  - destruct (file_open UnixLike f p m how) as [[f1 r1]| | | |] eqn:E; cbn [bind] in H; try discriminate. injection H as <- _. now apply open_fits in E.
  - destruct (file_close UnixLike f) as [f1| | | |] eqn:E; cbn [bind] in H; try discriminate. injection H as <- _. now apply close_fits in E.
Qed.

Lemma act_all_same : forall l f, fits f -> Forall portable l -> act_all Windows f l <> UB Indeterminate ->
  act_all UnixLike f l = act_all Windows f l.
Proof.
  induction l as [|x l IH]; intros f F L H; [reflexivity|]. cbn [act_all] in *. apply Forall_cons_iff in L. destruct L as [L1 L2].
  assert (A : act UnixLike f x = act Windows f x).
  { apply act_same; try assumption. intro Q. rewrite Q in H. now apply H. }
  apply bind_same; [exact A|]. intros [f1 a] E. rewrite <- A, E in H. cbn [bind] in H.
  rewrite IH; [reflexivity|now apply act_fits in E|assumption|]. intro Q. rewrite Q in H. now apply H.
Qed.

Lemma act_all_fits : forall l f f' r, fits f -> act_all UnixLike f l = Ok (f', r) -> fits f'.
Proof.
  induction l as [|x l IH]; intros f f' r F H; cbn [act_all] in H; [now injection H as <- _|].
  destruct (act UnixLike f x) as [[f1 a]| | | |] eqn:E; cbn [bind] in H; try discriminate.
  destruct (act_all UnixLike f1 l) as [[f2 r2]| | | |] eqn:E2; cbn [bind] in H; try discriminate.
  injection H as <- _. apply act_fits in E; [|assumption]. now apply IH in E2.
Qed.

Lemma fresh_fits : forall w p m cap, whole_or_none w -> Z.of_nat cap < 2 ^ 32 ->
  fits (File (Resource (Sys w None 0) (new_buffer cap)) (Some p) m).
Proof.
  intros w p m cap P C. split; [now split|]. cbn [res buf]. unfold capacity, new_buffer, size_of. cbn [mem filled].
  rewrite repeat_length. lia.
Qed.

Lemma new_file_fits : forall w p m how cap f, whole_or_none w -> Z.of_nat cap < 2 ^ 32 ->
  new_file UnixLike w p m how cap = Ok f -> fits f.
Proof.
  intros w p m how cap f P C H. unfold new_file in H. pose proof (fresh_fits w p m cap P C) as F.
  destruct (file_open UnixLike _ p m how) as [[f1 b]| | | |] eqn:E in H; cbn [bind] in H; try discriminate. injection H as <-.
  now apply open_fits in E.
Qed.

Lemma life_same : forall w p m how cap l, whole_or_none w -> Z.of_nat cap < 2 ^ 32 -> Forall portable l ->
  life Windows w p m how cap l <> UB Indeterminate -> life UnixLike w p m how cap l = life Windows w p m how cap l.
Proof.
  intros w p m how cap l P C L H. unfold life in *.
  assert (A : new_file UnixLike w p m how cap = new_file Windows w p m how cap).
  { unfold new_file. rewrite open_same; [reflexivity|]. now apply fresh_fits. }
  apply bind_same; [exact A|]. intros f E. rewrite <- A, E in H. cbn [bind] in H. apply new_file_fits in E; [|assumption|assumption].
  assert (B : act_all UnixLike f l = act_all Windows f l).
  { apply act_all_same; try assumption. intro Q. rewrite Q in H. now apply H. }
  apply bind_same; [exact B|]. intros [f1 r] E1. apply act_all_fits in E1; [|assumption].
  unfold destroy. now rewrite close_same.
Qed.
