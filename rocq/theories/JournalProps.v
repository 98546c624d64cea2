(** C171: lines in a log that several programs write, one after the other. *)
From Coq Require Import NArith ZArith List Bool Lia.
From Coq Require Import ZifyBool ZifyNat ZifyN.
From Verif Require Import Base Integers ResourceSpec ResourceModel ResourceText FileSpec FileModel FileText.
From Verif Require Import ResourceLemmas CrashSpec CrashModel CrashLemmas2 DiarySpec DiaryText DiaryProps JournalSpec.
Import ListNotations.
Open Scope Z_scope.

Lemma logs_lines_app : forall a b, logs_lines (a ++ b) = logs_lines a ++ logs_lines b.
Proof. intros. apply flat_map_app. Qed.
Lemma lines_whole : forall ls a, line_begins a -> line_begins (a ++ written (logs_lines ls)).
Proof.
  intros ls. induction ls as [|line ls IH]; intros a H; [now rewrite app_nil_r|].
  change (logs_lines (line :: ls)) with ([Write (line ++ [10%N]); Flush] ++ logs_lines ls). rewrite written_app, app_assoc.
  apply IH. cbn. rewrite app_nil_r, app_assoc. right. now exists (a ++ line).
Qed.
Lemma lines_end : forall ls a, ls <> [] -> line_begins (a ++ written (logs_lines ls)).
Proof.
  intros [|line ls] a H; [easy|]. change (logs_lines (line :: ls)) with ([Write (line ++ [10%N]); Flush] ++ logs_lines ls).
  rewrite written_app, app_assoc. apply lines_whole. cbn. rewrite app_nil_r, app_assoc. right. now exists (a ++ line).
Qed.
Lemma lines_one : forall before line, written (logs_lines (before ++ [line])) = written (logs_lines before) ++ line ++ [10%N].
Proof. intros. rewrite logs_lines_app, written_app. cbn. now rewrite app_nil_r. Qed.

(** What a run has reported is there. *)
Lemma reported_part : forall cap r before line part, reported r before line -> survives cap r part ->
  exists y, part = written (logs_lines before) ++ line ++ 10%N :: y.
Proof.
  intros cap r before line part (_ & after & more & D & R) (k & K & -> & _ & Fl & _).
  assert (X : len (written (logs_lines (before ++ [line]))) <= k).
  { specialize (Fl (logs_lines before ++ [Write (line ++ [10%N])]) more). rewrite !written_app in Fl. cbn in Fl. rewrite app_nil_r in Fl.
    rewrite lines_one. apply Fl. rewrite R, logs_lines_app. cbn. now rewrite <- !app_assoc. }
  rewrite D. change (before ++ line :: after) with (before ++ [line] ++ after). rewrite app_assoc, logs_lines_app, written_app.
  rewrite take_app by lia. rewrite take_all by exact X. rewrite lines_one, <- !app_assoc. cbn [app]. eexists. reflexivity.
Qed.

(** C171.  "Every line that a program has logged is found as a line in the log" is false (see
    below): what a killed program left of a line stays, and the first line of the next program
    is joined to it.  It holds for all other lines: for those that are not the first of their
    run, and for the first ones, too, if the run before came to its end.

    The log begins with the bytes l, which end with a line feed unless there are none.  All
    runs log lines, end or are killed at any time, and have buffers of any capacity. *)
Theorem C171_lines_partial : forall pl q d rs d' l earlier cap r later before line,
  all_leave pl q d rs d' -> holds_log d q l -> line_begins l ->
  Forall (fun r => Forall logs (does (snd r)) /\ Forall (fun c => len (written [c]) <= chunk_max pl) (does (snd r))) rs ->
  len (l ++ concat (map (fun r => written (does (snd r))) rs)) < 2 ^ 63 ->
  Forall (fun r => exists ls, does (snd r) = logs_lines ls) rs ->
  rs = earlier ++ (cap, r) :: later -> reported r before line -> before <> [] \/ left_whole earlier ->
  exists content, d' q = Some content /\ is_line content line.
Proof.
  intros pl q d rs d' l earlier cap r later before line A H B F L Ls E R W.
  destruct (C156_log pl q d rs d' l A H F L) as (parts & P & Hd & _). subst rs.
  apply Forall2_app_inv_l in P. destruct P as (p1 & p2 & P1 & P2 & ->). inversion P2 as [|? part ? p3 S P3]; subst. cbn [fst snd] in S.
  destruct (reported_part _ _ _ _ _ R S) as (y & Ey). rewrite concat_app in Hd. cbn [concat] in Hd. rewrite Ey in Hd.
  destruct Hd as [Hd|[_ Hd]].
  2: { apply (f_equal (fun z => In 10%N z)) in Hd. exfalso. cbn in Hd. rewrite <- Hd. rewrite !in_app_iff. cbn. tauto. }
  eexists. split; [exact Hd|]. exists ((l ++ concat p1) ++ written (logs_lines before)), (y ++ concat p3).
  split; [|split; [|apply R]].
  { rewrite <- !app_assoc. cbn [app]. reflexivity. }
  destruct W as [W|W]; [now apply lines_end|]. apply lines_whole. destruct W as [->|(rs & c0 & r0 & -> & Fi & Ne)].
  - inversion P1; subst. cbn. now rewrite app_nil_r.
  - apply Forall2_app_inv_l in P1. destruct P1 as (q1 & q2 & _ & Q & ->). inversion Q as [|? part0 ? q3 S0 Q3]; subst. inversion Q3; subst.
    cbn [fst snd] in S0. destruct S0 as (k & K & -> & Fk & _). rewrite (Fk Fi), take_all by lia.
    rewrite concat_app. cbn [concat]. rewrite app_nil_r, app_assoc.
    rewrite !Forall_app in Ls. destruct Ls as [[_ Ls] _]. inversion Ls as [|? ? (ls & Dl) _]; subst. cbn [snd] in Dl. rewrite Dl.
    apply lines_end. intros ->. now apply Ne.
Qed.
Print Assumptions C171_lines_partial.

(** Hence programs that begin with an empty line lose nothing: every other line is found. *)
Theorem C171_empty_first_partial : forall pl q d rs d' l cap r before line,
  all_leave pl q d rs d' -> holds_log d q l -> line_begins l ->
  Forall (fun r => Forall logs (does (snd r)) /\ Forall (fun c => len (written [c]) <= chunk_max pl) (does (snd r))) rs ->
  len (l ++ concat (map (fun r => written (does (snd r))) rs)) < 2 ^ 63 ->
  Forall (fun r => exists ls, does (snd r) = logs_lines ([] :: ls)) rs ->
  In (cap, r) rs -> reported r before line -> line <> [] ->
  exists content, d' q = Some content /\ is_line content line.
Proof.
  intros pl q d rs d' l cap r before line A H B F L Ls I R Ne. apply in_split in I. destruct I as (earlier & later & E).
  eapply C171_lines_partial; try eassumption.
  - eapply Forall_impl; [|exact Ls]. intros x (ls & X). eauto.
  - left. intros ->. subst rs. apply Forall_app in Ls. destruct Ls as [_ Ls]. inversion Ls as [|? ? (ls & X) _]; subst. cbn [snd] in X.
    destruct R as (_ & after & more & D & _). rewrite D in X. cbn in X. injection X as X _.
    change [10%N] with ([] ++ [10%N]) in X at 2. apply app_inj_tail in X. now apply Ne.
Qed.
Print Assumptions C171_empty_first_partial.

(** Two runs with a buffer of eight bytes: the first logs the line [1; 2] and is killed within
    the system call of the flush, when one byte is in the file; the second logs [3] and [4; 5]
    and comes to its end. *)
Definition torn_runs : list (nat * run) :=
  [(8%nat, Run (logs_lines [[1; 2]])%N [Write [1; 2; 10]]%N false);
   (8%nat, Run (logs_lines [[3]; [4; 5]])%N (logs_lines [[3]; [4; 5]])%N true)].

Lemma torn_log : forall pl, exists d', all_leave pl 1 (fun _ => None) torn_runs d' /\ d' 1%N = Some [1; 3; 10; 4; 5; 10]%N.
Proof.
  intro pl. set (f1 := got (new_file pl (fresh (fun _ => None)) 1 WriteOnly Create 8)).
  set (g1 := got (fst_of (run_file pl f1 (SetPosition 0 End :: [Write [1; 2; 10]]%N)))).
  set (x1 := watched_call pl g1 Flush).
  set (t1 := match x1 with Ok (_, _, [t]) => t | _ => Attempt (fresh (fun _ => None)) None [] end).
  set (d1 := left_at t1 (AtMost 1)).
  set (f2 := got (new_file pl (fresh d1) 1 WriteOnly Create 8)).
  set (g2 := got (fst_of (run_file pl f2 (SetPosition 0 End :: logs_lines [[3]; [4; 5]]%N)))).
  set (h2 := got (file_close pl g2)).
  exists (disk_of h2). split; [|destruct pl; vm_compute; reflexivity].
  assert (R1 : exists h b, x1 = Ok (h, b, [t1])).
  { eexists (got (bind x1 (fun '(h, _, _) => Ok h))), (Returned Done). destruct pl; vm_compute; reflexivity. }
  destruct R1 as (h1 & b1 & R1).
  assert (Cm : Z.of_nat 8 <= chunk_max pl) by (destruct pl; vm_compute; discriminate).
  econstructor; [exact Cm| |econstructor; [exact Cm| |constructor]].
  - eapply (KilledIn pl 1 8 (fun _ => None) (fresh (fun _ => None)) WriteOnly _
      (SetPosition 0 End :: [Write [1; 2; 10]]%N) Flush [] f1 g1 h1 [Returned Done; Returned (Wrote 3)] b1 [t1] d1);
      [reflexivity|constructor|reflexivity|reflexivity|destruct pl; vm_compute; reflexivity|destruct pl; vm_compute; reflexivity|exact R1|].
    apply (WithinOne true _ [t1] t1 1); [now left|reflexivity].
  - eapply (Ended pl 1 8 d1 (fresh d1) WriteOnly _ f2 g2 h2
      [Returned Done; Returned (Wrote 2); Returned Done; Returned (Wrote 3); Returned Done]);
      [reflexivity|constructor|reflexivity|destruct pl; vm_compute; reflexivity|destruct pl; vm_compute; reflexivity|destruct pl; vm_compute; reflexivity].
Qed.

(** They meet the hypotheses of C171_lines_partial for the line [4; 5]. *)
Example C171_hypotheses : forall pl, exists d', all_leave pl 1 (fun _ => None) torn_runs d' /\ holds_log (fun _ => None) 1 [] /\ line_begins [] /\
  Forall (fun r => Forall logs (does (snd r)) /\ Forall (fun c => len (written [c]) <= chunk_max pl) (does (snd r))) torn_runs /\
  len ([] ++ concat (map (fun r => written (does (snd r))) torn_runs)) < 2 ^ 63 /\
  Forall (fun r => exists ls, does (snd r) = logs_lines ls) torn_runs /\
  exists earlier r, torn_runs = earlier ++ (8%nat, r) :: [] /\ reported r [[3]]%N [4; 5]%N.
Proof.
  intro pl. destruct (torn_log pl) as (d' & A & _). exists d'. split; [exact A|]. split; [right; auto|]. split; [now left|].
  split; [repeat constructor; destruct pl; vm_compute; discriminate|]. split; [reflexivity|].
  split; [repeat constructor; eexists; reflexivity|]. do 2 eexists. split.
  - unfold torn_runs. change (?a :: ?b :: []) with ([a] ++ b :: []). reflexivity.
  - split; [cbn; intros [X|[X|[]]]; discriminate|]. exists [], []. split; reflexivity.
Qed.

(** The same runs with an empty line first: hypotheses of C171_empty_first_partial about the
    lines and what is reported. *)
Example C171_empty_hypotheses : let r := Run (logs_lines [[]; [3]; [4; 5]])%N (logs_lines [[]; [3]; [4; 5]])%N true in
  (exists ls, does r = logs_lines ([] :: ls)) /\ reported r [[]] [3]%N /\ [3]%N <> [] /\
  exists d', all_leave UnixLike 1 (fun _ => None) [(8%nat, r)] d'.
Proof.
  cbv zeta. split; [eexists; reflexivity|]. split; [|split; [discriminate|]].
  - split; [cbn; intros [X|[]]; discriminate|]. exists [[4; 5]]%N, [Write [4; 5; 10]%N; Flush]. split; reflexivity.
  - assert (Cm : Z.of_nat 8 <= chunk_max UnixLike) by (vm_compute; discriminate).
    destruct (C156_runs UnixLike 1 8 (fun _ => None) [] (logs_lines [[]; [3]; [4; 5]])%N WriteOnly) as [(d' & Lv) _];
      [right; auto|exact Cm|reflexivity|repeat constructor|repeat constructor; vm_compute; discriminate|reflexivity|].
    exists d'. econstructor; [exact Cm|exact Lv|constructor].
Qed.

(** The refutation: the line [3] has been written and flushed, and its program came to its
    end, but the log has the lines [1; 3] and [4; 5]. *)
Theorem C171_refuted : forall pl, exists q d rs d' cap r line content,
  all_leave pl q d rs d' /\ d q = None /\
  Forall (fun r => exists ls, does (snd r) = logs_lines ls) rs /\
  In (cap, r) rs /\ reported r [] line /\ finished r = true /\
  d' q = Some content /\ ~ is_line content line.
Proof.
  intro pl. destruct (torn_log pl) as (d' & A & D). exists 1%N, (fun _ => None), torn_runs, d'. do 2 eexists. exists [3]%N, [1; 3; 10; 4; 5; 10]%N.
  split; [exact A|]. split; [reflexivity|]. split; [repeat constructor; eexists; reflexivity|]. split; [right; left; reflexivity|].
  split; [split; [cbn; intros [X|[]]; discriminate|]; exists [[4; 5]]%N, [Write [4; 5; 10]%N; Flush]; split; reflexivity|].
  split; [reflexivity|]. split; [exact D|]. intros (a & b & E & B & _).
  destruct a as [|x a]; [discriminate E|]. injection E as <- E. destruct a as [|y a].
  - destruct B as [B|(c & B)]; [discriminate B|]. destruct c as [|? [|? ?]]; discriminate B.
  - injection E as <- E. do 4 (destruct a as [|? a]; [discriminate E|injection E as <- E]). destruct a; discriminate E.
Qed.
Print Assumptions C171_refuted.
