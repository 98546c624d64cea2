(** C173: a log of lines of text is read with a text stream. *)
From Coq Require Import NArith ZArith List Bool Lia.
From Coq Require Import ZifyBool ZifyNat ZifyN.
From Verif Require Import Base Integers UnicodeSpec UnicodeModel UnicodeText NumeralSpec NumberLemmas ResourceSpec ResourceModel ResourceText
  FileSpec FileModel FileText StreamSpec StreamModel StreamText.
From Verif Require Import ResourceLemmas StreamLemmas2 StreamLemmas3 TextFileSpec TextFileText TextFileLemmas TextFileLemmas2 TextFileLemmas3.
From Verif Require Import CrashSpec CrashModel CrashLemmas2 DiarySpec DiaryText DiaryProps JournalSpec JournalProps ChronicleSpec.
Import ListNotations.
Open Scope Z_scope.

Lemma simple_ascii : forall l, simple_text l -> Forall (fun c => (c < 128)%N) l.
Proof. intros l. apply Forall_impl. tauto. Qed.
Lemma simple_lf : forall l, simple_text l -> lf_text l = l.
Proof.
  induction l as [|c l IH]; intro H; [reflexivity|]. inversion H as [|? ? [_ Hc] Hl]; subst. specialize (IH Hl).
  cbn [lf_text]. destruct l as [|d l]; [reflexivity|]. replace (c =? 13)%N with false by (symmetry; now apply N.eqb_neq).
  cbn [andb]. now rewrite IH.
Qed.
Lemma simple_paired : forall l, simple_text l -> carriage_returns_paired l.
Proof.
  induction l as [|c l IH]; intro H; [exact I|]. inversion H as [|? ? [_ Hc] Hl]; subst. cbn.
  split; [intro; contradiction|exact (IH Hl)].
Qed.
Lemma simple_app : forall a b, simple_text (a ++ b) <-> simple_text a /\ simple_text b.
Proof. intros. apply Forall_app. Qed.
Lemma simple_take : forall k l, simple_text l -> simple_text (take k l).
Proof. intros k l H. rewrite <- (take_drop k l) in H. now apply simple_app in H. Qed.

Lemma no_feed_split : forall a, exists ls z, a = concat (map (fun line => line ++ [10%N]) ls) ++ z /\ Forall (fun line => ~ In 10%N line) ls /\ ~ In 10%N z.
Proof.
  induction a as [|c a (ls & z & -> & F & Nz)]; [exists [], []; repeat split; [constructor|intros []]|].
  destruct (N.eq_dec c 10) as [->|Nc].
  - exists ([] :: ls), z. split; [reflexivity|]. split; [constructor; [intros []|exact F]|exact Nz].
  - destruct ls as [|x ls].
    + exists [], (c :: z). split; [reflexivity|]. split; [constructor|]. intros [X|X]; [now apply Nc|now apply Nz].
    + inversion F as [|? ? Fx Fl]; subst. exists ((c :: x) :: ls), z. split; [reflexivity|]. split; [|exact Nz].
      constructor; [|exact Fl]. intros [X|X]; [now apply Nc|now apply Fx].
Qed.
Lemma lines_of : forall a, line_begins a -> exists ls, a = concat (map (fun line => line ++ [10%N]) ls) /\ Forall (fun line => ~ In 10%N line) ls.
Proof.
  intros a [->|(b & ->)]; [exists []; split; [reflexivity|constructor]|].
  destruct (no_feed_split b) as (ls & z & -> & F & Nz). exists (ls ++ [z]). split.
  - rewrite map_app, concat_app. cbn. now rewrite app_nil_r, app_assoc.
  - apply Forall_app. split; [exact F|]. constructor; [exact Nz|constructor].
Qed.
Lemma obtains_lines : forall ls r, Forall (fun line => ~ In 10%N line) ls ->
  obtains_all (map fst (repeat (Line, K8) (length ls))) (concat (map (fun line => line ++ [10%N]) ls) ++ r) (map AText ls) r.
Proof.
  induction ls as [|line ls IH]; intros r F; [constructor|]. inversion F as [|? ? F1 F2]; subst.
  cbn [length repeat map fst concat]. econstructor; [|apply IH; exact F2].
  rewrite <- !app_assoc. cbn [app]. now apply ObtainsLine.
Qed.

Lemma parts_simple : forall rs parts, Forall2 (fun r part => survives (Z.of_nat (fst r)) (snd r) part) rs parts ->
  Forall (fun r => simple_text (written (does (snd r)))) rs ->
  simple_text (concat parts) /\ len (concat parts) <= len (concat (map (fun r => written (does (snd r))) rs)).
Proof.
  intros rs parts P. induction P as [|r part rs parts S P IH]; intro F; [split; [constructor|cbn; lia]|].
  inversion F as [|? ? F1 F2]; subst. destruct (IH F2) as [I1 I2]. destruct S as (k & K & -> & _). cbn [concat map]. split.
  - apply simple_app. split; [now apply simple_take|exact I1].
  - rewrite !len_app, len_take by lia. lia.
Qed.
Lemma lines_arrive : forall k ls, Forall simple_text ls -> all_can_arrive (repeat (Line, k) (length ls)) (map AText ls).
Proof.
  intros k ls F. unfold all_can_arrive. induction F as [|line ls H F IH]; cbn [length repeat map combine]; constructor; [|exact IH].
  cbn [can_arrive]. eapply Forall_impl; [|exact H]. intros c [C _]. split.
  - unfold holds, scalar. destruct k as [[]| | | | |]; lia.
  - intros _. rewrite N.mod_small by lia. lia.
Qed.
Lemma lines_pieces : forall k ls, Forall simple_text ls -> pieces_in (repeat (Line, k) (length ls)) (map AText ls) = map AText ls.
Proof.
  intros k ls F. unfold pieces_in. induction F as [|line ls H F IH]; cbn [length repeat map combine]; [reflexivity|].
  rewrite IH. cbn [piece_in]. now rewrite (ascii_units k line (simple_ascii line H)).
Qed.
Lemma lines_simple : forall ls, simple_text (concat (map (fun line => line ++ [10%N]) ls)) -> Forall simple_text ls.
Proof.
  induction ls as [|line ls IH]; intro H; [constructor|]. cbn [map concat] in H. apply simple_app in H. destruct H as [H1 H2].
  apply simple_app in H1. constructor; [apply H1|exact (IH H2)].
Qed.

(** C173.  "Every line of text that a program has logged can be read again" is false (see
    below): a killed program may leave a part of a character, and the text stream refuses the
    line with it.  It holds for lines of ASCII characters without CR, with the exception of
    C171: a program that reads lines, into strings of any type, gets the line, whatever its
    buffer. *)
Theorem C173_ascii_partial : forall pl q d rs d' l earlier cap r later before line pl' native w m cap' o k fuel,
  all_leave pl q d rs d' -> holds_log d q l -> line_begins l ->
  Forall (fun r => Forall logs (does (snd r)) /\ Forall (fun c => len (written [c]) <= chunk_max pl) (does (snd r))) rs ->
  len (l ++ concat (map (fun r => written (does (snd r))) rs)) < 2 ^ 63 ->
  Forall (fun r => exists ls, does (snd r) = logs_lines ls) rs ->
  rs = earlier ++ (cap, r) :: later -> reported r before line -> before <> [] \/ left_whole earlier ->
  simple_text l -> Forall (fun r => simple_text (written (does (snd r)))) rs ->
  disk w = d' -> obliging w -> Z.of_nat cap' <= chunk_max pl' -> wide_enough cap' UTF8 -> mode_reads m = true ->
  len (l ++ concat (map (fun r => written (does (snd r))) rs)) < Z.of_nat fuel ->
  exists lines w', In line lines /\
    read_text_file pl' w q m cap' false (order_of native) UTF8 o fuel (repeat (Line, k) (length lines)) = Ok (w', map AText lines).
Proof.
  intros pl q d rs d' l earlier cap r later before line pl' native w m cap' o k fuel A H B F L Ls E R W Sl Sr Dw Ob Cm We Mr Fu.
  destruct (C171_lines_partial pl q d rs d' l earlier cap r later before line A H B F L Ls E R W) as (content & D & a & b & Ec & La & Nl).
  destruct (C156_log pl q d rs d' l A H F L) as (parts & P & Hd & _). destruct (parts_simple rs parts P Sr) as [Sp Lp].
  assert (Eq : content = l ++ concat parts) by (destruct Hd as [Hd|[Hd _]]; congruence).
  assert (Sc : simple_text content) by (rewrite Eq; apply simple_app; now split).
  assert (Lc : len content <= len (l ++ concat (map (fun r => written (does (snd r))) rs))) by (rewrite Eq, !len_app; lia).
  destruct (lines_of a La) as (ls & Ea & Fl).
  assert (Ec' : content = concat (map (fun line => line ++ [10%N]) (ls ++ [line])) ++ b).
  { rewrite Ec, Ea, map_app, concat_app. cbn [map concat]. rewrite app_nil_r, <- !app_assoc. reflexivity. }
  assert (Fa : Forall (fun line => ~ In 10%N line) (ls ++ [line])) by (apply Forall_app; split; [exact Fl|constructor; [exact Nl|constructor]]).
  assert (Ss : Forall simple_text (ls ++ [line])).
  { rewrite Ec' in Sc. apply simple_app in Sc. destruct Sc as [Sc _]. exact (lines_simple _ Sc). }
  pose proof (simple_ascii _ Sc) as As.
  assert (Oa : obtains_all (map fst (repeat (Line, k) (length (ls ++ [line])))) (filtered content) (map AText (ls ++ [line])) b).
  { rewrite (filtered_lf_text (length content) content (le_n _) (simple_paired _ Sc)), (simple_lf _ Sc).
    rewrite Ec' at 1. pose proof (obtains_lines (ls ++ [line]) b Fa) as X.
    replace (map fst (repeat (Line, k) (length (ls ++ [line])))) with (map fst (repeat (Line, K8) (length (ls ++ [line])))); [exact X|].
    generalize (length (ls ++ [line])). intro n. induction n as [|n IH]; [reflexivity|]. cbn [repeat map fst]. now rewrite IH. }
  assert (Fl' : (length content < fuel)%nat) by (unfold len in Fu, Lc; lia).
  assert (Scal : Forall scalar content) by (eapply Forall_impl; [|exact As]; intros c X; cbn beta in X; unfold scalar; lia).
  assert (Eb : text_bytes UTF8 o content = content) by now apply ascii_bytes.
  destruct (gives_true _ _ _ (read_text_file_gives _ True pl' native w q cap' m UTF8 o content fuel (repeat (Line, k) (length (ls ++ [line])))
    (map AText (ls ++ [line])) b (sound_full pl' True) ltac:(rewrite Eb, Dw; exact D) ltac:(rewrite Eb; lia) (obliging_now w Ob) Ob Cm We Mr
    Scal Fl' Oa (lines_arrive k _ Ss))) as ([w2 xs] & E2 & -> & _).
  exists (ls ++ [line]), w2. split; [apply in_or_app; right; now left|]. rewrite E2. now rewrite (lines_pieces k _ Ss).
Qed.
Print Assumptions C173_ascii_partial.

Lemma texts_written : forall e o lines, written (logs_texts e o lines) = text_bytes e o (with_feeds lines).
Proof.
  intros e o. induction lines as [|line lines IH]; [reflexivity|].
  change (logs_texts e o (line :: lines)) with ([Write (text_bytes e o (line ++ [10%N])); Flush] ++ logs_texts e o lines).
  unfold with_feeds in *. cbn [map concat]. rewrite written_app, IH, (text_bytes_app e o (line ++ [10%N])). f_equal.
  change (written [Write (text_bytes e o (line ++ [10%N])); Flush]) with (text_bytes e o (line ++ [10%N]) ++ []). apply app_nil_r.
Qed.
Lemma feeds_app : forall a b, with_feeds (a ++ b) = with_feeds a ++ with_feeds b.
Proof. intros. unfold with_feeds. now rewrite map_app, concat_app. Qed.
Lemma feeds_scalar : forall lines, Forall proper_line lines -> Forall scalar (with_feeds lines) /\ ~ In 13%N (with_feeds lines).
Proof.
  intros lines F. unfold with_feeds. induction F as [|line lines (H1 & _ & H3) F (I1 & I2)]; cbn [map concat]; [split; [constructor|intros []]|].
  split.
  - apply Forall_app. split; [|exact I1]. apply Forall_app. split; [exact H1|]. constructor; [unfold scalar; lia|constructor].
  - rewrite !in_app_iff. intros [[X|[X|[]]]|X]; [now apply H3|discriminate|now apply I2].
Qed.
Lemma no_return_filtered : forall l, ~ In 13%N l -> filtered l = l.
Proof.
  intros l H. rewrite (filtered_lf_text (length l) l (le_n _)).
  - induction l as [|c l IH]; [reflexivity|]. cbn [lf_text]. destruct l as [|d l]; [reflexivity|].
    replace (c =? 13)%N with false by (symmetry; apply N.eqb_neq; intro X; apply H; now left). cbn [andb].
    rewrite IH; [reflexivity|]. intro X. apply H. now right.
  - induction l as [|c l IH]; [exact I|]. cbn. split; [intros ->; exfalso; apply H; now left|]. apply IH. intro X. apply H. now right.
Qed.

(** When no program is killed, all lines can be read, with all characters, in all encodings:
    in order, first those that were there. *)
Theorem C173_not_killed_partial : forall pl q d rs d' e o old texts pl' native w m cap' k fuel,
  all_leave pl q d rs d' -> holds_log d q (text_bytes e o (with_feeds old)) ->
  Forall2 (fun r lines => does (snd r) = logs_texts e o lines /\ finished (snd r) = true) rs texts ->
  Forall (fun r => Forall (fun c => len (written [c]) <= chunk_max pl) (does (snd r))) rs ->
  len (text_bytes e o (with_feeds (old ++ concat texts))) < 2 ^ 63 ->
  Forall proper_line (old ++ concat texts) -> Forall (Forall (storable k)) (old ++ concat texts) -> old ++ concat texts <> [] ->
  disk w = d' -> obliging w -> Z.of_nat cap' <= chunk_max pl' -> wide_enough cap' e -> mode_reads m = true ->
  (length (with_feeds (old ++ concat texts)) < fuel)%nat ->
  exists w', read_text_file pl' w q m cap' false (order_of native) e o fuel (repeat (Line, k) (length (old ++ concat texts)))
    = Ok (w', map (fun line => AText (units k line)) (old ++ concat texts)).
Proof.
  intros pl q d rs d' e o old texts pl' native w m cap' k fuel A H F2 Fc L Pr St Ne Dw Ob Cm We Mr Fu.
  assert (Wr : concat (map (fun r => written (does (snd r))) rs) = text_bytes e o (with_feeds (concat texts))).
  { clear - F2. induction F2 as [|r lines rs texts [D _] F IH]; [reflexivity|]. cbn [map concat]. now rewrite IH, D, texts_written, feeds_app, text_bytes_app. }
  assert (Fl : Forall (fun r => Forall logs (does (snd r)) /\ Forall (fun c => len (written [c]) <= chunk_max pl) (does (snd r))) rs).
  { clear - F2 Fc. induction F2 as [|r lines rs texts [D _] F IH]; [constructor|]. inversion Fc; subst. constructor; [|now apply IH].
    split; [|assumption]. rewrite D. unfold logs_texts. clear. induction lines as [|line lines IH]; cbn; repeat constructor. exact IH. }
  rewrite feeds_app, text_bytes_app in L.
  destruct (C156_log pl q d rs d' _ A H Fl ltac:(rewrite Wr; exact L)) as (parts & P & Hd & _).
  assert (Ep : concat parts = concat (map (fun r => written (does (snd r))) rs)).
  { clear - P F2. revert texts F2. induction P as [|r part rs parts S P IH]; intros texts F2; [reflexivity|].
    inversion F2 as [|? lines ? texts' [_ Fi] F2']; subst. cbn [map concat]. rewrite (IH _ F2'). f_equal.
    destruct S as (j & J & -> & Fj & _). rewrite (Fj Fi). apply take_all. lia. }
  rewrite Ep, Wr, <- text_bytes_app, <- feeds_app in Hd. rewrite <- text_bytes_app, <- feeds_app in L.
  set (lines := old ++ concat texts) in *. destruct (feeds_scalar lines Pr) as [Sc N13].
  assert (Hd' : d' q = Some (text_bytes e o (with_feeds lines))).
  { destruct Hd as [Hd|[_ Hd]]; [exact Hd|]. exfalso. destruct lines as [|x lines']; [now apply Ne|].
    assert (X : exists c t, with_feeds (x :: lines') = c :: t).
    { unfold with_feeds. cbn [map concat]. destruct x; cbn; eauto. }
    destruct X as (c & t & X). rewrite X in Hd. pose proof (text_bytes_ne e o c t) as Y. rewrite Hd in Y. discriminate Y. }
  assert (Fa : Forall (fun line => ~ In 10%N line) lines) by (eapply Forall_impl; [|exact Pr]; intros x (_ & X & _); exact X).
  assert (Oa : obtains_all (map fst (repeat (Line, k) (length lines))) (filtered (with_feeds lines)) (map AText lines) []).
  { rewrite (no_return_filtered _ N13). pose proof (obtains_lines lines [] Fa) as X. rewrite app_nil_r in X. fold (with_feeds lines) in X.
    replace (map fst (repeat (Line, k) (length lines))) with (map fst (repeat (Line, K8) (length lines))); [exact X|].
    generalize (length lines). intro n. induction n as [|n IH]; [reflexivity|]. cbn [repeat map fst]. now rewrite IH. }
  assert (Ca : all_can_arrive (repeat (Line, k) (length lines)) (map AText lines)).
  { clear - St. unfold all_can_arrive. induction St as [|line lines S St IH]; cbn [length repeat map combine]; constructor; [exact S|exact IH]. }
  destruct (gives_true _ _ _ (read_text_file_gives _ True pl' native w q cap' m e o (with_feeds lines) fuel (repeat (Line, k) (length lines))
    (map AText lines) [] (sound_full pl' True) ltac:(rewrite Dw; exact Hd') L (obliging_now w Ob) Ob Cm We Mr Sc Fu Oa Ca)) as ([w2 xs] & E2 & -> & _).
  exists w2. rewrite E2. f_equal. f_equal. clear. unfold pieces_in. induction lines as [|line lines IH]; [reflexivity|].
  cbn [length repeat map combine piece_in]. now rewrite IH.
Qed.
Print Assumptions C173_not_killed_partial.

(** A log with the line U+20AC; a run adds the lines U+00E9 and "ab". *)
Example C173_not_killed_hypotheses : forall pl, let texts := [[[0xE9]; [97; 98]]]%N in
  let d x := if (x =? 1)%N then Some (text_bytes UTF16 BigEndian (with_feeds [[0x20AC]]%N)) else None in
  let r := Run (logs_texts UTF16 BigEndian [[0xE9]; [97; 98]]%N) (logs_texts UTF16 BigEndian [[0xE9]; [97; 98]]%N) true in
  (exists d', all_leave pl 1 d [(8%nat, r)] d') /\ holds_log d 1 (text_bytes UTF16 BigEndian (with_feeds [[0x20AC]]%N)) /\
  Forall2 (fun r lines => does (snd r) = logs_texts UTF16 BigEndian lines /\ finished (snd r) = true) [(8%nat, r)] texts /\
  Forall (fun c => len (written [c]) <= chunk_max pl) (does r) /\
  Forall proper_line ([[0x20AC]]%N ++ concat texts) /\ Forall (Forall (storable K8)) ([[0x20AC]]%N ++ concat texts) /\ wide_enough 3 UTF16.
Proof.
  intros pl texts d r. assert (Sm : Forall (fun c => len (written [c]) <= chunk_max pl) (does r)) by (repeat constructor; destruct pl; vm_compute; discriminate).
  split; [|split; [now left|split; [repeat constructor|split; [exact Sm|split; [|split; [|right; cbn; lia]]]]]].
  - assert (Cm : Z.of_nat 8 <= chunk_max pl) by (destruct pl; vm_compute; discriminate).
    destruct (C156_runs pl 1 8 d (text_bytes UTF16 BigEndian (with_feeds [[0x20AC]]%N)) (does r) WriteOnly) as [(d' & Lv) _];
      [now left|exact Cm|reflexivity|repeat constructor|exact Sm|vm_compute; reflexivity|].
    exists d'. econstructor; [exact Cm|exact Lv|constructor].
  - repeat constructor; try (unfold scalar; lia); cbn; intuition discriminate.
  - repeat constructor; try (unfold holds, scalar; lia); intros _; cbn; lia.
Qed.

(** The runs of C171 meet the hypotheses for the line [4; 5], and the reader gets the lines
    [1; 3] and [4; 5]. *)
Example C173_hypotheses : forall pl, exists d', all_leave pl 1 (fun _ => None) torn_runs d' /\
  simple_text [] /\ Forall (fun r => simple_text (written (does (snd r)))) torn_runs /\
  (exists earlier r, torn_runs = earlier ++ (8%nat, r) :: [] /\ reported r [[3]]%N [4; 5]%N) /\
  obliging (fresh d') /\ wide_enough 3 UTF8 /\ mode_reads ReadOnly = true /\
  forall w, disk w = (fun x => if (x =? 1)%N then Some [1; 3; 10; 4; 5; 10]%N else None) -> table w = (fun _ => None) -> unused w = 0%N -> script w = [] ->
  exists w', read_text_file pl w 1 ReadOnly 3 false Little UTF8 StreamSpec.LittleEndian 20 [(Line, K8); (Line, K8)] = Ok (w', [AText [1; 3]; AText [4; 5]]%N).
Proof.
  intro pl. destruct (C171_hypotheses pl) as (d' & A & _ & _ & _ & _ & _ & R). exists d'. split; [exact A|]. split; [constructor|].
  split; [repeat constructor; lia|]. split; [exact R|]. split; [constructor|]. split; [right; cbn; lia|]. split; [reflexivity|].
  intros [dk tb un sc]. cbn [disk table unused script]. intros -> -> -> ->. eexists. destruct pl; vm_compute; reflexivity.
Qed.

(** Two runs with a buffer of eight bytes: the first logs U+00E9 and is killed within the
    system call of the flush, when the first of its two bytes is in the file; the second logs
    "a" and "b" and comes to its end. *)
Definition torn_texts : list (nat * run) :=
  [(8%nat, Run (logs_lines [[0xC3; 0xA9]])%N [Write [0xC3; 0xA9; 10]]%N false);
   (8%nat, Run (logs_lines [[97]; [98]])%N (logs_lines [[97]; [98]])%N true)].

Lemma torn_text_log : forall pl, exists d', all_leave pl 1 (fun _ => None) torn_texts d' /\ d' 1%N = Some [0xC3; 97; 10; 98; 10]%N /\
  forall n, read_text_file pl (fresh d') 1 ReadOnly 3 false Little UTF8 StreamSpec.LittleEndian 20 (repeat (Line, K8) (S n)) = Throw InvalidUnicodeEncoding.
Proof.
  intro pl. set (f1 := got (new_file pl (fresh (fun _ => None)) 1 WriteOnly Create 8)).
  set (g1 := got (fst_of (run_file pl f1 (SetPosition 0 End :: [Write [0xC3; 0xA9; 10]]%N)))).
  set (x1 := watched_call pl g1 Flush).
  set (t1 := match x1 with Ok (_, _, [t]) => t | _ => Attempt (fresh (fun _ => None)) None [] end).
  set (d1 := left_at t1 (AtMost 1)).
  set (f2 := got (new_file pl (fresh d1) 1 WriteOnly Create 8)).
  set (g2 := got (fst_of (run_file pl f2 (SetPosition 0 End :: logs_lines [[97]; [98]]%N)))).
  set (h2 := got (file_close pl g2)).
  exists (disk_of h2). split; [|split; [destruct pl; vm_compute; reflexivity|intro n; destruct pl; vm_compute; reflexivity]].
  assert (R1 : exists h b, x1 = Ok (h, b, [t1])).
  { eexists (got (bind x1 (fun '(h, _, _) => Ok h))), (Returned Done). destruct pl; vm_compute; reflexivity. }
  destruct R1 as (h1 & b1 & R1).
  assert (Cm : Z.of_nat 8 <= chunk_max pl) by (destruct pl; vm_compute; discriminate).
  econstructor; [exact Cm| |econstructor; [exact Cm| |constructor]].
  - eapply (KilledIn pl 1 8 (fun _ => None) (fresh (fun _ => None)) WriteOnly _
      (SetPosition 0 End :: [Write [0xC3; 0xA9; 10]]%N) Flush [] f1 g1 h1 [Returned Done; Returned (Wrote 3)] b1 [t1] d1);
      [reflexivity|constructor|reflexivity|reflexivity|destruct pl; vm_compute; reflexivity|destruct pl; vm_compute; reflexivity|exact R1|].
    apply (WithinOne true _ [t1] t1 1); [now left|reflexivity].
  - eapply (Ended pl 1 8 d1 (fresh d1) WriteOnly _ f2 g2 h2
      [Returned Done; Returned (Wrote 2); Returned Done; Returned (Wrote 2); Returned Done]);
      [reflexivity|constructor|reflexivity|destruct pl; vm_compute; reflexivity..].
Qed.

(** The refutation, on both platforms: all lines are well-formed text, the line "b" has been
    flushed behind another line of its run, which came to its end, but whoever reads lines from
    the log gets an exception first. *)
Theorem C173_refuted : forall pl, exists q d rs d' cap r before line,
  all_leave pl q d rs d' /\ d q = None /\ In (cap, r) rs /\
  Forall (fun r => exists ls, does (snd r) = logs_lines ls /\ Forall (well_formed UTF8) ls) rs /\
  reported r before line /\ before <> [] /\ finished r = true /\
  forall n, read_text_file pl (fresh d') q ReadOnly 3 false Little UTF8 StreamSpec.LittleEndian 20 (repeat (Line, K8) (S n)) = Throw InvalidUnicodeEncoding.
Proof.
  intro pl. destruct (torn_text_log pl) as (d' & A & _ & T). exists 1%N, (fun _ => None), torn_texts, d'. do 2 eexists. exists [[97]]%N, [98]%N.
  split; [exact A|]. split; [reflexivity|]. split; [right; left; reflexivity|]. split.
  { constructor; [|constructor; [|constructor]]; eexists; (split; [reflexivity|]).
    - constructor; [|constructor]. exists [0xE9]%N. split; [repeat constructor; unfold scalar; lia|reflexivity].
    - constructor; [exists [97]%N|constructor; [exists [98]%N|constructor]]; (split; [repeat constructor; unfold scalar; lia|reflexivity]). }
  split; [split; [cbn; intros [X|[]]; discriminate|]; exists [], []; split; reflexivity|].
  split; [discriminate|]. split; [reflexivity|]. exact T.
Qed.
Print Assumptions C173_refuted.
