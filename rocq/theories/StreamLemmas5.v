(** Reading arbitrary bytes as text. *)
From Coq Require Import NArith ZArith List Bool Lia ZifyBool ZifyNat ZifyN.
From Verif Require Import Base Integers UnicodeSpec UnicodeModel UnicodeText UnicodeLemmas UnicodeLemmas2 UnicodeLemmas3
  ResourceSpec ResourceModel ResourceLemmas StreamSpec StreamModel StreamText StreamLemmas StreamLemmas2 StreamLemmas3.
Import ListNotations.
Open Scope Z_scope.

Definition byte (b : N) : Prop := (b < 256)%N.

Lemma little_all : forall d, Forall byte d -> exists v, (v < 256 ^ N.of_nat (length d))%N /\ little (length d) v = d.
Proof.
  induction d as [|b d IH]; intro H; [exists 0%N; cbn; split; [lia|reflexivity]|].
  inversion H as [|? ? Hb Hd]; subst. unfold byte in Hb. destruct (IH Hd) as (v & B & E). exists (b + 256 * v)%N.
  cbn [length little]. split.
  - rewrite Nat2N.inj_succ, N.pow_succ_r'. lia.
  - rewrite N.mul_comm, N.mod_add, N.mod_small by lia. rewrite N.div_add, N.div_small by lia. cbn. now rewrite E.
Qed.

Lemma in_order_all : forall o d, Forall byte d -> exists v, (v < 256 ^ N.of_nat (length d))%N /\ in_order o (length d) v = d.
Proof.
  intros [|] d H; [now apply little_all|].
  destruct (little_all (rev d) ltac:(now apply Forall_rev)) as (v & B & E). rewrite rev_length in *.
  exists v. split; [exact B|]. cbn [in_order]. rewrite E. apply rev_involutive.
Qed.

Lemma append_total : forall k t c, (exists t', append_to k t c = Ok t') \/ append_to k t c = Throw InvalidCodePoint.
Proof.
  intros k t c. unfold append_to, append_code_point.
  assert (X : forall t i u, (i <= length t)%nat -> exists t', str_insert t i u = (t', Ok tt) /\ length t' = S (length t)).
  { intros t' i u H. unfold str_insert. replace (Nat.ltb (length t') i) with false by (symmetry; apply Nat.ltb_ge; lia).
    eexists. split; [reflexivity|]. rewrite app_length, firstn_length_le by lia. cbn. rewrite skipn_length. lia. }
  assert (Y : forall u, exists t', (let '(target, r) := str_insert t (length t) u in bind r (fun _ => Ok target)) = Ok t').
  { intro u. destruct (X t (length t) u (le_n _)) as (t' & E & _). rewrite E. now exists t'. }
  assert (Z : forall u v, exists t', (let '(target, r) :=
    then_ (str_insert t (length t) u) (fun s _ => str_insert s (length t + 1) v) in bind r (fun _ => Ok target)) = Ok t').
  { intros u v. destruct (X t (length t) u (le_n _)) as (t' & E & L). rewrite E. cbn [then_].
    destruct (X t' (length t + 1)%nat v ltac:(lia)) as (t2 & E2 & _). rewrite E2. now exists t2. }
  destruct k.
  - left. apply Y.
  - destruct (is_code_point_valid c) eqn:V.
    + left. rewrite insert8_valid by auto. cbn. eauto.
    + right. rewrite insert8_invalid by assumption. reflexivity.
  - left. cbn [insert_code_point]. destruct (_ && _); [apply Y|apply Z].
  - left. apply Y.
  - left. cbn [insert_code_point]. destruct (_ && _); [apply Y|apply Z].
  - left. apply Y.
Qed.

Section Reading.
Context {R : Type} (native : byte_order) (ops : source R) (biggest : Z) (left : list N -> R -> Prop).
Context (G : good_source ops biggest left).
Let before := @before R left.

Lemma unit_any : forall e o w rest st, before e o rest st -> Forall byte rest -> (0 < w)%nat -> Z.of_nat w <= biggest ->
  (exists st', read_code_unit (order_of native) ops w st = Ok (st', None)) \/
  (exists u rest' st', rest = in_order o w u ++ rest' /\ (u < 256 ^ N.of_nat w)%N /\
     read_code_unit (order_of native) ops w st = Ok (st', Some u) /\ before e o rest' st').
Proof.
  intros e o w rest st H F W B. destruct (Z_lt_le_dec (len rest) (Z.of_nat w)) as [L|L].
  - left. unfold read_code_unit, text_read, stream_read. destruct H as (H & O & Fm).
    assert (Lw : len (repeat 0%N w) = Z.of_nat w) by (unfold len; now rewrite repeat_length).
    pose proof (len_nonneg rest) as P.
    destruct (gs_read _ _ _ G _ _ (repeat 0%N w) (Z.of_nat w) H) as (r' & E & _); [lia|exact B|].
    rewrite E. cbn [bind]. rewrite take_all in * by lia.
    set (m := rest ++ drop (len rest) (repeat 0%N w)).
    assert (M : len m = Z.of_nat w). { unfold m. rewrite len_app, len_drop by lia. lia. }
    destruct (endian_eqb _ _); cbn [negb bind].
    + replace (len rest <? Z.of_nat w) with true by lia. eauto.
    + rewrite <- M, invert_whole. 2: { intro X. rewrite X in M. cbn in M. lia. }
      cbn [bind]. rewrite M. replace (len rest <? Z.of_nat w) with true by lia. eauto.
  - right. assert (Lw : length (firstn w rest) = w) by (rewrite firstn_length_le; unfold len in L; lia).
    destruct (in_order_all o (firstn w rest)) as (u & Bu & E).
    { apply (forall_sub _ rest); [|assumption]. intros x X. rewrite <- (firstn_skipn w rest). apply in_or_app. now left. }
    rewrite Lw in *. assert (Er : rest = in_order o w u ++ skipn w rest) by (rewrite E; symmetry; apply firstn_skipn).
    rewrite Er in H. destruct (read_code_unit_ok native ops biggest left G e o w u _ st H W B Bu) as (st' & E' & H').
    exists u, (skipn w rest), st'. auto.
Qed.

Definition refuses (x : outcome (text_input R * N)) : Prop :=
  x = Throw ReadPastEnd \/ x = Throw InvalidUnicodeEncoding.

Lemma finish8_any : forall e o n v rest st, before e o rest st -> Forall byte rest -> 1 <= biggest ->
  refuses (finish_utf8_sequence (order_of native) ops n v st) \/
  (exists xs rest', rest = xs ++ rest' /\ length xs = n /\ Forall (fun x => (128 <= x < 192)%N) xs).
Proof.
  intros e o. induction n as [|n IH]; intros v rest st H F B; cbn [finish_utf8_sequence].
  - right. exists [], rest. auto.
  - destruct (unit_any e o 1 rest st H F ltac:(lia) ltac:(lia)) as [(st' & E)|(u & rest' & st' & Er & Bu & E & H')];
      rewrite E; cbn [bind]; [left; now left|]. rewrite in_order_1 in Er by (cbn in Bu; lia). cbn [app] in Er. subst rest.
    destruct (is_trailing_byte u) eqn:T; cbn [negb]; [|left; now right].
    inversion F; subst. destruct (IH (N.lor (N.shiftl v 6) (N.land u 63)) rest' st' H' ltac:(assumption) B)
      as [X|(xs & r & -> & L & Fx)]; [now left|]. right. exists (u :: xs), r. split; [reflexivity|]. split; [cbn; lia|].
    constructor; [now apply trailing_iff|assumption].
Qed.

Lemma starts_with_read : forall e o bytes c rest st, starts_with e o bytes c rest -> before e o bytes st ->
  Z.of_nat (unit_width e) <= biggest ->
  exists st', read_code_point (order_of native) ops st = Ok (st', c) /\ before e o rest st'.
Proof.
  intros e o bytes c rest st (us & L & Fu & ->) H B.
  apply (read_code_point_ok native ops biggest left G e o us c rest st); try assumption.
  split; [assumption|]. intros ->. cbn in L. inversion L; subst. now inversion Fu.
Qed.

Lemma starts8 : forall o us c rest, loose8 us c -> starts_with UTF8 o (us ++ rest) c rest.
Proof.
  intros o us c rest L. exists us. split; [exact L|].
  assert (F : Forall byte us) by (inv8 L; repeat constructor; unfold byte; lia). split; [exact F|].
  f_equal. symmetry. apply unit_bytes_8. exact F.
Qed.

Lemma read_any : forall e o rest st, before e o rest st -> Forall byte rest -> Z.of_nat (unit_width e) <= biggest ->
  refuses (read_code_point (order_of native) ops st) \/ exists c rest', starts_with e o rest c rest'.
Proof.
  intros e o rest st H F B. pose proof H as (_ & _ & Fm). unfold read_code_point. rewrite Fm.
  destruct e; cbn [form_of unit_width] in *.
  - unfold read_utf8_code_point.
    destruct (unit_any UTF8 o 1 rest st H F ltac:(lia) ltac:(lia)) as [(st' & E)|(u & rest' & st' & Er & Bu & E & H')];
      rewrite E; cbn [bind]; [left; now left|]. rewrite in_order_1 in Er by (cbn in Bu; lia). cbn [app] in Er. subst rest.
    inversion F as [|? ? Fu Fr]; subst. unfold byte in Fu.
    destruct (byte_cases u) as [C|[C|[C|[C|C]]]].
    + right. exists u, rest'. change (u :: rest') with ([u] ++ rest'). apply starts8. now constructor.
    + left. right. rewrite init8_bad by assumption. reflexivity.
    + rewrite init8_2 by assumption. cbn [bind Nat.sub].
      destruct (finish8_any UTF8 o 1 (u - 192)%N rest' st' H' Fr ltac:(lia)) as [X|(xs & r & -> & L & Fx)]; [now left|].
      right. destruct xs as [|x [|]]; try discriminate. inversion Fx; subst. eexists _, r.
      change (u :: [x] ++ r) with ([u; x] ++ r). apply starts8. now apply mk2.
    + rewrite init8_3 by assumption. cbn [bind Nat.sub].
      destruct (finish8_any UTF8 o 2 (u - 224)%N rest' st' H' Fr ltac:(lia)) as [X|(xs & r & -> & L & Fx)]; [now left|].
      right. destruct xs as [|x [|y [|]]]; try discriminate. inversion Fx as [|? ? X1 Fx']; subst.
      inversion Fx' as [|? ? X2 _]; subst. eexists _, r.
      change (u :: [x; y] ++ r) with ([u; x; y] ++ r). apply starts8. now apply mk3.
    + rewrite init8_4 by assumption. cbn [bind Nat.sub].
      destruct (finish8_any UTF8 o 3 (u - 240)%N rest' st' H' Fr ltac:(lia)) as [X|(xs & r & -> & L & Fx)]; [now left|].
      right. destruct xs as [|x [|y [|z [|]]]]; try discriminate. inversion Fx as [|? ? X1 Fx']; subst.
      inversion Fx' as [|? ? X2 Fx2]; subst. inversion Fx2 as [|? ? X3 _]; subst. eexists _, r.
      change (u :: [x; y; z] ++ r) with ([u; x; y; z] ++ r). apply starts8. now apply mk4.
  - unfold read_utf16_code_point.
    destruct (unit_any UTF16 o 2 rest st H F ltac:(lia) ltac:(lia)) as [(st' & E)|(u & rest' & st' & Er & Bu & E & H')];
      rewrite E; cbn [bind]; [left; now left|]. change (256 ^ N.of_nat 2)%N with 0x10000%N in Bu.
    assert (Fr : Forall byte rest').
    { apply (forall_sub _ rest); [|assumption]. intros x X. rewrite Er. apply in_or_app. now right. }
    assert (C : (0xD800 <= u <= 0xDBFF \/ 0xDC00 <= u <= 0xDFFF \/ ~ (0xD800 <= u <= 0xDFFF))%N) by lia.
    destruct C as [C|[C|C]].
    + rewrite init16_lead by assumption. cbn [bind]. unfold finish_utf16_sequence. cbn [Nat.eqb].
      destruct (unit_any UTF16 o 2 rest' st' H' Fr ltac:(lia) ltac:(lia)) as [(st2 & E2)|(v & rest2 & st2 & Er2 & Bv & E2 & H2)];
        rewrite E2; cbn [bind]; [left; now left|]. change (256 ^ N.of_nat 2)%N with 0x10000%N in Bv.
      destruct (is_trailing_surrogate v) eqn:T; cbn [negb]; [|left; now right].
      apply trailing_surrogate_iff in T; [|assumption].
      right. eexists _, rest2. exists [u; v]. split; [now apply mk16|]. split; [repeat constructor; cbn; lia|].
      subst rest rest'. cbn [flat_map unit_width]. now rewrite app_nil_r, <- app_assoc.
    + left. right. rewrite init16_trail by assumption. reflexivity.
    + right. exists u, rest'. exists [u]. split; [now constructor|]. split; [repeat constructor; cbn; lia|].
      subst rest. cbn [flat_map unit_width]. now rewrite app_nil_r.
  - unfold read_utf32_code_point.
    destruct (unit_any UTF32 o 4 rest st H F ltac:(lia) ltac:(lia)) as [(st' & E)|(u & rest' & st' & Er & Bu & E & H')];
      rewrite E; cbn [bind]; [left; now left|].
    right. exists u, rest'. exists [u]. split; [constructor|]. split; [repeat constructor; exact Bu|].
    subst rest. cbn [flat_map unit_width]. now rewrite app_nil_r.
Qed.

Lemma starts_with_shorter : forall e o bytes c rest, starts_with e o bytes c rest -> (length rest < length bytes)%nat.
Proof.
  intros e o bytes c rest (us & L & _ & ->). rewrite app_length. apply loose_nonempty in L.
  destruct us as [|u us]; [congruence|]. cbn [flat_map]. rewrite app_length, in_order_length.
  pose proof (unit_width_pos e). lia.
Qed.
Lemma starts_with_bytes : forall e o bytes c rest, starts_with e o bytes c rest -> Forall byte bytes -> Forall byte rest.
Proof. intros e o bytes c rest (us & _ & _ & ->) H. apply Forall_app in H. tauto. Qed.

(** One code point, carriage returns treated. *)
Lemma filtered_any : forall e o rest st, before e o rest st -> Forall byte rest -> Z.of_nat (unit_width e) <= biggest ->
  refuses (read_filtered_code_point (order_of native) ops st) \/
  exists c rest' st', read_filtered_code_point (order_of native) ops st = Ok (st', c) /\ before e o rest' st' /\
    Forall byte rest' /\ (length rest' < length rest)%nat.
Proof.
  intros e o rest st H F B. unfold read_filtered_code_point.
  destruct (read_any e o rest st H F B) as [[X|X]|(c & rest' & S)]; [left; left; now rewrite X|left; right; now rewrite X|].
  destruct (starts_with_read e o rest c rest' st S H B) as (st' & E & H'). rewrite E. cbn [bind].
  pose proof (starts_with_shorter _ _ _ _ _ S) as L. pose proof (starts_with_bytes _ _ _ _ _ S F) as F'.
  destruct (c =? 13)%N; [|right; exists c, rest', st'; auto].
  rewrite (at_end_before ops biggest left G _ _ _ _ H'). cbn [bind].
  destruct (len rest' =? 0); cbn [negb]; [right; exists c, rest', st'; auto|].
  destruct (read_any e o rest' st' H' F' B) as [X|(d & rest2 & S2)]; [now left|].
  destruct (starts_with_read e o rest' d rest2 st' S2 H' B) as (st2 & E2 & H2). right. exists d, rest2, st2.
  pose proof (starts_with_shorter _ _ _ _ _ S2). pose proof (starts_with_bytes _ _ _ _ _ S2 F').
  split; [exact E2|]. split; [exact H2|]. split; [assumption|lia].
Qed.

Lemma refuses_settles : forall x, refuses x -> settles x.
Proof. intros x [-> | ->]; cbn; auto. Qed.

Ltac settle_step H F B :=
  let X := fresh "X" in let c := fresh "c" in let rest' := fresh "rest'" in let st' := fresh "st'" in
  let E := fresh "E" in let H' := fresh "H'" in let F' := fresh "F'" in let L := fresh "L" in
  destruct (filtered_any _ _ _ _ H F B) as [[X|X]|(c & rest' & st' & E & H' & F' & L)];
  [rewrite X; cbn; auto|rewrite X; cbn; auto|rewrite E; cbn [bind]].
Ltac append_step k t c :=
  let t' := fresh "t'" in let A := fresh "A" in
  destruct (append_total k t c) as [(t' & A)|A]; rewrite A; cbn [bind]; [|cbn; auto].

Lemma append_all_settles : forall e o k fuel rest t st, before e o rest st -> Forall byte rest ->
  Z.of_nat (unit_width e) <= biggest -> (length rest < fuel)%nat ->
  settles (StreamModel.append_all (order_of native) ops fuel k t st).
Proof.
  intros e o k. induction fuel as [|fuel IH]; intros rest t st H F B L; [lia|]. cbn [StreamModel.append_all].
  rewrite (at_end_before ops biggest left G _ _ _ _ H). cbn [bind]. destruct (len rest =? 0); [exact I|].
  settle_step H F B. append_step k t c. apply (IH rest'); auto. lia.
Qed.

Lemma append_line_settles : forall e o k fuel rest t st, before e o rest st -> Forall byte rest ->
  Z.of_nat (unit_width e) <= biggest -> (length rest < fuel)%nat ->
  settles (append_line (order_of native) ops fuel k t st).
Proof.
  intros e o k. induction fuel as [|fuel IH]; intros rest t st H F B L; [lia|]. cbn [append_line].
  rewrite (at_end_before ops biggest left G _ _ _ _ H). cbn [bind]. destruct (len rest =? 0); [exact I|].
  settle_step H F B. destruct (c =? 10)%N; [exact I|]. append_step k t c. apply (IH rest'); auto. lia.
Qed.

Lemma take_word_settles : forall e o k fuel rest t st, before e o rest st -> Forall byte rest ->
  Z.of_nat (unit_width e) <= biggest -> (length rest < fuel)%nat ->
  settles (take_word (order_of native) ops fuel k t st).
Proof.
  intros e o k. induction fuel as [|fuel IH]; intros rest t st H F B L; [lia|]. cbn [take_word].
  rewrite (at_end_before ops biggest left G _ _ _ _ H). cbn [bind]. destruct (len rest =? 0); [exact I|].
  settle_step H F B. destruct (is_whitespace c); [exact I|]. append_step k t c. apply (IH rest'); auto. lia.
Qed.

Lemma skip_settles : forall e o k fuel rest st, before e o rest st -> Forall byte rest ->
  Z.of_nat (unit_width e) <= biggest -> (length rest < fuel)%nat ->
  match skip_whitespace (order_of native) ops fuel k st with
  | Ok (st', _) => exists rest', before e o rest' st' /\ Forall byte rest' /\ (length rest' <= length rest)%nat
  | x => settles x
  end.
Proof.
  intros e o k. induction fuel as [|fuel IH]; intros rest st H F B L; [lia|]. cbn [skip_whitespace].
  rewrite (at_end_before ops biggest left G _ _ _ _ H). cbn [bind]. destruct (len rest =? 0); [exists rest; auto|].
  settle_step H F B. destruct (is_whitespace c); cbn [negb].
  - specialize (IH rest' st' H' F' B ltac:(lia)). destruct (skip_whitespace _ _ _ _ _) as [[? ?]| | | |]; try exact IH.
    destruct IH as (r & ? & ? & ?). exists r. split; [assumption|]. split; [assumption|lia].
  - append_step k (@nil N) c. exists rest'. split; [assumption|]. split; [assumption|lia].
Qed.

Lemma read_word_settles : forall e o k fuel rest st, before e o rest st -> Forall byte rest ->
  Z.of_nat (unit_width e) <= biggest -> (length rest < fuel)%nat ->
  settles (read_word (order_of native) ops fuel k st).
Proof.
  intros e o k fuel rest st H F B L. unfold read_word. pose proof (skip_settles e o k fuel rest st H F B L) as S.
  destruct (skip_whitespace _ _ _ _ _) as [[st' t]| | | |]; try exact S. cbn [bind].
  destruct S as (rest' & H' & F' & L'). apply (take_word_settles e o k fuel rest'); auto. lia.
Qed.

End Reading.
