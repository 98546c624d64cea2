(** Proofs about the standard resources: output, and all three together. *)
From Coq Require Import NArith ZArith List Bool Lia ZifyBool ZifyNat ZifyN.
From Verif Require Import Base Integers ResourceSpec ResourceModel ResourceLemmas StreamModel StdioSpec StdioModel StdioText
  StdioLemmas.
Import ListNotations.
Open Scope Z_scope.

(** A block the system takes in one piece. *)
Definition short (pl : platform) (n : Z) : Prop := pl = Windows -> n < 2 ^ 32.

(** Only output. *)
Definition shows (w : list happening) : Prop := Forall (fun h => match h with Waited _ => False | Shown _ _ => True end) w.

Lemma shows_received : forall w, shows w -> received w = [].
Proof. induction w as [|h w IH]; intro H; [reflexivity|]. inversion H; subst. destruct h; [|contradiction]. cbn. now apply IH. Qed.
Lemma waits_shown : forall ch w, waits w -> shown ch w = [].
Proof. induction w as [|h w IH]; intro H; [reflexivity|]. inversion H; subst. destruct h; [contradiction|]. cbn. now apply IH. Qed.

Lemma raw_write_ok : forall pl ch c d, acceptances c = [] -> short pl (len d) ->
  stdout_write_raw pl ch c d = Ok (Console (arrivals c) [] (log c ++ [Shown ch d]), len d).
Proof.
  intros pl ch c d A S. unfold stdout_write_raw.
  assert (E : match pl with UnixLike => d | Windows => firstn (Z.to_nat (size_of d mod 2 ^ 32)) d end = d).
  { destruct pl; [reflexivity|]. change size_of with len. pose proof (len_nonneg d). rewrite Z.mod_small by (specialize (S eq_refl); lia).
    apply take_all. lia. }
  rewrite E. unfold sys_write. rewrite A. reflexivity.
Qed.

(** What was sent to a channel was shown or is in the buffer. *)
Definition has_output (cap : Z) (ch : channel) (sent : list N) (c : console) (b : buffer) : Prop :=
  capacity b = cap /\ 0 <= bpos b <= cap /\ (write_dirty b = false -> bpos b = 0) /\
  sent = shown ch (log c) ++ take (bpos b) (mem b).

Lemma has_output_new : forall cap ch l, has_output (Z.of_nat cap) ch [] (patient_console l) (new_buffer cap).
Proof.
  intros. unfold has_output, new_buffer, capacity. cbn [mem bpos write_dirty patient_console log shown flat_map].
  change size_of with len. unfold len. rewrite repeat_length. repeat split; auto; lia.
Qed.

Lemma flush_ok : forall pl cap ch sent c b, acceptances c = [] -> has_output cap ch sent c b -> short pl cap ->
  exists c' b' w, flush (stdout_ops pl ch) (Resource c b) = Ok (Resource c' b') /\ has_output cap ch sent c' b' /\ bpos b' = 0 /\
    shown ch (log c') = sent /\ log c' = log c ++ w /\ shows w /\ (forall ch', same_channel ch' ch = false -> shown ch' w = []) /\
    arrivals c' = arrivals c /\ acceptances c' = [].
Proof.
  intros pl cap ch sent c b A (C & B & W & S) Sh. unfold flush. cbn [buf inner stdout_ops raw_write].
  destruct (write_dirty b) eqn:D.
  - assert (Cs : capacity b = len (mem b)) by reflexivity.
    rewrite slice_ok by lia. cbn [bind]. rewrite drop_0.
    assert (Lt : len (take (bpos b) (mem b)) = bpos b) by (rewrite len_take by lia; lia).
    rewrite raw_write_ok; [|exact A|intro H; specialize (Sh H); lia]. cbn [bind].
    eexists _, _, [Shown ch (take (bpos b) (mem b))]. split; [reflexivity|]. cbn [log arrivals acceptances].
    assert (X : shown ch (log c ++ [Shown ch (take (bpos b) (mem b))]) = sent).
    { rewrite shown_app. cbn [shown flat_map]. rewrite same_channel_refl, app_nil_r. now symmetry. }
    split.
    { unfold has_output, set_write_dirty, capacity in *. cbn [mem bpos write_dirty log] in *. split; [exact C|]. split; [lia|].
      split; [reflexivity|]. rewrite take_0, app_nil_r. now symmetry. }
    split; [reflexivity|]. split; [exact X|]. split; [reflexivity|].
    split; [constructor; [exact I|constructor]|]. split; [|auto].
    intros ch' H. cbn [shown flat_map]. rewrite H. reflexivity.
  - specialize (W eq_refl). eexists c, b, []. rewrite W, take_0, app_nil_r in S. split; [reflexivity|].
    split; [unfold has_output; rewrite W, take_0, app_nil_r; repeat split; auto; lia|].
    split; [exact W|]. split; [now symmetry|]. split; [now rewrite app_nil_r|]. split; [constructor|]. auto.
Qed.

Lemma write_ok : forall pl cap ch sent c b d, acceptances c = [] -> has_output cap ch sent c b -> 0 <= cap -> short pl cap ->
  short pl (len d) ->
  exists c' b' w, write (stdout_ops pl ch) (Resource c b) d = Ok (Resource c' b', len d) /\ has_output cap ch (sent ++ d) c' b' /\
    log c' = log c ++ w /\ shows w /\ (forall ch', same_channel ch' ch = false -> shown ch' w = []) /\
    arrivals c' = arrivals c /\ acceptances c' = [].
Proof.
  intros pl cap ch sent c b d A H Cn Sh Sd. pose proof (len_nonneg d) as Ld.
  (* a block sent to the system *)
  assert (R : forall c b, acceptances c = [] -> has_output cap ch sent c b -> bpos b = 0 ->
    exists c' w, raw_write (stdout_ops pl ch) c d = Ok (c', len d) /\ has_output cap ch (sent ++ d) c' b /\
      log c' = log c ++ w /\ shows w /\ (forall ch', same_channel ch' ch = false -> shown ch' w = []) /\
      arrivals c' = arrivals c /\ acceptances c' = []).
  { intros c0 b0 A0 (C0 & B0 & W0 & S0) Z0. cbn [stdout_ops raw_write]. rewrite raw_write_ok by assumption.
    eexists _, [Shown ch d]. split; [reflexivity|]. cbn [log arrivals acceptances]. rewrite Z0, take_0, app_nil_r in S0.
    split.
    { split; [exact C0|]. split; [lia|]. split; [auto|]. rewrite Z0, take_0, app_nil_r. cbn [log]. rewrite shown_app. cbn [shown flat_map].
      rewrite same_channel_refl, app_nil_r. now rewrite S0. }
    split; [reflexivity|]. split; [constructor; [exact I|constructor]|]. split; [|auto].
    intros ch' Hc. cbn [shown flat_map]. rewrite Hc. reflexivity. }
  (* a block put in the buffer *)
  assert (P : forall c b, has_output cap ch sent c b -> bpos b + len d <= cap ->
    exists b', buffer_write b d = Ok b' /\ has_output cap ch (sent ++ d) c b').
  { intros c0 b0 (C0 & B0 & W0 & S0) F. unfold buffer_write.
    assert (Cs : capacity b0 = len (mem b0)) by reflexivity.
    rewrite blit_ok by lia. cbn [bind]. eexists. split; [reflexivity|].
    unfold has_output, set_write_dirty, capacity. cbn [mem bpos write_dirty]. change size_of with len.
    split; [rewrite len_overwrite by lia; lia|]. split; [lia|]. split; [discriminate|].
    rewrite S0, <- app_assoc. f_equal. unfold overwrite. rewrite app_assoc.
    replace (bpos b0 + len d) with (len (take (bpos b0) (mem b0) ++ d)) by (rewrite len_app, len_take by lia; lia).
    now rewrite take_app_exact. }
  pose proof H as (C & B & W & S). unfold write. cbn [buf inner]. rewrite C.
  destruct (Z.ltb_spec 0 cap) as [Q|Q].
  - unfold write_buffered. cbn [buf inner]. cbv zeta. rewrite C. change size_of with len.
    destruct (Z.ltb_spec cap (bpos b + len d)) as [F|F].
    + destruct (flush_ok pl cap ch sent c b A H Sh) as (c1 & b1 & w1 & E1 & H1 & Z1 & S1 & G1 & V1 & O1 & Ar1 & A1).
      rewrite E1. cbn [bind andb inner buf].
      destruct (Z.ltb_spec cap (len d)) as [F2|F2].
      * destruct (R c1 b1 A1 H1 Z1) as (c2 & w2 & E2 & H2 & G2 & V2 & O2 & Ar2 & A2). rewrite E2. cbn [bind].
        exists c2, b1, (w1 ++ w2). split; [reflexivity|]. split; [exact H2|].
        split; [rewrite G2, G1, app_assoc; reflexivity|]. split; [apply Forall_app; auto|].
        split; [intros ch' X; rewrite shown_app, (O1 _ X), (O2 _ X); reflexivity|]. split; congruence.
      * destruct (P c1 b1 H1 ltac:(lia)) as (b2 & E2 & H2). rewrite E2. cbn [bind].
        exists c1, b2, w1. split; [reflexivity|]. auto 8.
    + cbn [andb bind inner buf]. destruct (P c b H F) as (b2 & E2 & H2). rewrite E2. cbn [bind].
      exists c, b2, []. split; [reflexivity|]. split; [exact H2|]. split; [now rewrite app_nil_r|].
      split; [constructor|]. auto.
  - destruct (R c b A H ltac:(lia)) as (c2 & w2 & E2 & H2 & G2 & V2 & O2 & Ar2 & A2). rewrite E2. cbn [bind].
    exists c2, b, w2. split; [reflexivity|]. auto 8.
Qed.

(* ---------------------------------------------------- the three resources *)

Record caps : Type := Caps { c_in : Z; c_out : Z; c_err : Z }.
Definition cap_of (cs : caps) (ch : channel) : Z := match ch with StandardOutput => c_out cs | StandardError => c_err cs end.
Definition caps_fit (pl : platform) (cs : caps) : Prop :=
  0 <= c_in cs < 2 ^ 32 /\ 0 <= c_out cs /\ short pl (c_out cs) /\ 0 <= c_err cs /\ short pl (c_err cs).

(** What was sent to the two channels, and what can be read. *)
Definition good (pl : platform) (cs : caps) (sent : channel -> list N) (rest : list N) (s : stdio) : Prop :=
  has_input pl (c_in cs) rest (arrivals (os s)) (uin_buffer s) /\
  (forall ch, has_output (cap_of cs ch) ch (sent ch) (os s) (out_buffer ch s)) /\ acceptances (os s) = [].

Definition after (sent : channel -> list N) (ch : channel) (d : list N) : channel -> list N :=
  fun ch' => if same_channel ch' ch then sent ch' ++ d else sent ch'.

Lemma has_output_same : forall cap ch sent c c' w b, has_output cap ch sent c b -> log c' = log c ++ w -> shown ch w = [] ->
  has_output cap ch sent c' b.
Proof.
  intros cap ch sent c c' w b (C & B & W & S) G X. split; [exact C|]. split; [exact B|]. split; [exact W|].
  now rewrite G, shown_app, X, app_nil_r.
Qed.

Lemma has_input_same : forall pl cap rest a a' b, has_input pl cap rest a b -> a' = a -> has_input pl cap rest a' b.
Proof. intros. now subst. Qed.

Lemma good_ext : forall pl cs sent sent' rest s, good pl cs sent rest s -> (forall ch, sent' ch = sent ch) -> good pl cs sent' rest s.
Proof. intros pl cs sent sent' rest s (I & O & A) E. split; [exact I|]. split; [|exact A]. intro ch. rewrite E. apply O. Qed.

Lemma cap_short : forall pl cs ch, caps_fit pl cs -> 0 <= cap_of cs ch /\ short pl (cap_of cs ch).
Proof. intros pl cs [|] (H1 & H2 & H3 & H4 & H5); cbn; auto. Qed.

Lemma put_ok : forall pl cs sent rest s ch d, good pl cs sent rest s -> caps_fit pl cs -> short pl (len d) ->
  exists s' w, out_write pl ch s d = Ok (s', len d) /\ good pl cs (after sent ch d) rest s' /\
    log (os s') = log (os s) ++ w /\ shows w.
Proof.
  intros pl cs sent rest s ch d (I & O & A) C Sd. destruct (cap_short pl cs ch C) as [C0 Cs]. unfold out_write.
  destruct (write_ok pl _ ch _ _ _ d A (O ch) C0 Cs Sd) as (c' & b' & w & E & H & G & V & X & Ar & A').
  rewrite E. cbn [bind]. exists (with_out ch s (Resource c' b')), w. split; [reflexivity|].
  assert (Os : os (with_out ch s (Resource c' b')) = c') by (destruct ch; reflexivity).
  rewrite Os. split; [|auto]. split; [|split; [|now rewrite Os]].
  - rewrite Os. replace (uin_buffer (with_out ch s (Resource c' b'))) with (uin_buffer s) by (destruct ch; reflexivity).
    apply has_input_same with (1 := I). exact Ar.
  - intro ch'. rewrite Os. unfold after. destruct (same_channel ch' ch) eqn:Q.
    + assert (ch' = ch) by (destruct ch, ch'; cbn in Q; congruence). subst ch'.
      replace (out_buffer ch (with_out ch s (Resource c' b'))) with b' by (destruct ch; reflexivity). exact H.
    + replace (out_buffer ch' (with_out ch s (Resource c' b'))) with (out_buffer ch' s) by (destruct ch, ch'; try discriminate; reflexivity).
      apply has_output_same with (1 := O ch') (2 := G). now apply X.
Qed.

Lemma finish_ok : forall pl cs sent rest s ch, good pl cs sent rest s -> caps_fit pl cs ->
  exists s' w, out_flush pl ch s = Ok s' /\ good pl cs sent rest s' /\ shown ch (log (os s')) = sent ch /\
    log (os s') = log (os s) ++ w /\ shows w /\ (forall ch', same_channel ch' ch = false -> shown ch' w = []).
Proof.
  intros pl cs sent rest s ch (I & O & A) C. destruct (cap_short pl cs ch C) as [C0 Cs]. unfold out_flush.
  destruct (flush_ok pl _ ch _ _ _ A (O ch) Cs) as (c' & b' & w & E & H & Z0 & S & G & V & X & Ar & A').
  rewrite E. cbn [bind]. exists (with_out ch s (Resource c' b')), w. split; [reflexivity|].
  assert (Os : os (with_out ch s (Resource c' b')) = c') by (destruct ch; reflexivity).
  rewrite Os. split; [|auto 6]. split; [|split; [|now rewrite Os]].
  - rewrite Os. replace (uin_buffer (with_out ch s (Resource c' b'))) with (uin_buffer s) by (destruct ch; reflexivity).
    apply has_input_same with (1 := I). exact Ar.
  - intro ch'. rewrite Os. destruct (same_channel ch' ch) eqn:Q.
    + assert (ch' = ch) by (destruct ch, ch'; cbn in Q; congruence). subst ch'.
      replace (out_buffer ch (with_out ch s (Resource c' b'))) with b' by (destruct ch; reflexivity). exact H.
    + replace (out_buffer ch' (with_out ch s (Resource c' b'))) with (out_buffer ch' s) by (destruct ch, ch'; try discriminate; reflexivity).
      apply has_output_same with (1 := O ch') (2 := G). now apply X.
Qed.

(** A read: output first, then waits. *)
Lemma get_ok : forall pl cs sent rest s dst n, good pl cs sent rest s -> caps_fit pl cs -> 0 <= n <= len dst -> n < 2 ^ 32 ->
  exists s' d rest' f w, uin_read pl s dst n = Ok (s', d ++ drop (len d) dst, len d) /\ rest = d ++ rest' /\ len d <= n /\
    good pl cs sent rest' s' /\ log (os s') = log (os s) ++ f ++ w /\ shows f /\ waits w /\
    shown StandardOutput (log (os s) ++ f) = sent StandardOutput /\
    received w ++ typed (arrivals (os s')) = typed (arrivals (os s)) /\
    (forall w1 g w2, w = w1 ++ Waited g :: w2 -> 0 < n -> len rest - len (typed (arrivals (os s))) + len (received w1) < n) /\
    (unit_of pl <= n -> rest <> [] -> d <> []) /\
    (n <= unit_of pl -> unit_of pl <= c_in cs \/ c_in cs = 0 /\ n = unit_of pl -> len d = Z.min n (len rest)).
Proof.
  intros pl cs sent rest s dst n (I & O & A) C N L. destruct (cap_short pl cs StandardOutput C) as [C0 Cs]. unfold uin_read.
  destruct (flush_ok pl _ StandardOutput _ _ _ A (O StandardOutput) Cs) as (c' & b' & f & E & H & Z0 & S & G & V & X & Ar & A').
  cbn [out_buffer] in E. rewrite E. cbn [bind inner buf].
  pose proof (has_input_same _ _ _ _ _ _ I Ar) as I'.
  destruct (read_ok pl (c_in cs) rest c' (uin_buffer s) dst n I' (proj1 C) N L)
    as (r & d & rest' & w & E2 & Er & Ld & H2 & A2 & G2 & W2 & T2 & Wt & Ne & M).
  rewrite E2. cbn [bind]. eexists _, d, rest', f, w. split; [reflexivity|]. split; [exact Er|]. split; [exact Ld|].
  rewrite Ar in *. cbn [os].
  split.
  { split; [exact H2|]. split; [|cbn [os]; congruence]. intro ch. cbn [os].
    destruct ch; cbn [out_buffer uout_buffer uerr_buffer].
    - apply has_output_same with (1 := H) (2 := G2). now apply waits_shown.
    - apply has_output_same with (c := os s) (w := f ++ w); [exact (O StandardError)|rewrite G2, G; now rewrite app_assoc|].
      rewrite shown_app, (waits_shown _ w W2), app_nil_r. now apply X. }
  split; [rewrite G2, G; now rewrite <- app_assoc|]. split; [exact V|]. split; [exact W2|].
  split; [rewrite <- G; exact S|]. auto.
Qed.
