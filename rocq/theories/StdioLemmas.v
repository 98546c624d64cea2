(** Proofs about the standard resources: bytes. *)
From Coq Require Import NArith ZArith List Bool Lia ZifyBool ZifyNat ZifyN.
From Verif Require Import Base Integers ResourceSpec ResourceModel ResourceLemmas StreamModel StdioSpec StdioModel StdioText.
Import ListNotations.
Open Scope Z_scope.

Lemma unit_pos : forall pl, 1 <= unit_of pl <= 2.
Proof. intros [|]; cbn; lia. Qed.

Lemma shown_app : forall ch a b, shown ch (a ++ b) = shown ch a ++ shown ch b.
Proof. intros. apply flat_map_app. Qed.
Lemma received_app : forall a b, received (a ++ b) = received a ++ received b.
Proof. intros. apply flat_map_app. Qed.

Lemma same_channel_refl : forall ch, same_channel ch ch = true.
Proof. intros [|]; reflexivity. Qed.

Lemma overwrite_0 : forall l d, len d <= len l -> overwrite l 0 d = d ++ drop (len d) l.
Proof. intros l d H. unfold overwrite. rewrite take_0. cbn [app]. reflexivity. Qed.

(* --------------------------------------------------------------- raw reads *)

Lemma proper_cons : forall u b l, b <> [] -> (u | len b) -> proper u l -> proper u (Arrives b :: l).
Proof. intros. constructor; [split; assumption|assumption]. Qed.

Lemma sys_read_ok : forall u c n, 1 <= u -> proper u (arrivals c) -> (u | n) -> 0 <= n ->
  exists c' d, sys_read c n = (c', Some d) /\ proper u (arrivals c') /\
    typed (arrivals c) = d ++ typed (arrivals c') /\ len d <= n /\ (0 < n -> typed (arrivals c) <> [] -> d <> []) /\
    (u | len d) /\ acceptances c' = acceptances c /\ log c' = log c ++ [Waited d].
Proof.
  intros u c n U P D N. unfold sys_read. destruct (arrivals c) as [|[b|] l] eqn:A.
  - eexists _, []. split; [reflexivity|]. cbn [arrivals acceptances log typed flat_map app]. unfold len. cbn [length].
    repeat split; auto; try lia. exists 0. lia.
  - pose proof (Forall_inv P) as B12. pose proof (Forall_inv_tail P) as P'. cbn beta iota in B12. destruct B12 as [B1 B2].
    fold (proper u l) in P'.
    eexists _, (take n b). split; [reflexivity|]. cbn [arrivals acceptances log].
    fold (drop n b).
    assert (T : b = take n b ++ drop n b) by (symmetry; apply take_drop).
    assert (L : len (take n b) = Z.min n (len b)) by (apply len_take; assumption).
    assert (L2 : len (drop n b) = Z.max 0 (len b - n)) by (apply len_drop; assumption).
    assert (D1 : (u | len (take n b))).
    { rewrite L. destruct (Z.min_spec n (len b)) as [[_ ->]|[_ ->]]; assumption. }
    assert (D2 : (u | len (drop n b))).
    { rewrite L2. destruct (Z.max_spec 0 (len b - n)) as [[_ ->]|[_ ->]]; [apply Z.divide_sub_r; assumption|exists 0; lia]. }
    split; [|split; [|split; [lia|split]]].
    + destruct (drop n b) eqn:E; [assumption|]. apply proper_cons; [discriminate|assumption|assumption].
    + cbn [typed flat_map]. fold (typed l). rewrite T at 1. rewrite <- app_assoc. f_equal.
      destruct (drop n b); [reflexivity|]. reflexivity.
    + intros N0 _ X. rewrite X in L. unfold len in L at 1. cbn [length] in L. destruct b; [congruence|].
      unfold len in L. cbn [length] in L. lia.
    + auto.
  - destruct (Forall_inv P).
Qed.

Lemma div_mod_2 : forall n, 0 <= n -> 0 <= (n / 2) mod 2 ^ 32 * 2 <= n.
Proof.
  intros n H. pose proof (Z.mod_pos_bound (n / 2) (2 ^ 32) ltac:(lia)).
  pose proof (Z.mod_le (n / 2) (2 ^ 32) ltac:(apply Z.div_pos; lia) ltac:(lia)).
  pose proof (Z.mul_div_le n 2 ltac:(lia)). lia.
Qed.

Lemma raw_read_ok : forall pl c dst off n rr, proper (unit_of pl) (arrivals c) -> 0 <= n -> 0 <= off -> off + n <= len dst ->
  exists c' d, stdin_read_raw pl c dst off n rr = Ok (c', overwrite dst off d, len d) /\ proper (unit_of pl) (arrivals c') /\
    typed (arrivals c) = d ++ typed (arrivals c') /\ len d <= n /\
    (unit_of pl <= n < 2 ^ 32 -> typed (arrivals c) <> [] -> d <> []) /\
    (unit_of pl | len d) /\ acceptances c' = acceptances c /\ log c' = log c ++ [Waited d].
Proof.
  intros pl c dst off n rr P N O B. destruct pl; cbn [unit_of stdin_read_raw] in *.
  - destruct (sys_read_ok 1 c n ltac:(lia) P (Z.divide_1_l _) N) as (c' & d & E & P' & T & L & Ne & D & A & G).
    rewrite E. rewrite blit_ok by lia. cbn [bind]. exists c', d.
    split; [reflexivity|]. repeat split; auto. intros. apply Ne; [lia|assumption].
  - pose proof (div_mod_2 n N) as M.
    destruct (sys_read_ok 2 c ((n / 2) mod 2 ^ 32 * 2) ltac:(lia) P) as (c' & d & E & P' & T & L & Ne & D & A & G).
    + apply Z.divide_factor_r.
    + lia.
    + rewrite E. rewrite blit_ok by lia. cbn [bind]. exists c', d.
      split; [reflexivity|]. repeat split; auto; try lia. intros H. apply Ne.
      rewrite Z.mod_small; [|split; [apply Z.div_pos; lia|apply Z.div_lt_upper_bound; lia]].
      assert (1 <= n / 2) by (apply Z.div_le_lower_bound; lia). lia.
Qed.

(* ------------------------------------------------------------------- input *)

(** The bytes in the buffer that were not read yet. *)
Definition at_hand (b : buffer) : list N := take (filled b - bpos b) (drop (bpos b) (mem b)).

(** The buffer, with what is to come, has [rest] to give. *)
Definition has_input (pl : platform) (cap : Z) (rest : list N) (arr : list arrival) (b : buffer) : Prop :=
  capacity b = cap /\ proper (unit_of pl) arr /\ 0 <= bpos b <= filled b /\ filled b <= cap /\
  (read_dirty b = true -> bpos b = 0 /\ filled b = 0) /\ rest = at_hand b ++ typed arr.

Lemma has_input_new : forall pl cap l, proper (unit_of pl) l -> has_input pl (Z.of_nat cap) (typed l) l (new_buffer cap).
Proof.
  intros pl cap l P. unfold has_input, new_buffer, capacity, at_hand. cbn [mem filled bpos read_dirty].
  rewrite size_len. unfold len. rewrite repeat_length. repeat split; auto; lia.
Qed.

Lemma at_hand_len : forall b, 0 <= bpos b <= filled b -> filled b <= capacity b -> len (at_hand b) = filled b - bpos b.
Proof.
  intros b H C. unfold at_hand, capacity in *. rewrite size_len in C. rewrite len_take by lia. rewrite len_drop by lia. lia.
Qed.

(** Only waits. *)
Definition waits (w : list happening) : Prop := Forall (fun h => match h with Waited _ => True | Shown _ _ => False end) w.

Lemma fill_ok : forall pl c b, proper (unit_of pl) (arrivals c) -> 0 < capacity b ->
  exists c' b' d, fill (stdin_ops pl) (Resource c b) = Ok (Resource c' b', len d) /\
    capacity b' = capacity b /\ bpos b' = 0 /\ filled b' = len d /\ read_dirty b' = false /\ at_hand b' = d /\
    proper (unit_of pl) (arrivals c') /\ typed (arrivals c) = d ++ typed (arrivals c') /\ len d <= capacity b /\
    (unit_of pl <= capacity b < 2 ^ 32 -> typed (arrivals c) <> [] -> d <> []) /\ (unit_of pl | len d) /\
    acceptances c' = acceptances c /\ log c' = log c ++ [Waited d].
Proof.
  intros pl c b P C. unfold fill. cbn [inner buf stdin_ops raw_read].
  assert (Cs : capacity b = len (mem b)) by (unfold capacity; apply size_len).
  destruct (raw_read_ok pl c (mem b) 0 (capacity b) FillBuffer P) as (c' & d & E & P' & T & L & Ne & D & A & G); try lia.
  rewrite E. cbn [bind]. eexists c', _, d. split; [reflexivity|]. cbn [capacity bpos filled read_dirty mem].
  pose proof (len_nonneg d).
  assert (Lo : len (overwrite (mem b) 0 d) = len (mem b)) by (rewrite len_overwrite by lia; lia).
  repeat split; auto.
  - unfold at_hand. cbn [filled bpos mem]. rewrite drop_0, Z.sub_0_r, overwrite_0 by lia. apply take_app_exact.
Qed.

Lemma buffer_read_ok : forall b dst off n, 0 <= bpos b <= filled b -> filled b <= capacity b ->
  0 <= n <= filled b - bpos b -> 0 <= off -> off + n <= len dst ->
  exists b', buffer_read b dst off n = Ok (b', overwrite dst off (take n (at_hand b)), n) /\
    capacity b' = capacity b /\ filled b' = filled b /\ bpos b' = bpos b + n /\ read_dirty b' = read_dirty b /\
    at_hand b' = drop n (at_hand b).
Proof.
  intros b dst off n H C N O B. unfold buffer_read.
  replace (filled b <? bpos b + n) with false by lia.
  assert (Cs : capacity b = len (mem b)) by (unfold capacity; apply size_len).
  rewrite memcpy_ok by lia. cbn [bind].
  eexists. split.
  - do 4 f_equal. unfold at_hand. rewrite take_take by lia. now rewrite Z.min_l by lia.
  - cbn [capacity filled bpos read_dirty mem]. repeat split; auto.
    unfold at_hand. cbn [filled bpos mem].
    rewrite <- (drop_drop n (bpos b)) by lia.
    replace (filled b - bpos b) with (n + (filled b - (bpos b + n))) by lia.
    rewrite take_split by lia. rewrite drop_app_r.
    + rewrite len_take by lia. rewrite len_drop by lia. replace (n - Z.min n (Z.max 0 (len (mem b) - bpos b))) with 0 by lia.
      now rewrite drop_0.
    + rewrite len_take by lia. lia.
Qed.

Lemma overwrite_twice : forall dst a b, len a + len b <= len dst ->
  overwrite (overwrite dst 0 a) (len a) b = (a ++ b) ++ drop (len (a ++ b)) dst.
Proof.
  intros dst a b H. pose proof (len_nonneg a). pose proof (len_nonneg b).
  rewrite overwrite_0 by lia. unfold overwrite. rewrite take_app_exact.
  rewrite drop_app_r by lia. rewrite <- app_assoc. do 2 f_equal.
  rewrite drop_drop by lia. rewrite len_app. f_equal. lia.
Qed.

(** What a read of n bytes does.  The last clause: whenever it waits, what it had got by
    then was less than n. *)
Definition read_result (pl : platform) (cap : Z) (rest : list N) (c : console) (dst : list N) (n : Z)
    (x : outcome (resource console * list N * Z)) : Prop :=
  exists r d rest' w, x = Ok (r, d ++ drop (len d) dst, len d) /\
    rest = d ++ rest' /\ len d <= n /\ has_input pl cap rest' (arrivals (inner r)) (buf r) /\
    acceptances (inner r) = acceptances c /\ log (inner r) = log c ++ w /\ waits w /\
    received w ++ typed (arrivals (inner r)) = typed (arrivals c) /\
    (forall w1 g w2, w = w1 ++ Waited g :: w2 -> 0 < n -> len rest - len (typed (arrivals c)) + len (received w1) < n) /\
    (unit_of pl <= n -> rest <> [] -> d <> []) /\
    (n <= unit_of pl -> unit_of pl <= cap \/ cap = 0 /\ n = unit_of pl -> len d = Z.min n (len rest)).

Lemma nonempty_len : forall l : list N, l <> [] -> 0 < len l.
Proof. intros [|x l] H; [congruence|unfold len; cbn [length]; lia]. Qed.

Lemma divides_pos : forall u n, 1 <= u -> (u | n) -> 0 < n -> u <= n.
Proof. intros u n U D H. apply Z.divide_pos_le; assumption. Qed.

(** The buffer is used up, and what is in it and to come is [typed]. *)
Lemma refill_ok : forall pl cap c b dst k n, has_input pl cap (typed (arrivals c)) (arrivals c) b -> 0 < cap < 2 ^ 32 ->
  0 < n <= cap -> 0 <= k -> k + n <= len dst ->
  exists c' b' d rest', bind (fill (stdin_ops pl) (Resource c b)) (fun '(r, bytes_filled) =>
      let last := if bytes_filled <? n then bytes_filled else n in
      bind (buffer_read (buf r) dst k last) (fun '(b, dst, j) => Ok (Resource (inner r) b, dst, k + j)))
    = Ok (Resource c' b', overwrite dst k d, k + len d) /\ typed (arrivals c) = d ++ rest' /\ len d <= n /\
    has_input pl cap rest' (arrivals c') b' /\ acceptances c' = acceptances c /\
    (exists g, log c' = log c ++ [Waited g] /\ g ++ typed (arrivals c') = typed (arrivals c)) /\
    (unit_of pl <= cap -> n <= unit_of pl -> len d = Z.min n (len (typed (arrivals c)))) /\
    (unit_of pl <= cap -> typed (arrivals c) <> [] -> d <> []).
Proof.
  intros pl cap c b dst k n (Cb & P & Hb & Hc & _ & _) C N K B.
  destruct (fill_ok pl c b P ltac:(lia)) as (c1 & b1 & d1 & E1 & C1 & Z1 & F1 & R1 & A1 & P1 & T1 & L1 & Ne1 & D1 & Ac1 & G1).
  rewrite E1. cbn [bind inner buf]. cbv zeta. pose proof (len_nonneg d1) as Ld.
  set (last := if len d1 <? n then len d1 else n).
  assert (Hl : last = Z.min (len d1) n) by (unfold last; destruct (Z.ltb_spec (len d1) n); lia).
  destruct (buffer_read_ok b1 dst k last ltac:(lia) ltac:(lia) ltac:(lia) K ltac:(lia))
    as (b2 & E2 & C2 & F2 & Z2 & R2 & A2).
  rewrite E2. cbn [bind]. rewrite A1 in *.
  assert (Lt : len (take last d1) = last) by (rewrite len_take by lia; lia).
  exists c1, b2, (take last d1), (drop last d1 ++ typed (arrivals c1)).
  split; [now rewrite Lt|]. split; [rewrite app_assoc, take_drop; exact T1|]. split; [lia|].
  split.
  { unfold has_input. rewrite A2. repeat split; auto; try lia; try congruence. }
  split; [exact Ac1|]. split; [exists d1; split; [exact G1|now symmetry]|].
  assert (Lty : len (typed (arrivals c)) = len d1 + len (typed (arrivals c1))) by (rewrite T1, len_app; reflexivity).
  pose proof (len_nonneg (typed (arrivals c1))). pose proof (unit_pos pl). split.
  - intros U V. rewrite Lt. destruct (typed (arrivals c)) as [|x y] eqn:Q.
    + change (len []) with 0 in *. lia.
    + specialize (Ne1 ltac:(lia) ltac:(congruence)). pose proof (divides_pos (unit_of pl) _ (proj1 (unit_pos pl)) D1 (nonempty_len _ Ne1)). lia.
  - intros U V X. specialize (Ne1 ltac:(lia) V). pose proof (nonempty_len _ Ne1). apply (f_equal len) in X.
    rewrite Lt in X. change (len []) with 0 in X. lia.
Qed.

Lemma waits_one : forall g, waits [Waited g].
Proof. intros. constructor; [exact I|constructor]. Qed.

Lemma one_wait : forall (a : happening) w1 g w2, [a] = w1 ++ Waited g :: w2 -> w1 = [] /\ a = Waited g /\ w2 = [].
Proof.
  intros a [|x w1] g w2 H; [inversion H; auto|]. inversion H. destruct w1; discriminate.
Qed.

Lemma read_unbuffered_ok : forall pl rest c b dst n, has_input pl 0 rest (arrivals c) b -> 0 <= n <= len dst -> n < 2 ^ 32 ->
  read_result pl 0 rest c dst n (read (stdin_ops pl) (Resource c b) dst n).
Proof.
  intros pl rest c b dst n (Cb & P & Hb & Hc & Hd & Hr) N L. unfold read. cbn [buf inner stdin_ops raw_read]. rewrite Cb. cbn [Z.ltb Z.compare].
  assert (AH : at_hand b = []) by (apply len_zero; rewrite at_hand_len by lia; lia).
  rewrite AH in Hr. cbn [app] in Hr.
  destruct (raw_read_ok pl c dst 0 n LeanRetrieval P) as (c' & d & E & P' & T & Ld & Ne & D & A & G); try lia.
  rewrite E. cbn [bind]. pose proof (len_nonneg d). pose proof (unit_pos pl).
  exists (Resource c' b), d, (typed (arrivals c')), [Waited d]. cbn [inner buf].
  split; [now rewrite overwrite_0 by lia|]. split; [congruence|]. split; [exact Ld|].
  split; [unfold has_input; rewrite AH; repeat split; auto; lia|].
  split; [exact A|]. split; [exact G|]. split; [apply waits_one|].
  split; [cbn; rewrite app_nil_r; now symmetry|].
  split; [intros w1 g w2 Hw Hn; destruct (one_wait _ _ _ _ Hw) as (-> & _ & _); subst rest; change (received []) with (@nil BinNums.N);
          change (len []) with 0; lia|].
  split; [intros U V; subst rest; apply Ne; [lia|assumption]|].
  intros U [V|V]; [lia|]. subst rest.
  assert (Lty : len (typed (arrivals c)) = len d + len (typed (arrivals c'))) by (rewrite T, len_app; reflexivity).
  pose proof (len_nonneg (typed (arrivals c'))). destruct (typed (arrivals c)) as [|x y] eqn:Q.
  - change (len []) with 0 in *. lia.
  - specialize (Ne ltac:(lia) ltac:(congruence)). pose proof (divides_pos (unit_of pl) _ (proj1 (unit_pos pl)) D (nonempty_len _ Ne)). lia.
Qed.

(** The part after the first filling. *)
Definition read_on (pl : platform) (r : resource console) (dst : list N) (n : Z) : outcome (resource console * list N * Z) :=
  if filled (buf r) <? bpos (buf r) + n then
    let difference := as_size (filled (buf r) - bpos (buf r)) in
    bind (if 0 <? difference then
            bind (buffer_read (buf r) dst 0 difference) (fun '(b, dst, k) =>
            Ok (Resource (inner r) b, dst, k, as_size (n - k)))
          else Ok (r, dst, 0, n)) (fun '(r, dst, bytes_read, n) =>
    if capacity (buf r) <? n then
      bind (raw_read (stdin_ops pl) (inner r) dst bytes_read n LeanRetrieval) (fun '(s, dst, k) =>
      Ok (Resource s (buf r), dst, bytes_read + k))
    else
      bind (fill (stdin_ops pl) r) (fun '(r, bytes_filled) =>
      let last := if bytes_filled <? n then bytes_filled else n in
      bind (buffer_read (buf r) dst bytes_read last) (fun '(b, dst, k) =>
      Ok (Resource (inner r) b, dst, bytes_read + k))))
  else
    bind (buffer_read (buf r) dst 0 n) (fun '(b, dst, k) =>
    Ok (Resource (inner r) b, dst, k)).

Lemma read_on_ok : forall pl cap rest c b dst n, has_input pl cap rest (arrivals c) b -> read_dirty b = false ->
  0 < cap < 2 ^ 32 -> 0 <= n <= len dst -> n < 2 ^ 32 ->
  read_result pl cap rest c dst n (read_on pl (Resource c b) dst n).
Proof.
  intros pl cap rest c b dst n H Rd C N L. pose proof H as (Cb & P & Hb & Hc & Hd & Hr). unfold read_on. cbn [buf inner].
  pose proof (at_hand_len b Hb ltac:(lia)) as Lh. pose proof (unit_pos pl) as U.
  assert (Lr : len rest = filled b - bpos b + len (typed (arrivals c))) by (rewrite Hr, len_app; lia).
  pose proof (len_nonneg (typed (arrivals c))) as Lty.
  destruct (Z.ltb_spec (filled b) (bpos b + n)) as [F|F].
  - cbv zeta. rewrite as_size_pos by lia.
    (* what was in the buffer *)
    assert (X : exists b1, (if 0 <? filled b - bpos b then
                  bind (buffer_read b dst 0 (filled b - bpos b)) (fun '(b, dst, k) =>
                  Ok (Resource c b, dst, k, as_size (n - k)))
                else Ok (Resource c b, dst, 0, n))
        = Ok (Resource c b1, overwrite dst 0 (at_hand b), filled b - bpos b, n - (filled b - bpos b)) /\
        has_input pl cap (typed (arrivals c)) (arrivals c) b1 /\ read_dirty b1 = false).
    { destruct (Z.ltb_spec 0 (filled b - bpos b)) as [Q|Q].
      - destruct (buffer_read_ok b dst 0 (filled b - bpos b) ltac:(lia) ltac:(lia) ltac:(lia) ltac:(lia) ltac:(lia))
          as (b1 & E & C1 & F1 & Z1 & R1 & A1).
        rewrite E. cbn [bind]. rewrite as_size_pos by lia. exists b1.
        rewrite (take_all _ (at_hand b)) by lia. split; [reflexivity|]. split; [|congruence].
        unfold has_input. rewrite A1, drop_all by lia. repeat split; auto; try lia; congruence.
      - assert (A0 : at_hand b = []) by (apply len_zero; lia). exists b.
        replace (filled b - bpos b) with 0 in * by lia. rewrite A0, Z.sub_0_r.
        rewrite overwrite_nil by lia. split; [reflexivity|]. split; [|exact Rd].
        unfold has_input. rewrite A0. rewrite A0 in Hr. cbn [app] in Hr. repeat split; auto; lia. }
    destruct X as (b1 & -> & H1 & Rd1). cbn [bind buf inner]. set (k := filled b - bpos b) in *.
    assert (Ca1 : capacity b1 = cap) by apply H1. rewrite Ca1.
    destruct (Z.ltb_spec cap (n - k)) as [Q|Q].
    + (* directly *)
      assert (Lo : len (overwrite dst 0 (at_hand b)) = len dst) by (rewrite len_overwrite by lia; lia).
      cbn [stdin_ops raw_read].
      destruct (raw_read_ok pl c (overwrite dst 0 (at_hand b)) k (n - k) LeanRetrieval P)
        as (c' & d & E & P' & T & Ld & Ne & D & A & G); try lia.
      rewrite E. cbn [bind]. pose proof (len_nonneg d).
      exists (Resource c' b1), (at_hand b ++ d), (typed (arrivals c')), [Waited d]. cbn [inner buf].
      assert (Lad : len (at_hand b ++ d) = k + len d) by (rewrite len_app; lia).
      split. { rewrite Lad. do 3 f_equal. replace k with (len (at_hand b)) by exact Lh. rewrite overwrite_twice by lia. rewrite len_app, Lh. reflexivity. }
      split; [rewrite Hr, T; apply app_assoc|]. split; [lia|].
      split. { destruct H1 as (q1 & q2 & q3 & q4 & q5 & q6).
               assert (A1 : at_hand b1 = []).
               { apply len_zero. apply (f_equal len) in q6. rewrite len_app in q6. pose proof (len_nonneg (at_hand b1)). lia. }
               unfold has_input. rewrite A1. repeat split; auto; try lia; congruence. }
      split; [exact A|]. split; [exact G|]. split; [apply waits_one|].
      split; [cbn; rewrite app_nil_r; now symmetry|].
      split; [intros w1 g w2 Hw Hn; destruct (one_wait _ _ _ _ Hw) as (-> & _ & _); change (received []) with (@nil BinNums.N);
              change (len []) with 0; lia|].
      split.
      { intros V W X. apply app_eq_nil in X. destruct X as [X1 X2]. rewrite X1 in *. cbn [app] in Hr.
        change (len []) with 0 in *. apply Ne; [lia|congruence|exact X2]. }
      intros V [W|W]; [lia|]. rewrite Lad.
      assert (Lt : len (typed (arrivals c)) = len d + len (typed (arrivals c'))) by (rewrite T, len_app; reflexivity).
      pose proof (len_nonneg (typed (arrivals c'))). pose proof (len_nonneg (at_hand b)).
      assert (k = 0) by (destruct pl; cbn [unit_of] in *; lia).
      destruct (typed (arrivals c)) as [|x y] eqn:R.
      * change (len []) with 0 in *. lia.
      * specialize (Ne ltac:(lia) ltac:(congruence)). pose proof (divides_pos (unit_of pl) _ (proj1 (unit_pos pl)) D (nonempty_len _ Ne)). lia.
    + (* through the buffer *)
      assert (Lo : len (overwrite dst 0 (at_hand b)) = len dst) by (rewrite len_overwrite by lia; lia).
      destruct (refill_ok pl cap c b1 (overwrite dst 0 (at_hand b)) k (n - k) H1 C ltac:(lia) ltac:(lia) ltac:(lia))
        as (c' & b' & d & rest' & E & T & Ld & H' & A & (g & G & Tg) & M & Ne).
      cbn [buf inner] in E. rewrite E. pose proof (len_nonneg d).
      exists (Resource c' b'), (at_hand b ++ d), rest', [Waited g]. cbn [inner buf].
      assert (Lad : len (at_hand b ++ d) = k + len d) by (rewrite len_app; lia).
      split. { rewrite Lad. do 3 f_equal. replace k with (len (at_hand b)) by exact Lh. rewrite overwrite_twice by lia. rewrite len_app, Lh. reflexivity. }
      split; [rewrite Hr, T; apply app_assoc|]. split; [lia|]. split; [exact H'|].
      split; [exact A|]. split; [exact G|]. split; [apply waits_one|].
      split; [cbn; rewrite app_nil_r; exact Tg|].
      split; [intros w1 x w2 Hw Hn; destruct (one_wait _ _ _ _ Hw) as (-> & _ & _); change (received []) with (@nil BinNums.N);
              change (len []) with 0; lia|].
      split.
      { intros V W X. apply app_eq_nil in X. destruct X as [X1 X2]. rewrite X1 in *. cbn [app] in Hr.
        change (len []) with 0 in *. apply Ne; [lia|congruence|exact X2]. }
      intros V W. rewrite Lad. specialize (M ltac:(lia) ltac:(lia)). lia.
  - destruct (buffer_read_ok b dst 0 n ltac:(lia) ltac:(lia) ltac:(lia) ltac:(lia) ltac:(lia))
      as (b1 & E & C1 & F1 & Z1 & R1 & A1).
    rewrite E. cbn [bind].
    assert (Lt : len (take n (at_hand b)) = n) by (rewrite len_take by lia; lia).
    exists (Resource c b1), (take n (at_hand b)), (drop n (at_hand b) ++ typed (arrivals c)), []. cbn [inner buf].
    split; [rewrite overwrite_0 by lia; now rewrite Lt|].
    split; [rewrite app_assoc, take_drop; exact Hr|]. split; [lia|].
    split. { unfold has_input. rewrite A1. repeat split; auto; try lia; congruence. }
    split; [reflexivity|]. split; [now rewrite app_nil_r|]. split; [constructor|]. split; [reflexivity|].
    split; [intros [|] g w2 Hw; discriminate|].
    split. { intros V W X. apply (f_equal len) in X. rewrite Lt in X. change (len []) with 0 in X. lia. }
    intros V W. lia.
Qed.

Lemma read_ok : forall pl cap rest c b dst n, has_input pl cap rest (arrivals c) b -> 0 <= cap < 2 ^ 32 ->
  0 <= n <= len dst -> n < 2 ^ 32 ->
  read_result pl cap rest c dst n (read (stdin_ops pl) (Resource c b) dst n).
Proof.
  intros pl cap rest c b dst n H C N L. destruct (Z.eqb_spec cap 0) as [->|Nz]; [now apply read_unbuffered_ok|].
  pose proof H as (Cb & P & Hb & Hc & Hd & Hr). unfold read. cbn [buf inner]. rewrite Cb.
  replace (0 <? cap) with true by lia. unfold read_buffered. cbn [buf inner].
  destruct (read_dirty b) eqn:Rd.
  - destruct (Hd eq_refl) as [Z0 F0].
    assert (A0 : at_hand b = []) by (apply len_zero; rewrite at_hand_len by lia; lia). rewrite A0 in Hr. cbn [app] in Hr.
    destruct (fill_ok pl c b P ltac:(lia)) as (c1 & b1 & d1 & E1 & C1 & Z1 & F1 & R1 & A1 & P1 & T1 & L1 & Ne1 & D1 & Ac1 & G1).
    rewrite E1. cbn [bind].
    assert (H1 : has_input pl cap rest (arrivals c1) b1).
    { unfold has_input. rewrite A1, Hr, T1. pose proof (len_nonneg d1). repeat split; auto; try lia; congruence. }
    destruct (read_on_ok pl cap rest c1 b1 dst n H1 R1 ltac:(lia) N L)
      as (r & d & rest' & w & E & Er & Ld & H' & A & G & W & T & Wt & Ne & M).
    unfold read_on in E. rewrite E.
    exists r, d, rest', (Waited d1 :: w). split; [reflexivity|]. split; [exact Er|]. split; [exact Ld|]. split; [exact H'|].
    split; [congruence|]. split; [rewrite G, G1, <- app_assoc; reflexivity|]. split; [constructor; [exact I|exact W]|].
    split. { cbn [received flat_map]. fold (received w). rewrite <- app_assoc, T. now symmetry. }
    split; [|split; assumption].
    intros w1 g w2 Hw Hn. destruct w1 as [|x w1].
    + rewrite Hr. change (received []) with (@nil BinNums.N). change (len []) with 0. lia.
    + cbn [app] in Hw. injection Hw as <- Hw. specialize (Wt _ _ _ Hw Hn).
      cbn [received flat_map]. fold (received w1). rewrite len_app.
      assert (len (typed (arrivals c)) = len d1 + len (typed (arrivals c1))) by (rewrite T1, len_app; reflexivity).
      lia.
  - exact (read_on_ok pl cap rest c b dst n H Rd ltac:(lia) N L).
Qed.
