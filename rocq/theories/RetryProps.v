(** Property C116: numbers and truth values asked of the user. *)
From Coq Require Import NArith ZArith List Bool Lia ZifyBool ZifyNat ZifyN.
From Verif Require Import Base Integers UnicodeSpec UnicodeModel UnicodeText UnicodeLemmas UnicodeLemmas2 UnicodeLemmas3
  NumeralSpec NumberModel ResourceSpec ResourceModel ResourceLemmas StreamSpec StreamModel StreamText StreamLemmas StreamLemmas2
  StreamLemmas3 StdioSpec StdioModel StdioText StdioLemmas StdioLemmas2 StdioLemmas3 StdioLemmas4
  RetrySpec RetryModel RetryText RetryLemmas.
Import ListNotations.
Open Scope Z_scope.

(** Refuted: "300" for an unsigned char, "1-2" for an int and "€" for an int should all
    be reported as wrong; they give 44, -12 and undefined behaviour. *)
Theorem C116_replies_refuted : exists arr1 arr2 arr3 s1 s2,
  arr1 = [Arrives [51; 48; 48; 10]%N] /\ arr2 = [Arrives [49; 45; 50; 10]%N] /\ arr3 = [Arrives [226; 130; 172; 10]%N] /\
  attempt UnixLike Little 9 (WantNumber U8) (new_stdio (patient_console arr1) 8 8 8) = Ok (s1, Number 44) /\
  attempt UnixLike Little 9 (WantNumber I32) (new_stdio (patient_console arr2) 8 8 8) = Ok (s2, Number (-12)) /\
  attempt UnixLike Little 9 (WantNumber I32) (new_stdio (patient_console arr3) 8 8 8) = UB CtypeDomain /\
  ~ right_reply (WantNumber U8) [51; 48; 48]%N (Number 44) /\
  ~ right_reply (WantNumber I32) [49; 45; 50]%N (Number (-12)).
Proof.
  do 3 eexists. eexists _, _. split; [reflexivity|]. split; [reflexivity|]. split; [reflexivity|].
  split; [vm_compute; reflexivity|]. split; [vm_compute; reflexivity|]. split; [vm_compute; reflexivity|]. split.
  - intros [(neg & sg & cs & ds & E & Sp & _ & Dt & _ & X) _].
    inversion Sp; subst; try discriminate. cbn [app] in E. subst cs.
    inversion Dt as [|? d1 ? ds1 [V1 _] D1]; subst. inversion D1 as [|? d2 ? ds2 [V2 _] D2]; subst.
    inversion D2 as [|? d3 ? ds3 [V3 _] D3]; subst. inversion D3; subst.
    vm_compute in V1, V2, V3. injection V1 as <-. injection V2 as <-. injection V3 as <-. vm_compute in X. discriminate.
  - intros [(neg & sg & cs & ds & E & Sp & _ & Dt & _ & X) _].
    inversion Sp; subst; try discriminate. cbn [app] in E. subst cs.
    inversion Dt as [|? d1 ? ds1 [V1 _] D1]; subst. inversion D1 as [|? d2 ? ds2 [V2 _] D2]; subst. discriminate V2.
Qed.
Print Assumptions C116_replies_refuted.

(** Proved for words without the defects of C20 to C22 (no character above 255, no sign
    after the first character, no more digits than always fit): every question uses up the
    next word, and is answered rightly or reported as wrong. *)
Theorem C116_replies_partial : forall pl native arr ci co ce fuel t l ws r,
  proper (unit_of pl) arr -> typed arr = text_bytes (console_encoding pl) native l -> Forall scalar l ->
  capacities_fit ci co ce -> unit_fits pl ci -> can_print pl native t ->
  (forall ty, In (WantNumber ty) (asked t) -> standard ty) ->
  words l ws r -> Forall2 modest (asked t) ws -> (length l < fuel)%nat ->
  exists s rs, run_steps pl (order_of native) fuel (new_stdio (patient_console arr) ci co ce) t = Ok (s, rs) /\
    Forall2 (fun '(q, w) a => right_reply q w a) (combine (asked t) ws) rs.
Proof.
  intros pl native arr ci co ce fuel t l ws r P Ty S C U Cp St W M F.
  pose proof (good_new pl arr ci co ce P) as G. rewrite Ty in G.
  assert (Ow : Forall wanted_ok (asked t)).
  { apply Forall_forall. intros [ty|] I; cbn; auto. }
  assert (Lw : length ws = length (asked t)) by (clear - M; induction M; cbn; auto).
  assert (Sw : Forall (Forall (storable K8)) ws).
  { clear - M. induction M as [|q w qs ws Mq M IH]; constructor; auto. now apply (modest_holds q). }
  destruct (steps_ok pl _ native fuel (caps_ok pl _ _ _ C) (room_ok pl ci co ce U) t l ws r _ _ W Lw G Cp Ow Sw S F) as [_ H].
  destruct (H M) as (s & rs & E & _ & R). eauto.
Qed.
Print Assumptions C116_replies_partial.

(** Whatever words were typed, right or wrong: unless the behaviour is undefined, the
    next question is answered by what was typed after as many words as there were
    questions. *)
Theorem C116_one_word_each_partial : forall pl native arr ci co ce fuel t l ws r q k a r',
  proper (unit_of pl) arr -> typed arr = text_bytes (console_encoding pl) native l -> Forall scalar l ->
  capacities_fit ci co ce -> unit_fits pl ci -> can_print pl native t ->
  (forall ty, In (WantNumber ty) (asked t) -> standard ty) ->
  words l ws r -> length ws = length (asked t) -> Forall (Forall (storable K8)) ws -> (length l < fuel)%nat ->
  takes q r a r' -> (match q with Character => True | _ => Forall (storable k) a end) ->
  let out := run_steps pl (order_of native) fuel (new_stdio (patient_console arr) ci co ce) t in
  (exists s rs s', out = Ok (s, rs) /\
     ask pl (order_of native) fuel q k s = Ok (s', match q with Character => a | _ => units k a end)) \/
  (exists u, out = UB u).
Proof.
  intros pl native arr ci co ce fuel t l ws r q k a r' P Ty S C U Cp St W Lw Sw F Tk Ta out.
  pose proof (good_new pl arr ci co ce P) as G. rewrite Ty in G.
  pose proof (caps_ok pl _ _ _ C) as Cf. pose proof (room_ok pl ci co ce U) as Rm.
  assert (Ow : Forall wanted_ok (asked t)).
  { apply Forall_forall. intros [ty|] I; cbn; auto. }
  destruct (steps_ok pl _ native fuel Cf Rm t l ws r _ _ W Lw G Cp Ow Sw S F) as [[(s & rs & E & G')|H] _]; [|right; exact H].
  left. assert (Sr : Forall scalar r /\ (length r <= length l)%nat).
  { clear - W S. induction W as [l|l w l' ws r Tk W IH]; [auto|]. pose proof (shorter _ _ _ Tk).
    destruct (takes_scalar _ _ _ _ Tk S eq_refl) as (_ & Sc & _). specialize (IH Sc). split; [apply IH|lia]. }
  destruct Sr as [Sr Lr].
  set (T := received (log (os s)) ++ typed (arrivals (os s))).
  match type of G' with good _ ?cs ?sent _ _ =>
    assert (A : asking pl cs sent (log (os s)) T (text_bytes (console_encoding pl) native r) s);
    [split; [exact G'|]; split; [reflexivity|]; exists []; split; [now rewrite app_nil_r|]; intros [|] ? ? X; discriminate|];
    destruct (ask_ok pl cs native sent _ T fuel q k r a r' s Cf Rm Tk Sr Ta ltac:(lia) A) as (s' & E' & _)
  end.
  exists s, rs, s'. split; [exact E|exact E'].
Qed.
Print Assumptions C116_one_word_each_partial.

(** A loop that asks until the answer is right: it ends with the first right answer,
    after as many prompts as there were words, with the same restriction on the words. *)
Theorem C116_until_partial : forall pl native arr ci co ce fuel k prompt q l ws m w r a,
  proper (unit_of pl) arr -> typed arr = text_bytes (console_encoding pl) native l -> Forall scalar l ->
  capacities_fit ci co ce -> unit_fits pl ci ->
  can_print pl native [Print StandardOutput k prompt] -> (forall ty, q = WantNumber ty -> standard ty) ->
  words l ws m -> Forall (fun v => modest q v /\ right_reply q v Wrong) ws ->
  takes Word m w r -> modest q w -> right_reply q w a -> a <> Wrong -> (length l < fuel)%nat ->
  exists s s' a', ask_until pl (order_of native) fuel (S (length ws)) k prompt q (new_stdio (patient_console arr) ci co ce) = Ok (s, a') /\
    right_reply q w a' /\ a' <> Wrong /\ out_flush pl StandardOutput s = Ok s' /\
    shown StandardOutput (log (os s')) = text_bytes UTF8 native (concat (repeat prompt (S (length ws)))).
Proof.
  intros pl native arr ci co ce fuel k prompt q l ws m w r a P Ty S C U Cp Sq W Ws Tk Mw Rw Na F.
  pose proof (good_new pl arr ci co ce P) as G. rewrite Ty in G. pose proof (Forall_inv Cp) as [Pp Sp].
  assert (Oq : wanted_ok q) by (destruct q; cbn; auto).
  destruct (until_ok pl _ native fuel k prompt q (caps_ok pl _ _ _ C) (room_ok pl ci co ce U) Oq Pp Sp
              ws l w m r a _ _ W Tk Ws Mw Rw Na G S F) as (s & a' & E & R & N & G').
  destruct (finish_ok pl _ _ _ s StandardOutput G' (caps_ok pl _ _ _ C)) as (s' & d & E' & _ & Sh & _).
  exists s, s', a'. split; [exact E|]. split; [exact R|]. split; [exact N|]. split; [exact E'|]. exact Sh.
Qed.
Print Assumptions C116_until_partial.

(** "twelve", "-7" and "1" were typed: wrong for an int, then right; then a truth value. *)
Example C116_example :
  let l := [116; 119; 101; 108; 118; 101; 10; 45; 55; 10; 49; 10]%N in
  let arr := [Arrives [116; 119; 101; 108]%N; Arrives [118; 101; 10; 45; 55; 10; 49; 10]%N] in
  let ws := [[116; 119; 101; 108; 118; 101]; [45; 55]; [49]]%N in
  let t := [Print StandardOutput K8 [63]%N; Try (WantNumber I32); Print StandardOutput K8 [63]%N; Try (WantNumber I32); Try WantTruth] in
  proper (unit_of UnixLike) arr /\ typed arr = text_bytes UTF8 LittleEndian l /\ words l ws [] /\ Forall2 modest (asked t) ws /\
  (exists s, run_steps UnixLike Little 20 (new_stdio (patient_console arr) 4 4 4) t = Ok (s, [Wrong; Number (-7); Truth true])) /\
  right_reply (WantNumber I32) [116; 119; 101; 108; 118; 101]%N Wrong /\
  right_reply (WantNumber I32) [45; 55]%N (Number (-7)) /\
  (exists s, ask_until UnixLike Little 20 2 K8 [63]%N (WantNumber I32) (new_stdio (patient_console arr) 4 4 4) = Ok (s, Number (-7))).
Proof.
  cbv zeta.
  split. { repeat constructor; try discriminate; apply Z.divide_1_l. }
  split; [reflexivity|]. split.
  { apply (OneMore _ _ [45; 55; 10; 49; 10]%N).
    { apply (TakesWord [] [116; 119; 101; 108; 118; 101]%N [10%N]); [constructor|discriminate| |left; now left].
      repeat constructor; unfold white_space; lia. }
    apply (OneMore _ _ [49; 10]%N).
    { apply (TakesWord [] [45; 55]%N [10%N]); [constructor|discriminate| |left; now left].
      repeat constructor; unfold white_space; lia. }
    apply (OneMore _ _ []).
    { apply (TakesWord [] [49]%N [10%N] []); [constructor|discriminate| |left; now left].
      repeat constructor; unfold white_space; lia. }
    constructor. }
  split.
  { cbn [asked flat_map app]. apply Forall2_cons; [|apply Forall2_cons; [|apply Forall2_cons; [|constructor]]].
    - split; [repeat constructor; lia|]. split; [reflexivity|vm_compute; discriminate].
    - split; [repeat constructor; lia|]. split; [reflexivity|vm_compute; discriminate].
    - split; [repeat constructor; lia|exact I]. }
  split; [eexists; vm_compute; reflexivity|]. split.
  { intros x [(neg & sg & cs & ds & E & Sp & _ & Dt & _ & _) _].
    inversion Sp; subst; try discriminate. cbn [app] in E. subst cs.
    inversion Dt as [|? d1 ? ds1 [V1 L1] D1]; subst. vm_compute in V1. injection V1 as <-. lia. }
  split.
  { split; [|vm_compute; split; discriminate]. exists true, [45]%N, [55]%N, [7]%N. split; [reflexivity|].
    split; [constructor|]. split; [reflexivity|]. split; [repeat constructor|]. split; [discriminate|reflexivity]. }
  eexists. vm_compute. reflexivity.
Qed.
