(** C13, C14: what conversions and comparisons of well-formed texts give, without any restriction.
    C158: conversions in pieces and with a way around. *)
From Coq Require Import NArith ZArith List Bool Lia ZifyBool ZifyNat ZifyN.
From Verif Require Import Base UnicodeSpec UnicodeModel UnicodeText.
From Verif Require Import UnicodeLemmas UnicodeLemmas2 UnicodeLemmas3 UnicodeLemmas4 PairSpec PairText PairLemmas PairLemmas2.
Import ListNotations.
Open Scope N_scope.

(** C13, exactly: the result of the conversion of every text that both kinds of strings can hold.
    It fails at the first code point that takes a pair in a UTF-16 source, or that looks like a
    surrogate to the UTF-8 encoder; otherwise the result is the text. *)
Theorem C13_exact : forall ko ki l, Forall (holds ki) l -> Forall (holds ko) l ->
  convert_string ko ki (units ki l) =
  match failure (is16 ki) (is8 ko) l with None => Ok (units ko l) | Some e => Throw e end.
Proof.
  intros ko ki l Hi Ho. unfold convert_string. rewrite convert_visit.
  pose proof (visit_exact_from ki l [] (S (length (units ki l))) Hi ltac:(lia)) as V. cbn [app length] in V. rewrite V.
  exact (convert_exact ko (is16 ki) l [] Ho).
Qed.
Print Assumptions C13_exact.

Example C13_exact_cases :
  let text := [0x48; 0x20AC; 0x1F600; 0x48] in
  Forall (holds K16) text /\ Forall (holds K8) text /\ failure (is16 K16) (is8 K32) text = Some InvalidUnicodeEncoding /\
  failure (is16 K32) (is8 K8) text = None /\ failure (is16 K8) (is8 K16) text = None /\
  convert_string K8 K32 (units K32 text) = Ok (units K8 text) /\ length (units K8 text) = 9%nat.
Proof. cbv zeta. repeat split; try reflexivity; repeat constructor; cbn [holds]; unfold scalar; lia. Qed.

(** C14, exactly: what starts_with makes of every two texts that the strings can hold. *)
Theorem C14_exact : forall k1 k2 l m, Forall (holds k1) l -> Forall (holds k2) m ->
  starts_with k1 (units k1 l) k2 (units k2 m) = compared (is16 k1) (is16 k2) l m.
Proof.
  intros k1 k2 l m H1 H2. exact (starts_exact_from k1 k2 l m [] [] (S (length (units k1 l))) H1 H2 ltac:(lia)).
Qed.
Print Assumptions C14_exact.

Example C14_exact_cases :
  Forall (holds K8) [0x48; 0x1F600] /\ compared (is16 K8) (is16 K32) [0x48; 0x1F600] [0x48] = Ok true /\
  compared (is16 K8) (is16 K32) [0x48; 0x1F600] [0x48; 0x1F600] = Ok true /\
  compared (is16 K16) (is16 K16) [0x48; 0x1F600] [0x48] = Ok true /\
  compared (is16 K16) (is16 K16) [0x48; 0x1F600] [0x48; 0x1F600] = Terminate.
Proof. repeat split; try reflexivity; repeat constructor; cbn [holds]; unfold scalar; lia. Qed.

(** Not only may the program be ended: the answer may be wrong.  A text in UTF-8 does not start
    with itself in UTF-16. *)
Theorem C14_answer_refuted : exists l, Forall scalar l /\ starts_with K8 (encode UTF8 l) K16 (encode UTF16 l) = Ok false.
Proof. exists [0x1F600]. split; [repeat constructor; unfold scalar; lia|reflexivity]. Qed.
Print Assumptions C14_answer_refuted.

Lemma convert_as : forall ko ki s, convert_string ko ki s =
  (let '(l, r) := visit ki s in bind (append_all ko [] l) (fun t => bind r (fun _ => Ok t))).
Proof. intros. unfold convert_string. rewrite convert_visit. reflexivity. Qed.

(** C158: what has been converted stays, whatever follows it.  This holds for every sequence of
    code units, well-formed or not. *)
Theorem C158_pieces : forall ko ki s t a, convert_string ko ki s = Ok a ->
  convert_string ko ki (s ++ t) = bind (convert_string ko ki t) (fun b => Ok (a ++ b)).
Proof.
  intros ko ki s t a. rewrite !convert_as. destruct (visit ki s) as [l r] eqn:V.
  destruct (append_all ko [] l) as [x| | | |] eqn:A; cbn [bind]; try discriminate. destruct r as [[]| | | |]; cbn [bind]; try discriminate.
  intro E. injection E as ->. rewrite (visit_append _ _ t _ V). destruct (visit ki t) as [m r].
  rewrite append_all_split, A. cbn [bind]. rewrite append_all_from. destruct (append_all ko [] m); cbn [bind]; try reflexivity.
  now destruct r.
Qed.
Print Assumptions C158_pieces.

Example C158_pieces_case :
  convert_string K16 K8 [0x48; 0xC3; 0xA9] = Ok [0x48; 0xE9] /\ convert_string K16 K8 [0xF0; 0x9F; 0x98; 0x80] = Ok [0xD83D; 0xDE00] /\
  convert_string K16 K8 [0x48; 0xC3; 0xA9; 0xF0; 0x9F; 0x98; 0x80] = Ok [0x48; 0xE9; 0xD83D; 0xDE00] /\
  convert_string K16 K8 ([0x48; 0xC3] ++ [0xA9]) <> bind (convert_string K16 K8 [0xA9]) (fun b => Ok ([0x48] ++ b)).
Proof. repeat split; try reflexivity. vm_compute. discriminate. Qed.

(** A conversion to UTF-32 first changes nothing about a conversion that succeeds, and one that
    fails fails anyway; again for every sequence of code units. *)
Theorem C158_detour : forall ko ki s k a, k = K32 \/ k = KW4 ->
  (bind (convert_string k ki s) (convert_string ko k) = Ok a <-> convert_string ko ki s = Ok a).
Proof.
  intros ko ki s k a Hk. rewrite !convert_as. destruct (visit ki s) as [l r]. rewrite (append_all_plain k l Hk). cbn [bind].
  destruct r as [[]| | | |]; cbn [bind]; try (destruct (append_all_throws ko l []) as [[t ->]|[-> _]]; cbn [bind]; split; discriminate).
  rewrite convert_as, (visit_plain_all k l Hk). reflexivity.
Qed.
Print Assumptions C158_detour.

(** Unless the result is in UTF-8, not even the exception differs. *)
Theorem C158_detour_exception : forall ko ki s k, k = K32 \/ k = KW4 -> ko <> K8 ->
  bind (convert_string k ki s) (convert_string ko k) = convert_string ko ki s.
Proof.
  intros ko ki s k Hk N. rewrite !convert_as. destruct (visit ki s) as [l r]. rewrite (append_all_plain k l Hk). cbn [bind].
  destruct (append_all_throws ko l []) as [[t A]|[_ K]]; [|contradiction]. rewrite A. cbn [bind].
  destruct r as [[]| | | |]; cbn [bind]; try reflexivity. rewrite convert_as, (visit_plain_all k l Hk), A. reflexivity.
Qed.
Print Assumptions C158_detour_exception.

Example C158_detour_cases :
  convert_string K16 K8 [0xC3; 0xA9] = Ok [0xE9] /\ bind (convert_string K32 K8 [0xC3; 0xA9]) (convert_string K16 K32) = Ok [0xE9] /\
  (exists e, convert_string K16 K8 [0x48; 0xC3] = Throw e) /\
  (* the exceptions differ for a result in UTF-8 *)
  convert_string K8 K16 (encode UTF16 [0x1D800]) = Throw InvalidCodePoint /\
  bind (convert_string K32 K16 (encode UTF16 [0x1D800])) (convert_string K8 K32) = Throw InvalidUnicodeEncoding.
Proof. repeat split; try reflexivity. eexists. reflexivity. Qed.
