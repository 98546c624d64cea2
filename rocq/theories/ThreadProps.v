(** C127: threads. *)
From Coq Require Import NArith ZArith List Bool PeanoNat Lia ZifyBool ZifyNat ZifyN.
From Verif Require Import Base ResourceModel ResourceSpec TieSpec TieModel TieText TieLemmas ThreadSpec ThreadModel ThreadLemmas.
Import ListNotations.
Open Scope Z_scope.

(** The property: "threads that use different resource objects do not disturb one
    another: under every schedule each of them sees what it would see alone."

    Proved for any number of threads, programs of every length, and every schedule: no
    data race, no undefined behaviour, and every thread sees what it may expect without
    the others, provided no input used by one thread is tied to an output of another.
    (Each thread alone does only what makes sense in the sense of C120.)  Missing: that
    proviso; see below. *)
Theorem C127_threads_partial : forall twice setup threads owner h,
  all_sensible (twice = false) nothing_yet setup ->
  let start := after nothing_yet setup in
  boxes_kept owner start -> ties_kept owner start ->
  separate owner threads ->
  (forall k, all_sensible (twice = false) start (nth k threads [])) ->
  history_of threads h ->
  exists l, program twice setup h = Result (Ok l) /\
    forall k, concat (of_thread k l) = expectations start (nth k threads []).
Proof.
  intros twice setup threads owner h Su start B T Sep Sn H.
  destruct (alone_ok twice setup _ _ empty_ok Su) as (w & E & A).
  unfold program. rewrite E.
  destruct (together_ok owner twice h w start (fun _ => start)) as (l & R & X).
  - split; assumption.
  - exact A.
  - intros k. split; [split; assumption|]. split; [apply agree_refl|]. rewrite H. apply Sn.
  - intros k d D x Hx. rewrite H in D. eapply Sep; eassumption.
  - exists l. split; [exact R|]. intros k. rewrite X, H. reflexivity.
Qed.
Print Assumptions C127_threads_partial.

Local Ltac sight :=
  eexists _, _, _; split; [reflexivity|]; split; [split; discriminate|]; split; [right; discriminate|first [exact I|discriminate]].

Definition a_block : list N := repeat 0%N 4.

(** Two threads, each with an input tied to an output of its own; the second makes its
    objects itself. *)
Definition first_setup : list deed := [NewOut 1 1 4; NewIn 1 [1; 2; 3; 4]%N 4; Tie 1 1].

Definition two_threads : list (list deed) :=
  [[Put 1 [7; 8]%N; Get 1 a_block 2; Put 1 [9]%N; Flush 1];
   [NewOut 2 2 2; Put 2 [5]%N; NewIn 2 [11; 12]%N 2; Tie 2 2; Get 2 a_block 1]].

Definition by_number (x : place) : nat :=
  match x with AnOut 1 | AnIn 1 | ABox 1 => 0%nat | _ => 1%nat end.

Definition one_history : list (nat * deed) :=
  [(1, NewOut 2 2 2); (0, Put 1 [7; 8]%N); (1, Put 2 [5]%N); (0, Get 1 a_block 2); (1, NewIn 2 [11; 12]%N 2);
   (1, Tie 2 2); (0, Put 1 [9]%N); (1, Get 2 a_block 1); (0, Flush 1)]%nat.

Example C127_threads_example :
  all_sensible (true = false) nothing_yet first_setup /\
  boxes_kept by_number (after nothing_yet first_setup) /\ ties_kept by_number (after nothing_yet first_setup) /\
  separate by_number two_threads /\
  (forall k, all_sensible (true = false) (after nothing_yet first_setup) (nth k two_threads [])) /\
  history_of two_threads one_history /\
  program true first_setup one_history
  = Result (Ok [(1, []); (0, []); (1, []); (0, [Reads [1; 2]%N (Some [7; 8]%N)]); (1, []); (1, []); (0, []);
                (1, [Reads [11]%N (Some [5]%N)]); (0, [Holds [7; 8; 9]%N])]%nat).
Proof.
  split; [|split; [|split; [|split; [|split; [|split]]]]].
  - unfold first_setup. cbn [all_sensible]. split; [intros x _; discriminate|]. split; [reflexivity|]. split; [discriminate|exact I].
  - intros o c. cbn. unfold at_name. destruct (N.eqb_spec o 1) as [->|]; [|discriminate]. intros H. injection H as <-. reflexivity.
  - intros i rest cap o. cbn. unfold at_name. destruct (N.eqb_spec i 1) as [->|]; [|discriminate].
    intros H. injection H as <- <- <-. reflexivity.
  - intros k d x D X. destruct k as [|[|k]]; cbn in D.
    + destruct D as [<-|[<-|[<-|[<-|[]]]]]; cbn in X; destruct X as [<-|[]]; reflexivity.
    + destruct D as [<-|[<-|[<-|[<-|[<-|[]]]]]]; cbn in X; repeat (destruct X as [<-|X]; [reflexivity|]); destruct X.
    + destruct k; destruct D.
  - intros [|[|k]]; cbn [nth two_threads all_sensible].
    + split; [exists 1%N; now split|]. split; [sight|]. split; [exists 1%N; now split|]. split; [discriminate|exact I].
    + split.
      { intros x X. cbn. unfold at_name. destruct (N.eqb x 1); discriminate. }
      split; [exists 2%N; now split|]. split; [reflexivity|]. split; [discriminate|]. split; [sight|exact I].
    + destruct k; exact I.
  - intros [|[|k]]; [reflexivity|reflexivity|]. destruct k; reflexivity.
  - vm_compute. reflexivity.
Qed.

(** As with uin and uout: one thread only reads from an input, the other only writes to
    an output, but the input was tied to it.  No thread names an object of the other,
    and either schedule is a data race. *)
Theorem C127_tied_refuted :
  let setup := [NewOut 1 1 4; NewIn 1 [1; 2]%N 4; Tie 1 1] in
  let threads := [[Put 1 [7]%N]; [Get 1 a_block 1]] in
  let owner := fun x => match x with AnIn _ => 1%nat | _ => 0%nat end in
  all_sensible (true = false) nothing_yet setup /\
  boxes_kept owner (after nothing_yet setup) /\ separate owner threads /\
  (forall k, all_sensible (true = false) (after nothing_yet setup) (nth k threads [])) /\
  (forall h, history_of threads h -> program true setup h = DataRace).
Proof.
  cbv zeta. split; [|split; [|split; [|split]]].
  - cbn [all_sensible]. split; [intros x _; discriminate|]. split; [reflexivity|]. split; [discriminate|exact I].
  - intros o c. cbn. unfold at_name. destruct (N.eqb_spec o 1) as [->|]; [|discriminate]. reflexivity.
  - intros k d x D X. destruct k as [|[|k]]; cbn in D.
    + destruct D as [<-|[]]; cbn in X; destruct X as [<-|[]]; reflexivity.
    + destruct D as [<-|[]]; cbn in X; destruct X as [<-|[]]; reflexivity.
    + destruct k; destruct D.
  - intros [|[|k]]; cbn [nth all_sensible].
    + split; [exists 1%N; now split|exact I].
    + split; [sight|exact I].
    + destruct k; exact I.
  - intros h H. assert (H0 := H 0%nat). assert (H1 := H 1%nat). cbn [nth] in H0, H1.
    assert (O : forall k d, In (k, d) h -> (k < 2)%nat).
    { intros k d D. destruct (Nat.lt_ge_cases k 2) as [|G]; [assumption|]. exfalso.
      assert (X : In d (of_thread k h)).
      { unfold of_thread. apply in_map_iff. exists (k, d). split; [reflexivity|]. apply filter_In. split; [exact D|].
        cbn [fst]. apply Nat.eqb_refl. }
      rewrite H in X. destruct k as [|[|k]]; [lia|lia|]. destruct k; destruct X. }
    destruct h as [|[k d] h]; [discriminate H0|]. assert (K := O k d (or_introl eq_refl)).
    destruct k as [|[|k]]; [| |lia].
    + cbn in H0. injection H0 as -> H0. destruct h as [|[j e] h]; [discriminate H1|].
      assert (J := O j e (or_intror (or_introl eq_refl))). destruct j as [|[|j]]; [discriminate H0| |lia].
      cbn in H1. injection H1 as -> H1. reflexivity.
    + cbn in H1. injection H1 as -> H1. destruct h as [|[j e] h]; [discriminate H0|].
      assert (J := O j e (or_intror (or_introl eq_refl))). destruct j as [|[|j]]; [|discriminate H1|lia].
      cbn in H0. injection H0 as -> H0. reflexivity.
Qed.
Print Assumptions C127_tied_refuted.
