(** More of C91 (how macOS treats minimized windows) and of C93 (a window keeps its size and
    its place). *)
From Coq Require Import NArith ZArith List Bool Lia.
Require Import ZifyBool ZifyNat ZifyN.
From Verif Require Import Base UnicodeSpec KeySpec LookSpec LookSpec2 LookModel LookText LookLemmas LookLemmas2 LookLemmas5 LookProps.
Import ListNotations.
Open Scope N_scope.

(* ------------------------------------------------------------------- C91 *)

(** On macOS, whatever is minimized: a window is on the screen exactly while it is shown, and
    as the user left it, except that showing it may restore a minimized one; whether it does
    so is up to makeKeyAndOrderFront ([rst]).  With C91_looks_partial (GTK) and C91_windows
    this is what all histories do. *)
Theorem C91_macos : forall d rst l dk,
  moderate_display d -> moderate_sizes l -> all_titles (plain_title MacOS) l -> no_questions l ->
  looks_macos rst l nothing = Some dk ->
  exists replies s, run_all MacOS d rst l start = Ok (replies, s) /\ forall o, on_screen o s = view o dk.
Proof.
  intros d rst l dk D S T Q E.
  destruct (mac_simulated d rst l nothing start dk D (fine_requests MacOS l T S) Q (start_matches _) E) as (reps & s & R & (M & _)).
  exists reps, s. split; [exact R|]. intro o. specialize (M o). unfold on_screen, native_of, view.
  destruct (get o (panes dk)) as [[|a|]|]; (destruct (get o (objects s)) as [x|]; [|try destruct M; reflexivity]); cbn [object_right] in M; try contradiction.
  - rewrite M. reflexivity.
  - destruct M as (h & w & E1 & E2 & _ & P1 & P2). rewrite E1, E2, P1, P2. reflexivity.
  - destruct M as (h & E1 & E2). rewrite E1, E2. reflexivity.
Qed.
Print Assumptions C91_macos.
(** A window that the user minimized is shown though it is not hidden. *)
Definition minimized_once : list request :=
  [Construct 1 640 480 [0x41] Standard (Some 70); Construct 2 320 200 [0x42] Minimized (Some 71); Show 1; Show 2; Rearrange 1 Minimized; Show 1].
Example C91_macos_example : moderate_sizes minimized_once /\ all_titles (plain_title MacOS) minimized_once /\ no_questions minimized_once /\
  (exists dk, looks_macos true minimized_once nothing = Some dk /\ view 1 dk = Some Standard /\ view 2 dk = Some Standard) /\
  exists dk, looks_macos false minimized_once nothing = Some dk /\ view 1 dk = Some Minimized /\ view 2 dk = Some Minimized.
Proof.
  assert (P : forall c, scalar c -> c <> 0 -> plain_title MacOS (encode UTF8 [c])).
  { intros c H1 H2. exists [c]. split; [|reflexivity]. repeat constructor; auto; try apply H1; discriminate. }
  split; [repeat constructor; unfold moderate; lia|]. split.
  { repeat constructor; [apply (P 0x41)|apply (P 0x42)]; unfold scalar; lia. }
  split; [repeat constructor; discriminate|].
  split; eexists; repeat split; vm_compute; reflexivity.
Qed.

(* ------------------------------------------------------------------- C93 *)

(** After any history every window has (when it is neither maximized nor minimized) the size
    with which it was opened; on Windows it is still where it was put, in the middle of the
    screen.  The user does not move or resize windows in this model. *)
Theorem C93_kept : forall k d rst l dk,
  moderate_display d -> moderate_sizes l -> all_titles (plain_title k) l -> no_questions l -> sizes l nothing = Some dk ->
  exists replies s, run_all k d rst l start = Ok (replies, s) /\
    forall o, match size_of o dk with
              | Some (width, height) =>
                  exists w, native_of o s = Some w /\ inside w = (width, height) /\
                    (k = WindowsApi ->
                     in_the_middle (screen_width d) (fst (corner w)) (frame_left d + width + frame_right d) /\
                     in_the_middle (screen_height d) (snd (corner w)) (frame_top d + height + frame_bottom d))
              | None => native_of o s = None
              end.
Proof.
  intros k d rst l dk D S T Q E.
  destruct (sizes_simulated k d rst l nothing start dk D (fine_requests k l T S) Q (start_matches _) E) as (reps & s & R & (M & _)).
  exists reps, s. split; [exact R|]. intro o. specialize (M o). unfold native_of, size_of.
  destruct (get o (panes dk)) as [[|[width height]|]|]; (destruct (get o (objects s)) as [x|]; [|try destruct M; reflexivity]); cbn [object_right] in M; try contradiction.
  - rewrite M. reflexivity.
  - destruct M as (h & w & E1 & E2 & _ & I & C). rewrite E1, E2. exists w. split; [reflexivity|]. split; [exact I|].
    intro K. specialize (C K). cbn [fst snd] in C. unfold place, outer_size in C.
    destruct (in_int _ && in_int _) in C; cbn [bind] in C; [|discriminate C].
    destruct (in_int _ && in_int _) in C; [|discriminate C]. injection C as C. rewrite <- C. cbn [fst snd]. unfold in_the_middle.
    assert (H : forall a, (Z.abs (a - 2 * Z.quot a 2) <= 1)%Z).
    { intro a. pose proof (Z.quot_rem a 2 ltac:(lia)). pose proof (Z.rem_bound_abs a 2 ltac:(lia)). lia. }
    split.
    + specialize (H (screen_width d - (width + frame_right d - (0 - frame_left d)))%Z). lia.
    + specialize (H (screen_height d - (height + frame_bottom d - (0 - frame_top d)))%Z). lia.
  - destruct M as (h & E1 & E2). rewrite E1, E2. reflexivity.
Qed.
Print Assumptions C93_kept.
Example C93_kept_example : exists dk, sizes minimized_once nothing = Some dk /\ size_of 1 dk = Some (640, 480)%Z /\ size_of 2 dk = Some (320, 200)%Z /\
  exists dm, sizes (minimized_once ++ [Move 3 1; UserClose 2]) nothing = Some dm /\ size_of 3 dm = Some (640, 480)%Z /\ size_of 1 dm = None.
Proof. eexists. split; [reflexivity|]. split; [reflexivity|]. split; [reflexivity|]. eexists. repeat split; vm_compute; reflexivity. Qed.
