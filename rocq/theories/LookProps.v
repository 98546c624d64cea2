(** Properties of the looks of windows: C89 - C93. *)
From Coq Require Import NArith ZArith List Bool Lia.
Require Import ZifyBool ZifyNat ZifyN.
From Verif Require Import Base UnicodeSpec KeySpec LookSpec LookModel LookText LookLemmas LookLemmas2 LookLemmas3 LookLemmas4.
Import ListNotations.
Open Scope N_scope.

Definition desktop : display :=
  {| screen_width := 1920; screen_height := 1080; frame_left := 8; frame_top := 31; frame_right := 8; frame_bottom := 8 |}%Z.
Lemma desktop_moderate : moderate_display desktop.
Proof. unfold moderate_display, moderate. cbn. lia. Qed.

(* ------------------------------------------------------------------- C89 *)

(** A window has the title it was given last, whatever else is done with it and with other
    windows.  Missing: titles with U+0000 everywhere, and with supplementary characters on
    Windows; on macOS, objects without window are not asked. *)
Theorem C89_titles_partial : forall k d rst l dk,
  moderate_display d -> moderate_sizes l -> all_titles (plain_title k) l ->
  titles l nothing = Some dk -> (k = MacOS -> asks_windows l nothing) ->
  exists replies s, run_all k d rst l start = Ok (replies, s) /\
    forall o t, title_of o dk = Some t -> (k = MacOS -> get o (panes dk) <> Some Empty) ->
      get_title k o s = Ok (Title t, s).
Proof.
  intros k d rst l dk D S T E Q.
  destruct (titles_simulated k d rst l nothing start dk D (fine_requests k l T S) Q (start_matches _) E) as (reps & s & R & M).
  exists reps, s. split; [exact R|]. intros o t. apply title_answered. exact M.
Qed.
Print Assumptions C89_titles_partial.
Example C89_example :
  let l := [Construct 1 640 480 [0xC3; 0x84] Standard (Some 70); Construct 2 640 480 [0x42] Maximized (Some 71);
            Show 1; SetTitle 1 [0xE2; 0x82; 0xAC]; Hide 1; Move 3 1; SetTitle 2 [0x43]; UserClose 2] in
  moderate_sizes l /\ all_titles (plain_title WindowsApi) l /\
  exists dk, titles l nothing = Some dk /\ title_of 3 dk = Some [0xE2; 0x82; 0xAC] /\ title_of 1 dk = Some [] /\ title_of 2 dk = None.
Proof.
  cbn zeta. assert (P : forall c, scalar c -> c <> 0 -> bmp c -> plain_title WindowsApi (encode UTF8 [c])).
  { intros c H1 H2 H3. exists [c]. split; [|reflexivity]. repeat constructor; auto; apply H1. }
  split; [repeat constructor; unfold moderate; lia|]. split.
  - repeat constructor.
    + apply (P 0xC4); unfold scalar, bmp; lia.
    + apply (P 0x42); unfold scalar, bmp; lia.
    + apply (P 0x20AC); unfold scalar, bmp; lia.
    + apply (P 0x43); unfold scalar, bmp; lia.
  - eexists. split; [reflexivity|]. repeat split; reflexivity.
Qed.

(** open in the middle of any such history: an object with a window answers false and nothing
    changes; one without answers whether the window was created, and without one nothing
    changes either. *)
Theorem C69_answers : forall k d rst l dk o width height t m c,
  moderate_display d -> moderate_sizes l -> all_titles (plain_title k) l ->
  titles l nothing = Some dk -> (k = MacOS -> asks_windows l nothing) ->
  moderate width -> moderate height -> plain_title k t ->
  exists replies s, run_all k d rst l start = Ok (replies, s) /\
    match get o (panes dk) with
    | Some (Pane _) => run k d rst (Open o width height t m c) s = Ok (Opened false, s)
    | Some Empty =>
        match c with
        | Some _ => exists s', run k d rst (Open o width height t m c) s = Ok (Opened true, s')
        | None => run k d rst (Open o width height t m c) s = Ok (Opened false, s)
        end
    | _ => True
    end.
Proof.
  intros k d rst l dk o width height t m c D S T E Q W H P.
  destruct (titles_simulated k d rst l nothing start dk D (fine_requests k l T S) Q (start_matches _) E) as (reps & s & R & (M & _)).
  exists reps, s. split; [exact R|]. specialize (M o). destruct (get o (panes dk)) as [[|a|]|]; try exact I.
  all: destruct (get o (objects s)) as [x|] eqn:Gx; [|destruct M]; cbn [object_right] in M; cbn [run].
  - pose proof (opened k d o width height t m c s x D W H P Gx M) as O. destruct c; [|exact O].
    destruct O as (w & O & _). eexists. exact O.
  - destruct M as (h & w & M & _). unfold open_window, with_object. now rewrite Gx, M.
Qed.
Print Assumptions C69_answers.
Example C69_answers_example :
  let l := [Construct 1 640 480 [0x41] Standard (Some 70); Construct 2 640 480 [0x42] Standard None] in
  moderate_sizes l /\ (exists dk, titles l nothing = Some dk /\ get 1 (panes dk) = Some (Pane [0x41]) /\ get 2 (panes dk) = Some Empty) /\
  exists s, run_all Gtk desktop false (l ++ [Open 1 1 1 [] Standard (Some 71); Open 2 1 1 [] Standard None; Open 2 1 1 [] Standard (Some 72); Open 2 1 1 [] Standard (Some 73)]) start
    = Ok ([Done; Done; Opened false; Opened false; Opened true; Opened false], s).
Proof.
  cbn zeta. split; [repeat constructor; unfold moderate; lia|]. split; [eexists; split; [reflexivity|split; reflexivity]|].
  eexists. vm_compute. reflexivity.
Qed.

(** On Windows the title of a window whose title has an emoji cannot be asked for. *)
Theorem C89_titles_refuted :
  ~ (forall k d rst l dk, moderate_display d -> moderate_sizes l -> all_titles (well_formed UTF8) l ->
       titles l nothing = Some dk -> (k = MacOS -> asks_windows l nothing) ->
       exists replies s, run_all k d rst l start = Ok (replies, s) /\
         forall o t, title_of o dk = Some t -> (k = MacOS -> get o (panes dk) <> Some Empty) ->
           get_title k o s = Ok (Title t, s)).
Proof.
  intro H.
  destruct (H WindowsApi desktop false [Construct 1 640 480 (encode UTF8 [0x1F600]) Standard (Some 70)]
              {| panes := [(1, Pane (encode UTF8 [0x1F600]))]; used := [70] |} desktop_moderate) as (reps & s & R & A).
  - repeat constructor; unfold moderate; lia.
  - repeat constructor. exists [0x1F600]. split; [|reflexivity]. repeat constructor; unfold scalar; lia.
  - reflexivity.
  - discriminate.
  - specialize (A 1 (encode UTF8 [0x1F600]) eq_refl ltac:(discriminate)).
    revert R. vm_compute. intro R. injection R as <- <-. revert A. vm_compute. discriminate.
Qed.
Print Assumptions C89_titles_refuted.

(** Everywhere a title ends before its first U+0000. *)
Theorem C89_zero_refuted : forall k d rst,
  moderate_display d ->
  exists replies s, run_all k d rst [Construct 1 640 480 [0x41; 0; 0x42] Standard (Some 70)] start = Ok (replies, s) /\
    get_title k 1 s = Ok (Title [0x41], s).
Proof.
  intros k d rst D.
  assert (P : place d 640 480 = Ok (Z.quot (screen_width d - (640 + frame_right d + frame_left d)) 2,
                                    Z.quot (screen_height d - (480 + frame_bottom d + frame_top d)) 2)%Z)
    by (apply place_ok; [exact D|unfold moderate; lia..]).
  cbn [run_all run]. unfold construct, open_window, with_object. cbn [with_objects objects]. rewrite get_put_same. cbn [handle].
  destruct k.
  - change (UnicodeModel.convert_string UnicodeModel.KW2 UnicodeModel.K8 [0x41; 0; 0x42]) with (@Ok (list N) [0x41; 0; 0x42]).
    cbn [bind]. rewrite P. cbn [bind]. eexists _, _. split; [reflexivity|]. reflexivity.
  - eexists _, _. split; reflexivity.
  - eexists _, _. split; reflexivity.
Qed.
Print Assumptions C89_zero_refuted.

(* ------------------------------------------------------------------- C90 *)

(** An object without window, because none could be created, it was moved, or (on Windows)
    it was closed, has an empty title, and showing, hiding and naming it changes no window.
    Missing: closed windows with GTK and macOS, and questions for titles on macOS. *)
Theorem C90_without_window_partial : forall k d rst l dk o r,
  moderate_display d -> moderate_sizes l -> all_titles (plain_title k) l ->
  titles l nothing = Some dk -> (k = MacOS -> asks_windows l nothing) ->
  get o (panes dk) = Some Empty \/ (k = WindowsApi /\ get o (panes dk) = Some Gone) ->
  asks o r -> (k = MacOS -> r <> GetTitle o) ->
  exists replies s rep s', run_all k d rst l start = Ok (replies, s) /\ run k d rst r s = Ok (rep, s') /\
    (r = GetTitle o -> rep = Title []) /\ forall o', native_of o' s' = native_of o' s.
Proof.
  intros k d rst l dk o r D S T E Q P A Qr.
  destruct (titles_simulated k d rst l nothing start dk D (fine_requests k l T S) Q (start_matches _) E) as (reps & s & R & (M & _)).
  specialize (M o).
  assert (X : exists x, get o (objects s) = Some x /\
     (handle x = None \/ (k = WindowsApi /\ exists h, handle x = Some h /\ get h (natives s) = Some None))).
  { destruct P as [P|[K P]]; rewrite P in M; (destruct (get o (objects s)) as [x|]; [|destruct M]); exists x; auto. }
  destruct X as (x & G & X).
  destruct (without_window k d rst o s x r G X A Qr) as (rep & s' & R' & Rt & En & _ & y & Ey & Go).
  exists reps, s, rep, s'. repeat split; auto. apply native_of_ext; [exact En|].
  intro q. rewrite Go. destruct (N.eqb_spec o q).
  - subst q. rewrite G. eauto.
  - destruct (get q (objects s)); eauto.
Qed.
Print Assumptions C90_without_window_partial.
Example C90_example : exists dk,
  titles [Construct 1 640 480 [0x41] Standard (Some 70); Construct 2 640 480 [0x41] Standard None; UserClose 1; Open 2 1 1 [] Standard (Some 71); Move 3 2] nothing = Some dk /\
  get 1 (panes dk) = Some Gone /\ get 2 (panes dk) = Some Empty.
Proof. eexists. repeat split; reflexivity. Qed.

(** With GTK and macOS a closed window must not be used, and on macOS an object that has none
    must not be asked for its title. *)
Theorem C90_without_window_refuted : forall d rst r, asks 1 r ->
  (forall k, k <> WindowsApi ->
     (exists replies s, run_all k d rst [Construct 1 640 480 [0x41] Standard (Some 70); Show 1; UserClose 1] start = Ok (replies, s) /\
       run k d rst r s = UB DanglingPointer)) /\
  (exists replies s, run_all MacOS d rst [Construct 1 640 480 [0x41] Standard None] start = Ok (replies, s) /\
     run MacOS d rst (GetTitle 1) s = UB DanglingPointer).
Proof.
  intros d rst r A. split.
  - intros k K. destruct k; [congruence| |].
    + eexists _, _. split; [vm_compute; reflexivity|].
      destruct A as [(t & -> & _)|[->|[-> | ->]]]; reflexivity.
    + eexists _, _. split; [destruct rst; vm_compute; reflexivity|].
      destruct A as [(t & -> & _)|[->|[-> | ->]]]; try (destruct rst; reflexivity).
      cbn [run]. unfold set_title. cbn. destruct (valid_utf8 0 0 0 (c_string t)); reflexivity.
  - eexists _, _. split; reflexivity.
Qed.
Print Assumptions C90_without_window_refuted.

(* ------------------------------------------------------------------- C91 *)

Definition keeps (m : mode) : mode := m.

(** A window is on the screen exactly while it is shown, first in the mode it was opened with,
    then as the user left it; hiding and showing it again does not change that.  Missing:
    Windows, and minimized windows on macOS, of which AppKit says that they are not visible. *)
Theorem C91_looks_partial : forall k d rst l dk,
  k <> WindowsApi -> moderate_display d -> moderate_sizes l -> all_titles (plain_title k) l -> no_questions l ->
  (k = MacOS -> never_minimized l) ->
  looks keeps l nothing = Some dk ->
  exists replies s, run_all k d rst l start = Ok (replies, s) /\ forall o, on_screen o s = view o dk.
Proof.
  intros k d rst l dk K D S T Q Nm E.
  assert (Fm : Forall (fine_mode k) l).
  { apply Forall_forall. intros r Hr. unfold fine_mode.
    assert (X : k = MacOS -> match r with Construct _ _ _ _ m _ | Open _ _ _ _ m _ | Rearrange _ m => m <> Minimized | _ => True end).
    { intro M. specialize (Nm M). unfold never_minimized in Nm. rewrite Forall_forall in Nm. exact (Nm r Hr). }
    destruct r; auto. }
  assert (E' : looks (again k) l nothing = Some dk) by (destruct k; [congruence|exact E..]).
  destruct (looks_simulated k d rst l nothing start dk D (fine_requests k l T S) Fm Q (start_matches _) E') as (reps & s & R & M).
  exists reps, s. split; [exact R|]. intro o. eapply look_seen. exact M.
Qed.
Print Assumptions C91_looks_partial.

(** On Windows a window that is shown again is neither maximized nor minimized, and this is
    the only difference. *)
Theorem C91_windows : forall d rst l dk,
  moderate_display d -> moderate_sizes l -> all_titles (plain_title WindowsApi) l -> no_questions l ->
  looks (fun _ => Standard) l nothing = Some dk ->
  exists replies s, run_all WindowsApi d rst l start = Ok (replies, s) /\ forall o, on_screen o s = view o dk.
Proof.
  intros d rst l dk D S T Q E.
  assert (Fm : Forall (fine_mode WindowsApi) l).
  { apply Forall_forall. intros r _. destruct r; cbn; congruence || exact I. }
  destruct (looks_simulated WindowsApi d rst l nothing start dk D (fine_requests WindowsApi l T S) Fm Q (start_matches _) E) as (reps & s & R & M).
  exists reps, s. split; [exact R|]. intro o. eapply look_seen. exact M.
Qed.
Print Assumptions C91_windows.
Definition maximized_twice : list request :=
  [Construct 1 640 480 [0x41] Maximized (Some 70); Construct 2 640 480 [0x42] Standard (Some 71); Show 1; Hide 1; Show 1; Rearrange 2 Maximized].
Lemma maximized_twice_fine : moderate_sizes maximized_twice /\ all_titles (plain_title WindowsApi) maximized_twice /\
  all_titles (plain_title MacOS) maximized_twice /\ no_questions maximized_twice /\ never_minimized maximized_twice.
Proof.
  assert (P : forall k c, scalar c -> c <> 0 -> bmp c -> plain_title k (encode UTF8 [c])).
  { intros k c H1 H2 H3. exists [c]. split; [|reflexivity]. repeat constructor; auto; apply H1. }
  split; [repeat constructor; unfold moderate; lia|]. split; [|split; [|split; repeat constructor; discriminate]].
  - repeat constructor; [apply (P WindowsApi 0x41)|apply (P WindowsApi 0x42)]; unfold scalar, bmp; lia.
  - repeat constructor; [apply (P MacOS 0x41)|apply (P MacOS 0x42)]; unfold scalar, bmp; lia.
Qed.
Example C91_example : exists dk dw,
  looks keeps maximized_twice nothing = Some dk /\ view 1 dk = Some Maximized /\ view 2 dk = None /\
  looks (fun _ => Standard) maximized_twice nothing = Some dw /\ view 1 dw = Some Standard.
Proof. eexists _, _. repeat split; reflexivity. Qed.

Theorem C91_again_refuted :
  ~ (forall d rst l dk, moderate_display d -> moderate_sizes l -> all_titles (plain_title WindowsApi) l -> no_questions l ->
       looks keeps l nothing = Some dk ->
       exists replies s, run_all WindowsApi d rst l start = Ok (replies, s) /\ forall o, on_screen o s = view o dk).
Proof.
  intro H. destruct C91_example as (dk & dw & E1 & V1 & _ & E2 & V2).
  destruct maximized_twice_fine as (F1 & F2 & _ & F3 & _).
  destruct (H desktop false maximized_twice dk desktop_moderate F1 F2 F3 E1) as (r1 & s1 & R1 & A1).
  destruct (C91_windows desktop false maximized_twice dw desktop_moderate F1 F2 F3 E2) as (r2 & s2 & R2 & A2).
  rewrite R1 in R2. injection R2 as <- <-. specialize (A1 1). specialize (A2 1). congruence.
Qed.
Print Assumptions C91_again_refuted.

(** On macOS a minimized window that is shown may be restored. *)
Theorem C91_minimized_refuted :
  ~ (forall rst l dk, moderate_sizes l -> all_titles (plain_title MacOS) l -> no_questions l ->
       looks keeps l nothing = Some dk ->
       exists replies s, run_all MacOS desktop rst l start = Ok (replies, s) /\ forall o, on_screen o s = view o dk).
Proof.
  intro H.
  destruct (H true [Construct 1 640 480 [0x41] Minimized (Some 70); Show 1]
              {| panes := [(1, Pane {| shown := true; shape := Minimized; seen := true |}); (1, Pane {| shown := false; shape := Minimized; seen := false |})]; used := [70] |}) as (reps & s & R & A).
  - repeat constructor; unfold moderate; lia.
  - repeat constructor. exists [0x41]. split; [|reflexivity]. repeat constructor; unfold scalar; try lia; discriminate.
  - repeat constructor; discriminate.
  - reflexivity.
  - revert R. vm_compute. intro R. injection R as <- <-. specialize (A 1). revert A. vm_compute. discriminate.
Qed.
Print Assumptions C91_minimized_refuted.

(* ------------------------------------------------------------------- C92 *)

(** On Windows, whatever bytes are given as a title: either they can be decoded and the call
    goes on, or an exception says that they cannot and nothing has changed: not the object,
    not its window, and no window is left over. *)
Theorem C92_refused_title_partial : forall d rst s o t, Forall (fun u => u < 256) t -> get o (objects s) <> None ->
  let refused r := ~ (exists l, loose_text UTF8 t l) /\ exists e, (e = InvalidUnicodeEncoding \/ e = IteratedPastEnd) /\ r = Ok (Refused e, s) in
  let goes_on r := (exists l, loose_text UTF8 t l) /\ exists rep s', r = Ok (rep, s') /\ forall e, rep <> Refused e in
  (refused (run WindowsApi d rst (SetTitle o t) s) \/ goes_on (run WindowsApi d rst (SetTitle o t) s)) /\
  (forall w h m c, moderate_display d -> moderate w -> moderate h -> (forall x, get o (objects s) = Some x -> handle x = None) ->
     refused (run WindowsApi d rst (Open o w h t m c) s) \/ goes_on (run WindowsApi d rst (Open o w h t m c) s)) /\
  (forall w h m c o', moderate_display d -> moderate w -> moderate h -> get o' (objects s) = None ->
     refused (run WindowsApi d rst (Construct o' w h t m c) s) \/ goes_on (run WindowsApi d rst (Construct o' w h t m c) s)).
Proof.
  intros d rst s o t T G refused goes_on.
  destruct (get o (objects s)) as [x|] eqn:Gx; [|congruence].
  split; [|split].
  - cbn [run]. unfold set_title, with_object, with_native. rewrite Gx.
    destruct (to_wide_exact t T) as [(L & w & ->)|(L & [-> | ->])]; cbn [bind].
    + right. split; [exact L|]. destruct (handle x) as [h|]; [|exists Done, s; split; [reflexivity|discriminate]].
      destruct (get h (natives s)) as [[v|]|]; eexists _, _; (split; [reflexivity|discriminate]).
    + left. split; [exact L|]. eauto.
    + left. split; [exact L|]. eauto.
  - intros w h m c D W H E. cbn [run]. unfold open_window, with_object. rewrite Gx, (E x eq_refl).
    destruct (to_wide_exact t T) as [(L & v & ->)|(L & [-> | ->])]; cbn [bind].
    + rewrite place_ok by assumption. cbn [bind]. right. split; [exact L|].
      destruct c; eexists _, _; (split; [reflexivity|discriminate]).
    + left. split; [exact L|]. eauto.
    + left. split; [exact L|]. eauto.
  - intros w h m c o' D W H E. cbn [run]. unfold construct, open_window, with_object. cbn [with_objects objects]. rewrite get_put_same. cbn [handle].
    destruct (to_wide_exact t T) as [(L & v & ->)|(L & [-> | ->])]; cbn [bind].
    + rewrite place_ok by assumption. cbn [bind]. right. split; [exact L|].
      destruct c; eexists _, _; (split; [reflexivity|discriminate]).
    + left. split; [exact L|]. eexists. split; [left; reflexivity|]. destruct s; reflexivity.
    + left. split; [exact L|]. eexists. split; [right; reflexivity|]. destruct s; reflexivity.
Qed.
Print Assumptions C92_refused_title_partial.
Example C92_example : exists s,
  run_all WindowsApi desktop false [Construct 1 640 480 [0x41] Standard None; Open 1 640 480 [0x41; 0xC3] Standard (Some 70); Open 1 640 480 [0x41] Standard (Some 71);
    SetTitle 1 [0x80]; GetTitle 1] start =
  Ok ([Done; Refused IteratedPastEnd; Opened true; Refused InvalidUnicodeEncoding; Title [0x41]], s).
Proof. eexists. vm_compute. reflexivity. Qed.

(** With GTK all bytes without zero are taken, and given back. *)
Theorem C92_gtk_partial : forall d rst s o t x h w, Forall (fun u => u <> 0) t ->
  get o (objects s) = Some x -> handle x = Some h -> get h (natives s) = Some (Some w) ->
  exists s', run Gtk d rst (SetTitle o t) s = Ok (Done, s') /\ run Gtk d rst (GetTitle o) s' = Ok (Title t, s').
Proof.
  intros d rst s o t x h w T G E Gn. cbn [run]. unfold set_title, get_title, with_object, with_native. rewrite G, E, Gn.
  eexists. split; [reflexivity|]. cbn [update_native with_natives objects natives]. rewrite G, E, get_put_same.
  cbn [bind set_text text]. rewrite c_string_nonzero by assumption. reflexivity.
Qed.
Print Assumptions C92_gtk_partial.

(** On macOS a refused title leaves the object with a window that is not associated with it:
    moving the object, or the user closing the window, is undefined. *)
Theorem C92_macos_refuted : forall d rst, exists replies s,
  run_all MacOS d rst [Construct 1 640 480 [0x41] Standard None; Open 1 640 480 [0xFF] Standard (Some 70)] start = Ok (replies, s) /\
  replies = [Done; ToolkitException] /\
  run MacOS d rst (Move 2 1) s = UB DerefEnd /\
  run MacOS d rst (UserClose 1) s = UB NoReturn /\
  run MacOS d rst (Open 1 640 480 [0x41] Standard (Some 71)) s = Ok (Opened false, s).
Proof. intros d rst. eexists _, _. repeat split; reflexivity. Qed.
Print Assumptions C92_macos_refuted.

(** On macOS, the titles refused are exactly those that are not UTF-8; set_title then raises an
    exception and changes nothing, and otherwise the window has the new title.  Missing: open
    and the constructor, which leave a window behind (C92_macos_refuted). *)
Theorem C92_macos_set_title_partial : forall d rst s o t x h w, Forall (fun u => u <> 0) t ->
  get o (objects s) = Some x -> handle x = Some h -> get h (natives s) = Some (Some w) ->
  (~ well_formed UTF8 t /\ run MacOS d rst (SetTitle o t) s = Ok (ToolkitException, s)) \/
  (well_formed UTF8 t /\ exists s', run MacOS d rst (SetTitle o t) s = Ok (Done, s') /\ run MacOS d rst (GetTitle o) s' = Ok (Title t, s')).
Proof.
  intros d rst s o t x h w T G E Gn. cbn [run]. unfold set_title, get_title, with_object, with_native. rewrite G, E, Gn.
  rewrite c_string_nonzero by assumption. destruct (valid_utf8 0 0 0 t) eqn:V.
  - right. split; [now apply valid_exactly|].
    eexists. split; [reflexivity|]. cbn [update_native with_natives objects natives]. rewrite G, E, get_put_same. reflexivity.
  - left. split; [|reflexivity]. intro W. apply valid_exactly in W. congruence.
Qed.
Print Assumptions C92_macos_set_title_partial.
Example C92_macos_example :
  ~ well_formed UTF8 [0xED; 0xA0; 0x80] /\ ~ well_formed UTF8 [0xE0; 0x80; 0x80] /\ well_formed UTF8 [0xED; 0x9F; 0xBF] /\
  exists s, run_all MacOS desktop false
    [Construct 1 640 480 [0x41] Standard (Some 70); SetTitle 1 [0xED; 0xA0; 0x80]; GetTitle 1] start =
  Ok ([Done; ToolkitException; Title [0x41]], s).
Proof.
  rewrite <- !valid_exactly. split; [vm_compute; discriminate|]. split; [vm_compute; discriminate|]. split; [reflexivity|].
  eexists. vm_compute. reflexivity.
Qed.

(* ------------------------------------------------------------------- C93 *)

(** The edges left and right, and above and below, of a rectangle on the screen. *)
Definition centred (screen position size : Z) : Prop := (Z.abs (position - (screen - (position + size))) <= 1)%Z.

(** A new window on Windows has the size inside that was asked for, and is in the middle of
    the screen, to one pixel, whatever the frame. *)
Theorem C93_centred : forall d rst l dk o width height t m h,
  moderate_display d -> moderate_sizes l -> all_titles (plain_title WindowsApi) l -> titles l nothing = Some dk ->
  get o (panes dk) = Some Empty -> moderate width -> moderate height -> plain_title WindowsApi t ->
  exists replies s s' w, run_all WindowsApi d rst l start = Ok (replies, s) /\
    run WindowsApi d rst (Open o width height t m (Some h)) s = Ok (Opened true, s') /\
    native_of o s' = Some w /\ inside w = (width, height) /\
    centred (screen_width d) (fst (corner w)) (frame_left d + width + frame_right d) /\
    centred (screen_height d) (snd (corner w)) (frame_top d + height + frame_bottom d).
Proof.
  intros d rst l dk o width height t m h D S T E G W H P.
  destruct (titles_simulated WindowsApi d rst l nothing start dk D (fine_requests WindowsApi l T S) ltac:(discriminate) (start_matches _) E) as (reps & s & R & (M & _)).
  specialize (M o). rewrite G in M. destruct (get o (objects s)) as [x|] eqn:Gx; [|destruct M]. cbn [object_right] in M.
  destruct (opened WindowsApi d o width height t m (Some h) s x D W H P Gx M) as (w & Ro & _ & _ & _ & I & C).
  specialize (C eq_refl). rewrite place_ok in C by assumption. injection C as C.
  exists reps, s, (install o h w m true s), w. split; [exact R|]. split; [exact Ro|]. split; [|split; [exact I|]].
  - unfold native_of, install. cbn [with_natives with_objects with_associations objects natives]. rewrite !get_put_same. cbn [handle]. rewrite get_put_same. reflexivity.
  - rewrite <- C. cbn [fst snd]. unfold centred.
    assert (Q : forall a, (Z.abs (2 * Z.quot a 2 - a) <= 1)%Z).
    { intro a. pose proof (Z.quot_rem a 2 ltac:(lia)). pose proof (Z.rem_bound_abs a 2 ltac:(lia)). lia. }
    split.
    + specialize (Q (screen_width d - (width + frame_right d + frame_left d))%Z). lia.
    + specialize (Q (screen_height d - (height + frame_bottom d + frame_top d))%Z). lia.
Qed.
Print Assumptions C93_centred.
Example C93_example :
  match run_all WindowsApi desktop false [Construct 1 641 480 [0x41] Standard (Some 70)] start with
  | Ok (_, s) => native_of 1 s | _ => None end =
  Some {| text := [0x41]; visible := false; placement := Standard; inside := (641, 480)%Z; corner := (631, 280)%Z |}.
Proof. vm_compute. reflexivity. Qed.
