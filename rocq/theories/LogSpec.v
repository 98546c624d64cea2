(** Test functions that log messages, and what should be seen of them on a terminal.
    Independent of the model. *)
From Coq Require Import NArith List Bool Ascii String.
From Verif Require Import NumeralSpec TestSpec ReportSpec.
Import ListNotations.
Open Scope N_scope.

(** A test function as in TestSpec.v that may also log informational messages and
    errors.  [ended]: it ends the message with std::endl, not with a character (of
    the text) or nothing; the text then is followed by a newline. *)
Inductive ltest : Type :=
| LReturn (success : bool)
| LRaise
| LStartTest (name : list N) (rest : ltest)
| LEndStage (rest : ltest)
| LPushMessage (m : message) (rest : ltest)
| LPopMessage (rest : message -> ltest)
| LClearMessages (rest : ltest)
| LCountMessages (rest : N -> ltest)
| LogInfo (text : list N) (ended : bool) (rest : ltest)
| LogError (text : list N) (ended : bool) (rest : ltest).

(** The same without the messages. *)
Fixpoint silent (t : ltest) : test :=
  match t with
  | LReturn b => Return b
  | LRaise => Raise
  | LStartTest n t' => StartTest n (silent t')
  | LEndStage t' => EndStage (silent t')
  | LPushMessage m t' => PushMessage m (silent t')
  | LPopMessage k => PopMessage (fun m => silent (k m))
  | LClearMessages t' => ClearMessages (silent t')
  | LCountMessages k => CountMessages (fun n => silent (k n))
  | LogInfo _ _ t' | LogError _ _ t' => silent t'
  end.

(** What a test function announces or says. *)
Inductive happening : Type :=
| Announced (e : event)
| Informed (text : list N) (ended : bool)
| Warned (text : list N) (ended : bool).

(** In order, for a test function run with the given messages waiting; and its verdict, or
    nothing if it throws. *)
Fixpoint heard (t : ltest) (queue : list message) : list happening * option bool :=
  match t with
  | LReturn b => ([], Some b)
  | LRaise => ([], None)
  | LStartTest n t' => let '(hs, b) := heard t' queue in (Announced (Started n) :: hs, b)
  | LEndStage t' => let '(hs, b) := heard t' queue in (Announced StageEnded :: hs, b)
  | LPushMessage m t' => heard t' (queue ++ [m])
  | LPopMessage k =>
      match queue with
      | [] => heard (k EmptyMessage) []
      | m :: queue' => heard (k m) queue'
      end
  | LClearMessages t' => heard t' []
  | LCountMessages k => heard (k (N.of_nat (List.length queue) mod 2 ^ 32)) queue
  | LogInfo x e t' => let '(hs, b) := heard t' queue in (Informed x e :: hs, b)
  | LogError x e t' => let '(hs, b) := heard t' queue in (Warned x e :: hs, b)
  end.

Definition all_heard (ts : list ltest) (hss : list (list happening)) (bs : list bool) : Prop :=
  map (fun t => heard t []) ts = combine hss (map Some bs) /\
  List.length hss = List.length ts /\ List.length bs = List.length ts.

Definition events_of (hs : list happening) : list event :=
  flat_map (fun h => match h with Announced e => [e] | _ => [] end) hs.

(** A terminal shows characters of the standard output and of the standard error. *)
Inductive channel : Type := Normal | Error.
Definition on (c : channel) (s : list N) : list (channel * N) := map (fun x => (c, x)) s.

Definition is_normal (c : channel) : bool := match c with Normal => true | Error => false end.

(** What has been written to the standard output. *)
Definition normal (screen : list (channel * N)) : list N :=
  map snd (filter (fun x => is_normal (fst x)) screen).

Definition message_text (text : list N) (ended : bool) : list N := if ended then ln text else text.

(** [screen] shows [hs], everything in its order, after [before] has been announced; test
    numbers are w digits wide. *)
Fixpoint happenings_shown (w : nat) (before : list event) (hs : list happening) (screen : list (channel * N)) : Prop :=
  match hs with
  | [] => screen = []
  | Announced e :: hs' =>
      exists text rest, events_text w before [e] text /\ screen = on Normal text ++ rest /\
      happenings_shown w (before ++ [e]) hs' rest
  | Informed text ended :: hs' =>
      exists rest, screen = on Normal (lit "info: " ++ message_text text ended) ++ rest /\ happenings_shown w before hs' rest
  | Warned text ended :: hs' =>
      exists rest, screen = on Error (lit "error: " ++ message_text text ended) ++ rest /\ happenings_shown w before hs' rest
  end.

Fixpoint tests_shown (w : nat) (before : list event) (hss : list (list happening)) (bs : list bool)
    (screen : list (channel * N)) : Prop :=
  match hss, bs with
  | [], [] => screen = []
  | hs :: hss', b :: bs' =>
      exists s1 t2 rest, happenings_shown w before hs s1 /\ end_text w (before ++ events_of hs) b t2 /\
      screen = s1 ++ on Normal t2 ++ rest /\ tests_shown w (before ++ events_of hs) hss' bs' rest
  | _, _ => False
  end.

(** Everything. *)
Definition report_shown (w : nat) (hss : list (list happening)) (bs : list bool) (screen : list (channel * N)) : Prop :=
  exists s1 t2 t3, tests_shown w [] hss bs s1 /\
  totals_text (count_true bs mod 2 ^ 16) (count_false bs) t2 /\
  failures_text (failures [] (map events_of hss) bs) t3 /\ screen = s1 ++ on Normal (t2 ++ t3).

(** The lines of a text, with the newlines. *)
Fixpoint lines_of (line l : list N) : list (list N) :=
  match l with
  | [] => match line with [] => [] | _ => [line] end
  | c :: l' => if c =? 10 then (line ++ [c]) :: lines_of [] l' else lines_of (line ++ [c]) l'
  end.
Definition lines (l : list N) : list (list N) := lines_of [] l.

Fixpoint begins_with (p l : list N) : bool :=
  match p, l with
  | [], _ => true
  | x :: p', y :: l' => (x =? y) && begins_with p' l'
  | _, _ => false
  end.

(** A text without the lines that are messages. *)
Definition without_messages (l : list N) : list N :=
  List.concat (filter (fun x => negb (begins_with (lit "info: ") x)) (lines l)).

(** A message that is one line of its own. *)
Definition whole_line (text : list N) (ended : bool) : Prop :=
  exists s, one_line s /\ message_text text ended = ln s.

(** Names and informational messages are one line each. *)
Definition orderly (h : happening) : Prop :=
  match h with
  | Announced (Started name) => one_line name
  | Informed text ended => whole_line text ended
  | _ => True
  end.

(** The last thing that happened made the output visible. *)
Definition settled (hs : list happening) : Prop :=
  match last hs (Announced StageEnded) with Informed _ ended => ended = true | _ => True end.
