(** Independent specification of elapsed times and of the counter of the example
    program.  Imports nothing of the model. *)
From Coq Require Import NArith ZArith List Bool.
From Verif Require Import NumeralSpec.
Import ListNotations.
Open Scope Z_scope.

(** Nanoseconds in a second. *)
Definition billion : Z := 1000000000.

(** The number x / u differs from n nanoseconds, in seconds, by at most k parts in 2^m
    of them. *)
Definition within (k m x u n : Z) : Prop := Z.abs (x * billion - n * u) * 2 ^ m <= k * (n * u).

Definition total_of (ds : list Z) : Z := fold_right Z.add 0 ds.

(** What happens to the demo window: it is updated when it has been open for n
    nanoseconds, or a key goes down. *)
Inductive occurrence : Type := Update (n : Z) | SpaceBar | OtherKey.

(** Times do not go backwards. *)
Fixpoint forward (from : Z) (l : list occurrence) : Prop :=
  match l with
  | [] => True
  | Update n :: l => from <= n /\ forward n l
  | _ :: l => forward from l
  end.

Definition before_time (limit : Z) (l : list occurrence) : Prop :=
  Forall (fun o => match o with Update n => n < limit | _ => True end) l.

(** The space bar switches the counter on and off. *)
Fixpoint counting (on : bool) (l : list occurrence) : bool :=
  match l with
  | [] => on
  | SpaceBar :: l => counting (negb on) l
  | _ :: l => counting on l
  end.

(** The whole seconds of the updates that happened while the counter was on. *)
Fixpoint counted (on : bool) (l : list occurrence) : list Z :=
  match l with
  | [] => []
  | Update n :: l => (if on then [n / billion] else []) ++ counted on l
  | SpaceBar :: l => counted (negb on) l
  | OtherKey :: l => counted on l
  end.

(** Those since the space bar was last pressed, and those before. *)
Fixpoint since_space (l : list occurrence) : list occurrence :=
  match l with
  | [] => []
  | o :: l => if existsb (fun o => match o with SpaceBar => true | _ => false end) l then since_space l
              else match o with SpaceBar => l | _ => o :: l end
  end.

(** "1,234s" *)
Definition seconds_text (k : Z) (s : list N) : Prop :=
  exists digits, numeral 10 false (Some 44%N) k digits /\ s = digits ++ [115%N].

(** The title of the window after these occurrences: its name while the counter is off,
    and while it is on until a second is counted that was not counted before it was last
    switched on; from then on the whole seconds of the last update. *)
Definition titled (name : list N) (l : list occurrence) (title : list N) : Prop :=
  let now := counted true (since_space l) in
  let before := firstn (length (counted false l) - length now) (counted false l) in
  if counting false l then
    match rev now with
    | k :: _ => if forallb (fun j => j <? k) before then seconds_text k title else title = name
    | [] => title = name
    end
  else title = name.
