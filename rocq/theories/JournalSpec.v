(** Lines in a log.  Independent of the model. *)
From Coq Require Import NArith ZArith List Bool.
From Verif Require Import ResourceSpec FileSpec DiarySpec.
Import ListNotations.
Open Scope Z_scope.

(** A program that logs lines: each is written with a line feed (10) behind it, then it is
    flushed. *)
Definition logs_lines (ls : list (list N)) : list call := flat_map (fun line => [Write (line ++ [10%N]); Flush]) ls.

(** Bytes after which a new line begins. *)
Definition line_begins (a : list N) : Prop := a = [] \/ exists b, a = b ++ [10%N].

(** A line as it is found by readers: it has no line feed in it, a line feed is behind it, and
    before it there is one, too, or nothing. *)
Definition is_line (content line : list N) : Prop :=
  exists a b, content = a ++ line ++ 10%N :: b /\ line_begins a /\ ~ In 10%N line.

(** The flush of [line], which is behind the lines [before], has returned. *)
Definition reported (r : run) (before : list (list N)) (line : list N) : Prop :=
  ~ In 10%N line /\ exists after more, does r = logs_lines (before ++ line :: after) /\ returned r = logs_lines (before ++ [line]) ++ more.

(** The run before came to its end and logged something, or there is none. *)
Definition left_whole (earlier : list (nat * run)) : Prop :=
  earlier = [] \/ exists rs cap r, earlier = rs ++ [(cap, r)] /\ finished r = true /\ does r <> [].
