(** Logs of text.  Independent of the model. *)
From Coq Require Import NArith ZArith List Bool.
From Verif Require Import UnicodeSpec ResourceSpec StreamSpec FileSpec CrashSpec DiarySpec JournalSpec.
Import ListNotations.
Open Scope Z_scope.

(** ASCII without carriage returns. *)
Definition simple_text (l : list N) : Prop := Forall (fun c => c < 128 /\ c <> 13)%N l.

(** Lines of characters, each with a line feed behind it. *)
Definition with_feeds (lines : list (list N)) : list N := concat (map (fun line => line ++ [10%N]) lines).

(** A line of characters that the standard allows, none of which ends a line. *)
Definition proper_line (line : list N) : Prop := Forall scalar line /\ ~ In 10%N line /\ ~ In 13%N line.

(** A program that logs lines of text in an encoding and byte order, and flushes after each. *)
Definition logs_texts (e : encoding) (o : byte_order) (lines : list (list N)) : list call :=
  flat_map (fun line => [Write (text_bytes e o (line ++ [10%N])); Flush]) lines.
