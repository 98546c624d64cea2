(** Texts and values of a killed process.  Independent of the model. *)
From Coq Require Import NArith ZArith List Bool.
From Verif Require Import Integers UnicodeSpec StreamSpec ResourceSpec CrashSpec.
Import ListNotations.
Open Scope Z_scope.

(** The writes of these calls are the characters of a text, every write whole characters. *)
Inductive spells (e : encoding) (o : byte_order) : list call -> list N -> Prop :=
| SpellsNothing : spells e o [] []
| SpellsMore : forall cs l t, spells e o cs l -> spells e o (cs ++ [Write (text_bytes e o t)]) (l ++ t)
| SpellsFlush : forall cs l, spells e o cs l -> spells e o (cs ++ [Flush]) l.

(** Every character is written at once: no characters of two code units in UTF-16 that is
    not in the byte order of the machine. *)
Definition at_once (native : byte_order) (e : encoding) (o : byte_order) (l : list N) : Prop :=
  e <> UTF16 \/ o = native \/ Forall (fun c => (c < 0x10000)%N) l.

(** The bytes b hold what was written by the calls [before] up to the last flush among
    them, and all that these calls wrote but what fits into a buffer of [cap] bytes. *)
Definition enough (cap : Z) (before : list call) (b : list N) : Prop :=
  len (written before) <= len b + cap /\
  forall flushed later, before = flushed ++ Flush :: later -> prefix_of (written flushed) b.
