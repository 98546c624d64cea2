(** Records of one size in a file.  Independent of the model. *)
From Coq Require Import NArith ZArith List Bool.
From Verif Require Import ResourceSpec FileSpec CrashSpec DiarySpec.
Import ListNotations.
Open Scope Z_scope.

(** The whole records of n bytes that some bytes begin with. *)
Definition whole (n : Z) (l : list N) : list N := take (len l / n * n) l.

(** A record that is found by readers: n bytes from a multiple of n. *)
Definition is_record (n : Z) (content record : list N) : Prop :=
  len record = n /\ exists a b, content = a ++ record ++ b /\ len a mod n = 0.

(** A flush behind the record has returned; what the run wrote before it are whole records. *)
Definition recorded (n : Z) (r : run) (record : list N) : Prop :=
  exists a b rest x, does r = a ++ rest /\ returned r = a ++ Flush :: b /\ written a = x ++ record /\ len x mod n = 0 /\ len record = n.
