(** The calls a stream makes on its resource: /repo/api/src/cmp/io/output_stream.ipp 89-121.
    The streams of StreamModel.v are run with a resource that writes down the calls. *)
From Coq Require Import NArith ZArith List Bool.
From Verif Require Import Base Integers UnicodeSpec UnicodeModel StreamSpec ResourceSpec ResourceModel StreamModel StreamText
  TextFileSpec TextFileText DataFileText FileSpec FileModel FileText CrashModel.
Import ListNotations.
Open Scope Z_scope.

(** Models no class of /repo: a resource that writes down what is called. *)
Definition note : sink (list call) :=
  Sink (list call) (fun cs d => Ok (cs ++ [Write d], size_of d)) (fun cs => Ok (cs ++ [Flush])).

(** text_output_stream.ipp, output_stream.ipp 89-121: the calls for these entries *)
Definition calls_of_entries (native : endian) (cs : bool) (e : encoding) (o : byte_order) (ps : list (entry * ukind))
  : outcome (list call) :=
  bind (make_entries native cs note (TextOutput [] (order_of o) (form_of e)) ps) (fun st => Ok (out_res st)).

(** data_output_stream.ipp 26-66, output_stream.ipp 89-121: the calls for these values *)
Definition calls_of_values (native : endian) (o : byte_order) (vs : list (nat * N)) : outcome (list call) :=
  send_values native note (order_of o) [] vs.

(** The process is killed after the calls [before], in the next of the calls cs on a file:
    between two of its system calls, or (torn) in one.  d is what is on the disk then.
    file.cpp 68-81, output_resource.cpp 33-40, as in CrashModel.v. *)
Definition killed_in (pl : platform) (f : file) (cs : list call) (torn : bool) (before : list call)
    (d : N -> option (list N)) : Prop :=
  exists c later f' answers f'' a tries,
    cs = before ++ c :: later /\ run_file pl f before = Ok (f', answers) /\
    watched_call pl f' c = Ok (f'', a, tries) /\ left_by_kill torn (disk_of f') tries d.
