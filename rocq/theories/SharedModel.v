(** Model of transparent container resources whose container is also used by its
    owner or by another resource: /repo/api/src/cmp/io/transparent_container_*_resource.ipp,
    impl/ctr_essence.ipp. *)
From Coq Require Import NArith ZArith List Bool.
From Verif Require Import Base Integers ResourceModel.
Import ListNotations.
Open Scope Z_scope.

(** ctr_essence.ipp 14-52: the resource holds a pointer to the container, so every
    call works on the content the container has at that time
    (transparent_container_input_resource.ipp 12-26,
    transparent_container_output_resource.ipp 12-26). *)
Definition look_at (r : resource container) (l : list N) : resource container :=
  Resource (Container l (elem (inner r)) (position (inner r)) (last_fill (inner r))) (buf r).

(** A container, an output resource and an input resource on it.
    transparent_container_input_resource.ipp 12-26 and transparent_container_output_resource.ipp:
    both hold a pointer to the container. *)
Record shared : Type := Shared {
  owned : list N;
  writer : resource container;
  reader : resource container }.

(** output_resource.cpp 21-31 on the shared container *)
Definition shared_write (s : shared) (data : list N) : outcome (shared * Z) :=
  bind (write container_ops (look_at (writer s) (owned s)) data) (fun '(w, k) =>
  Ok (Shared (content (inner w)) w (reader s), k)).

(** output_resource.cpp 33-40 on the shared container *)
Definition shared_flush (s : shared) : outcome shared :=
  bind (flush container_ops (look_at (writer s) (owned s))) (fun w =>
  Ok (Shared (content (inner w)) w (reader s))).

(** input_resource.cpp 22-35 on the shared container, without a tied resource *)
Definition shared_read (s : shared) (dst : list N) (n : Z) : outcome (shared * list N * Z) :=
  bind (read container_ops (look_at (reader s) (owned s)) dst n) (fun '(r, dst, k) =>
  Ok (Shared (owned s) (writer s) r, dst, k)).

(** input_resource.cpp 22-35 with the output resource tied to the input resource *)
Definition shared_read_tied (s : shared) (dst : list N) (n : Z) : outcome (shared * list N * Z) :=
  bind (shared_flush s) (fun s => shared_read s dst n).

(** seekable_output_resource.ipp 26-38 on the shared container *)
Definition shared_seek (s : shared) (new : Z) (pr : position_reference) : outcome shared :=
  bind (seek_output (look_at (writer s) (owned s)) new pr) (fun w =>
  Ok (Shared (content (inner w)) w (reader s))).

(** The constructors, transparent_container_input_resource.ipp 12-26 and
    transparent_container_output_resource.ipp 12-26, with buffers of the given
    capacities. *)
Definition share (l : list N) (sizeof : Z) (wcap rcap : nat) : shared :=
  Shared l (new_resource l sizeof wcap) (new_resource l sizeof rcap).
