(** Model of the standard streams:
    U: /repo/api/src/cmp/io/impl/unix_like/unix_like_uin.cpp, unix_like_uout.cpp
    W: /repo/api/src/cmp/io/impl/windows/windows_uin.cpp, windows_uout.cpp
    impl/common/common_uio.cpp, uio.cpp, and the order in which their static objects
    are constructed (definitions.cpp).

    The buffering is that of ResourceModel.v, the streams are those of StreamModel.v. *)
From Coq Require Import NArith ZArith List Bool.
From Verif Require Import Base Integers UnicodeModel ResourceModel StreamModel StdioSpec.
Import ListNotations.
Open Scope Z_scope.

(** include/cmp/core/platform.hpp: which of the two sources is compiled *)
Inductive platform : Type := UnixLike | Windows.

(* -------------------------------------------------------- operating system *)

(** What is to come from the standard input, how the next writes are received (when
    there is nothing left: in full), and what happened so far.  The operating system, not code of
    /repo. *)
Record console : Type := Console {
  arrivals : list arrival;
  acceptances : list acceptance;
  log : list happening }.

(** ::read, ReadConsoleW: waits for the next bytes and gives at most count of them;
    None for an error.  When nothing is to come any more, the input has ended, and no bytes
    are given.  Not part of /repo. *)
Definition sys_read (c : console) (count : Z) : console * option (list N) :=
  match arrivals c with
  | [] => (Console [] (acceptances c) (log c ++ [Waited []]), Some [])
  | Fails :: l => (Console l (acceptances c) (log c ++ [Waited []]), None)
  | Arrives b :: l =>
      let d := firstn (Z.to_nat count) b in
      let l := match skipn (Z.to_nat count) b with [] => l | rest => Arrives rest :: l end in
      (Console l (acceptances c) (log c ++ [Waited d]), Some d)
  end.

(** ::write, WriteFile: None for an error.  Called in unix_like_uout.cpp 39, windows_uout.cpp 41. *)
Definition sys_write (ch : channel) (c : console) (data : list N) : console * option Z :=
  let accept d l := (Console (arrivals c) l (log c ++ [Shown ch d]), Some (size_of d)) in
  match acceptances c with
  | [] => accept data []
  | InFull :: l => accept data l
  | AtMost k :: l => accept (firstn (Z.to_nat k) data) l
  | Refused :: l => (Console (arrivals c) l (log c), None)
  end.

(* --------------------------------------------------------------- resources *)

(** U uin 33-40: the result -1 becomes a size_t.  W uin 34-49: whole UTF-16 units are
    read; their number is never initialized, and ReadConsoleW does not set it when it
    fails. *)
Definition stdin_read_raw (pl : platform) (c : console) (dst : list N) (off n : Z) (rr : read_request)
  : outcome (console * list N * Z) :=
  match pl with
  | UnixLike =>
      match sys_read c n with
      | (c, Some d) => bind (blit dst off d) (fun dst => Ok (c, dst, size_of d))
      | (c, None) => Ok (c, dst, 2 ^ 64 - 1)
      end
  | Windows =>
      match sys_read c ((n / 2) mod 2 ^ 32 * 2) with
      | (c, Some d) => bind (blit dst off d) (fun dst => Ok (c, dst, size_of d))
      | (_, None) => UB Indeterminate
      end
  end.

(** U uout 34-44, W uout 35-49 (the size becomes a DWORD) *)
Definition stdout_write_raw (pl : platform) (ch : channel) (c : console) (data : list N) : outcome (console * Z) :=
  let data :=
    match pl with
    | UnixLike => data
    | Windows => firstn (Z.to_nat (size_of data mod 2 ^ 32)) data
    end in
  let '(c, r) := sys_write ch c data in
  Ok (c, match r with Some k => k | None => 0 end).

(** An input resource is not written to, an output resource is not read from.  unix_like_uin.cpp
    33-40, windows_uin.cpp 34-49. *)
Definition stdin_ops (pl : platform) : raw console := Raw console (stdin_read_raw pl) (fun _ _ => UB NoReturn).
(** unix_like_uout.cpp 34-44, windows_uout.cpp 35-49: the virtual functions of an output resource *)
Definition stdout_ops (pl : platform) (ch : channel) : raw console :=
  Raw console (fun _ _ _ _ _ => UB NoReturn) (stdout_write_raw pl ch).

(** uin_resource, uout_resource and uerr_resource: their buffers, and the console
    behind them.  unix_like_uin.cpp 56, unix_like_uout.cpp 48-56, windows_uin.cpp 65,
    windows_uout.cpp 53-61. *)
Record stdio : Type := Stdio {
  os : console;
  uin_buffer : buffer;
  uout_buffer : buffer;
  uerr_buffer : buffer }.

(** U uin 56, U uout 48-56, W uin 65, W uout 53-61: the capacities are CMP_CONFIG_DEFAULT_STDIN_BUFFER_CAPACITY and so on. *)
Definition new_stdio (c : console) (cap_in cap_out cap_err : nat) : stdio :=
  Stdio c (new_buffer cap_in) (new_buffer cap_out) (new_buffer cap_err).

(** input_resource.cpp 22-35: uin_resource.read; uout_resource is tied to it (U uin
    12-20, W uin 12-21). *)
Definition uin_read (pl : platform) (s : stdio) (dst : list N) (n : Z) : outcome (stdio * list N * Z) :=
  bind (flush (stdout_ops pl StandardOutput) (Resource (os s) (uout_buffer s))) (fun out =>
  bind (read (stdin_ops pl) (Resource (inner out) (uin_buffer s)) dst n) (fun '(r, dst, k) =>
  Ok (Stdio (inner r) (buf r) (buf out) (uerr_buffer s), dst, k))).

Definition out_buffer (ch : channel) (s : stdio) : buffer :=
  match ch with StandardOutput => uout_buffer s | StandardError => uerr_buffer s end.
Definition with_out (ch : channel) (s : stdio) (r : resource console) : stdio :=
  match ch with
  | StandardOutput => Stdio (inner r) (uin_buffer s) (buf r) (uerr_buffer s)
  | StandardError => Stdio (inner r) (uin_buffer s) (uout_buffer s) (buf r)
  end.

(** output_resource.cpp 21-40: uout_resource.write and uerr_resource.write, flush *)
Definition out_write (pl : platform) (ch : channel) (s : stdio) (data : list N) : outcome (stdio * Z) :=
  bind (write (stdout_ops pl ch) (Resource (os s) (out_buffer ch s)) data) (fun '(r, k) => Ok (with_out ch s r, k)).
Definition out_flush (pl : platform) (ch : channel) (s : stdio) : outcome stdio :=
  bind (flush (stdout_ops pl ch) (Resource (os s) (out_buffer ch s))) (fun r => Ok (with_out ch s r)).

(* ----------------------------------------------------------------- streams *)

(** The stdin_resource of a stream; is_at_end is U uin 24-29, W uin 25-30. *)
Definition uin_source (pl : platform) : source stdio := Source stdio (uin_read pl) (fun _ => Ok false).
Definition out_sink (pl : platform) (ch : channel) : sink stdio := Sink stdio (out_write pl ch) (out_flush pl ch).

(** uio.cpp 8, U uin 46-52, W uin 55-61: uin *)
Definition uin (pl : platform) (native : endian) (s : stdio) : text_input stdio :=
  TextInput s native (match pl with UnixLike => utf8 | Windows => utf16 end).

(** uio.cpp 9-10, common_uio.cpp 12-22: uout and uerr *)
Definition uout_or_uerr (native : endian) (s : stdio) : text_output stdio := TextOutput s native utf8.

(* ---------------------------------------------------------- static objects *)

(** The objects with static storage duration.  uio.cpp 8-10 and the lines just given. *)
Inductive static_object : Type := UinResource | UoutResource | UerrResource | Uin | Uout | Uerr.

(** CMP_CONFIG_HEADER_ONLY: all is included in every translation unit, or compiled once
    in definitions.cpp *)
Inductive build : Type := HeaderOnly | Library.

(** The order of construction.  Header only: unix_like_uout.hpp 58-66, unix_like_uin.hpp 76,
    uio.hpp 14-16, of which each includes the one before (windows the same).  Library:
    io/definitions.cpp 11-12 or 15-16 includes uin.cpp before uout.cpp; 26 is uio.cpp. *)
Definition construction_order (b : build) : list static_object :=
  match b with
  | HeaderOnly => [UoutResource; UerrResource; UinResource; Uin; Uout; Uerr]
  | Library => [UinResource; UoutResource; UerrResource; Uin; Uout; Uerr]
  end.

Definition static_eqb (a b : static_object) : bool :=
  match a, b with
  | UinResource, UinResource | UoutResource, UoutResource | UerrResource, UerrResource
  | Uin, Uin | Uout, Uout | Uerr, Uerr => true
  | _, _ => false
  end.
Definition is_alive (x : static_object) (alive : list static_object) : bool := existsb (static_eqb x) alive.

(** The constructors.  That of uin_resource converts uout_resource to its base class
    output_resource (U uin 19, W uin 20), which is undefined before the construction of uout_resource
    has begun.  The streams only keep references. *)
Fixpoint construct_statics (alive : list static_object) (l : list static_object) : outcome (list static_object) :=
  match l with
  | [] => Ok alive
  | x :: l =>
      match x with
      | UinResource => if is_alive UoutResource alive then construct_statics (x :: alive) l else UB DanglingPointer
      | _ => construct_statics (x :: alive) l
      end
  end.

Definition start_program (b : build) : outcome (list static_object) := construct_statics [] (construction_order b).

(** The destructors, in the given order: output_stream.ipp 25-31 flushes; those of the
    resources do nothing with what is in their buffers. *)
Fixpoint destroy_statics (pl : platform) (l : list static_object) (s : stdio) : outcome stdio :=
  match l with
  | [] => Ok s
  | x :: l =>
      bind (match x with
            | Uout => if is_alive UoutResource l then out_flush pl StandardOutput s else UB DanglingPointer
            | Uerr => if is_alive UerrResource l then out_flush pl StandardError s else UB DanglingPointer
            | _ => Ok s
            end) (destroy_statics pl l)
  end.

(** main returns, or exit is called: the reverse order of construction.  Destructors
    are noexcept.  output_stream.ipp 25-31; that they run is a rule of C++. *)
Definition end_program (pl : platform) (b : build) (s : stdio) : outcome stdio :=
  noexcept (destroy_statics pl (rev (construction_order b)) s).
