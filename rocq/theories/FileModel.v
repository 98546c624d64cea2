(** Model of files: /repo/api/src/cmp/io/file.cpp, impl/unix_like/unix_like_file.cpp,
    impl/windows/windows_file.cpp, over a model of the operating system's files.

    The buffering is that of ResourceModel.v.  One thread and no other process
    uses the files.  Memory is never exhausted.  Where the two platforms' sources
    agree, line numbers of the Unix-like one are given first. *)
From Coq Require Import NArith ZArith List Bool.
From Verif Require Import Base Integers ResourceModel.
Import ListNotations.
Open Scope Z_scope.

(* -------------------------------------------------------- operating system *)

(** What the operating system does at a call that opens a file or transfers bytes:
    it refuses (an error), it transfers at most k bytes although more were possible,
    or it does all that was asked.  Not part of /repo. *)
Inductive response : Type := Refuse | AtMost (k : Z) | InFull.

(** An open file: its name, the offset in it, and what it was opened for.  Kept by the operating
    system, not by /repo. *)
Record handle : Type := Handle { file_name : N; offset : Z; readable : bool; writable : bool }.

(** The files' contents, the open files by descriptor (HANDLE), the next descriptor
    (descriptors are not used again: a simplification), and the responses to come
    (when there are none left: InFull).  The operating system, not code of /repo. *)
Record world : Type := World {
  disk : N -> option (list N);
  table : N -> option handle;
  unused : N;
  script : list response }.

(** No code of /repo: a function changed at one place *)
Definition set {A : Type} (f : N -> option A) (x : N) (v : option A) : N -> option A :=
  fun y => if N.eqb y x then v else f y.

(** No code of /repo: the next of the answers the operating system gives *)
Definition respond (w : world) : response * world :=
  match script w with
  | [] => (InFull, w)
  | r :: l => (r, World (disk w) (table w) (unused w) l)
  end.

(** No code of /repo: the open file of a descriptor is replaced *)
Definition set_handle (w : world) (fd : N) (h : option handle) : world :=
  World (disk w) (set (table w) fd h) (unused w) (script w).

(** No code of /repo: the content of a file is replaced *)
Definition set_content (w : world) (p : N) (c : list N) : world :=
  World (set (disk w) p (Some c)) (table w) (unused w) (script w).

(** No code of /repo: the content of a file, of one that is not there no bytes *)
Definition content_of (w : world) (p : N) : list N :=
  match disk w p with Some c => c | None => [] end.

(** No code of /repo: the open file of a descriptor (None: -1 or INVALID_HANDLE_VALUE) *)
Definition lookup (w : world) (fd : option N) : option (N * handle) :=
  match fd with
  | Some n => match table w n with Some h => Some (n, h) | None => None end
  | None => None
  end.

(** No code of /repo: the same open file at another offset *)
Definition move_to (h : handle) (p : Z) : handle := Handle (file_name h) p (readable h) (writable h).

(** ::read, ReadFile: None for an error.  Nothing is transferred only at the end of
    the file.  Called in unix_like_file.cpp 228, windows_file.cpp 256. *)
Definition sys_read (w : world) (fd : option N) (count : Z) : world * option (list N) :=
  match lookup w fd with
  | None => (w, None)
  | Some (n, h) =>
      if readable h then
        let '(r, w) := respond w in
        let all := firstn (Z.to_nat count) (skipn (Z.to_nat (offset h)) (content_of w (file_name h))) in
        match r with
        | Refuse => (w, None)
        | AtMost k =>
            let d := firstn (Z.to_nat (Z.max 1 k)) all in
            (set_handle w n (Some (move_to h (offset h + size_of d))), Some d)
        | InFull => (set_handle w n (Some (move_to h (offset h + size_of all))), Some all)
        end
      else (w, None)
  end.

(** A file's bytes after writing d at p.  Beyond the end the gap is filled with zeros.  No code of
    /repo: POSIX write, Windows WriteFile. *)
Definition written_at (c : list N) (p : Z) (d : list N) : list N :=
  match d with
  | [] => c
  | _ => firstn (Z.to_nat p) c ++ repeat 0%N (Z.to_nat (p - size_of c)) ++ d
         ++ skipn (Z.to_nat (p + size_of d)) c
  end.

(** ::write, WriteFile: None for an error.  Called in unix_like_file.cpp 248, windows_file.cpp 284. *)
Definition sys_write (w : world) (fd : option N) (data : list N) : world * option Z :=
  match lookup w fd with
  | None => (w, None)
  | Some (n, h) =>
      if writable h then
        let '(r, w) := respond w in
        let put d :=
          (set_handle (set_content w (file_name h) (written_at (content_of w (file_name h)) (offset h) d))
             n (Some (move_to h (offset h + size_of d))), Some (size_of d)) in
        match r with
        | Refuse => (w, None)
        | AtMost k => put (firstn (Z.to_nat k) data)
        | InFull => put data
        end
      else (w, None)
  end.

(** ::lseek, SetFilePointerEx: None, with no effect, for an error.  Called in unix_like_file.cpp 51,
    128, windows_file.cpp 54, 150. *)
Definition sys_seek (w : world) (fd : option N) (n : Z) (pr : position_reference) : world * option Z :=
  match lookup w fd with
  | None => (w, None)
  | Some (k, h) =>
      let p :=
        match pr with
        | FromBegin => n
        | FromCurrent => offset h + n
        | FromEnd => size_of (content_of w (file_name h)) + n
        end in
      if (0 <=? p) && (p <? 2 ^ 63) then (set_handle w k (Some (move_to h p)), Some p) else (w, None)
  end.

(** ::open, CreateFileW: -1 (INVALID_HANDLE_VALUE), here None, for an error *)
Definition sys_open (w : world) (p : N) (create reads writes : bool) : world * option N :=
  let '(r, w) := respond w in
  match r, disk w p, create with
  | Refuse, _, _ | _, None, false => (w, None)
  | _, c, _ =>
      let w := set_content w p (match c with Some c => c | None => [] end) in
      (World (disk w) (set (table w) (unused w) (Some (Handle p 0 reads writes))) (N.succ (unused w)) (script w),
       Some (unused w))
  end.

(** ::close, CloseHandle.  Called in unix_like_file.cpp 99, windows_file.cpp 118. *)
Definition sys_close (w : world) (fd : option N) : world :=
  match fd with Some n => set_handle w n None | None => w end.

(* -------------------------------------------------------------- the source *)

(** include/cmp/core/platform.hpp: which of the two sources is compiled *)
Inductive platform : Type := UnixLike | Windows.

(** include/cmp/io/general.hpp 14-18, 42-45 *)
Inductive access_mode : Type := ReadOnly | WriteOnly | ReadAndWrite.
Inductive if_not_there : Type := Fail | Create.

(** The members m_file_descriptor (m_handle) and m_last_fill_amount, with the
    operating system behind them.  unix_like_file.hpp 124, windows_file.hpp 123, file.hpp 249. *)
Record sys : Type := Sys { os : world; descriptor : option N; filled_last : Z }.

(** numeric_limits<ssize_t>::max(), numeric_limits<DWORD>::max().  Used in unix_like_file.cpp
    145-168, 190-210, windows_file.cpp 173-196, 217-237. *)
Definition chunk_max (pl : platform) : Z :=
  match pl with UnixLike => 2 ^ 63 - 1 | Windows => 2 ^ 32 - 1 end.

(** unix_like_file.cpp 218-239.  Each turn reads to the start of the block, and asks
    for byte_count bytes.  The fuel suffices (see FileLemmas.v). *)
Fixpoint unix_block (fuel : nat) (w : world) (fd : option N) (dst : list N) (off n total : Z)
  : outcome (world * list N * Z) :=
  match fuel with
  | O => Diverge
  | S fuel =>
      match sys_read w fd n with
      | (w, None) | (w, Some []) => Ok (w, dst, total)
      | (w, Some d) =>
          bind (blit dst off d) (fun dst =>
          let total := total + size_of d in
          if total =? n then Ok (w, dst, total) else unix_block fuel w fd dst off n total)
      end
  end.

(** windows_file.cpp 245-274.  At an error ReadFile sets the number of
    bytes read to 0. *)
Fixpoint windows_block (fuel : nat) (w : world) (fd : option N) (dst : list N) (off n total : Z)
  : outcome (world * list N * Z) :=
  match fuel with
  | O => Diverge
  | S fuel =>
      match sys_read w fd (n - total) with
      | (w, None) => Ok (w, dst, total)
      | (w, Some d) =>
          bind (blit dst (off + total) d) (fun dst =>
          let total := total + size_of d in
          if (size_of d =? 0) || (total =? n) then Ok (w, dst, total)
          else windows_block fuel w fd dst off n total)
      end
  end.

(** One turn per byte of the file, and one for its end.  No code of /repo: a bound for the loop of
    unix_like_file.cpp 226-236 (windows_file.cpp 253-271). *)
Definition block_fuel (w : world) (fd : option N) : nat :=
  match lookup w fd with
  | Some (_, h) => S (length (content_of w (file_name h)))
  | None => 1%nat
  end.

(** unix_like_file.cpp 218-239, windows_file.cpp 245-274 *)
Definition read_block (pl : platform) (w : world) (fd : option N) (dst : list N) (off n : Z)
  : outcome (world * list N * Z) :=
  match pl with
  | UnixLike => unix_block (block_fuel w fd) w fd dst off n 0
  | Windows => windows_block (block_fuel w fd) w fd dst off n 0
  end.

(** unix_like_file.cpp 145-168, windows_file.cpp 173-196: the loop over blocks of
    read_raw.  The pointer
    data is the same in every turn. *)
Fixpoint read_blocks (pl : platform) (fuel : nat) (w : world) (fd : option N) (dst : list N) (off n total : Z)
  : outcome (world * list N * Z) :=
  if n <=? 0 then Ok (w, dst, total) else
  match fuel with
  | O => Diverge
  | S fuel =>
      let m := Z.min n (chunk_max pl) in
      bind (read_block pl w fd dst off m) (fun '(w, dst, k) =>
      if k =? m then read_blocks pl fuel w fd dst off (n - m) (total + k)
      else Ok (w, dst, total + k))
  end.

Definition chunk_count (pl : platform) (n : Z) : nat := Z.to_nat (n / chunk_max pl + 1).

(** unix_like_file.cpp 105-131, windows_file.cpp 124-158.  On Windows the distance is copied before it is
    made non-negative. *)
Definition seek_raw (pl : platform) (s : sys) (n : Z) (pr : position_reference) : sys :=
  let n :=
    match pl, pr with
    | UnixLike, FromBegin => Z.max 0 n
    | _, _ => n
    end in
  Sys (fst (sys_seek (os s) (descriptor s) n pr)) (descriptor s) 0.

(** unix_like_file.cpp 133-180, windows_file.cpp 160-207; go_forward and
    go_back are seekable_transfer_resource.ipp 24-46 *)
Definition file_read_raw (pl : platform) (s : sys) (dst : list N) (off n : Z) (rr : read_request)
  : outcome (sys * list N * Z) :=
  let s :=
    match rr with
    | FillBuffer => if 0 <? filled_last s then seek_raw pl s (filled_last s) FromCurrent else s
    | LeanRetrieval => s
    end in
  bind (read_blocks pl (chunk_count pl n) (os s) (descriptor s) dst off n 0) (fun '(w, dst, total) =>
  let s := Sys w (descriptor s) (filled_last s) in
  let s :=
    match rr with
    | FillBuffer => let s := seek_raw pl s (- total) FromCurrent in Sys (os s) (descriptor s) total
    | LeanRetrieval => s
    end in
  Ok (s, dst, total)).

(** unix_like_file.cpp 182-214, 241-253, windows_file.cpp 209-241, 276-292: the pointer data is the same in every turn. *)
Fixpoint write_blocks (pl : platform) (fuel : nat) (w : world) (fd : option N) (data : list N) (n total : Z)
  : outcome (world * Z) :=
  if n <=? 0 then Ok (w, total) else
  match fuel with
  | O => Diverge
  | S fuel =>
      let m := Z.min n (chunk_max pl) in
      let '(w, r) := sys_write w fd (firstn (Z.to_nat m) data) in
      let k := match r with Some k => k | None => 0 end in
      if k =? m then write_blocks pl fuel w fd data (n - m) (total + k) else Ok (w, total + k)
  end.

Definition file_write_raw (pl : platform) (s : sys) (data : list N) : outcome (sys * Z) :=
  bind (write_blocks pl (chunk_count pl (size_of data)) (os s) (descriptor s) data (size_of data) 0)
    (fun '(w, k) => Ok (Sys w (descriptor s) (filled_last s), k)).

Definition file_ops (pl : platform) : raw sys := Raw sys (file_read_raw pl) (file_write_raw pl).

(** class file: the resource, m_file_path (None: the empty path) and m_access_mode.
    unix_like_file.hpp 17-125, windows_file.hpp 17-124, file.hpp 247-249. *)
Record file : Type := File { res : resource sys; path : option N; mode : access_mode }.

(** unix_like_file.cpp 40-45, windows_file.cpp 40-45 *)
Definition is_open (f : file) : bool :=
  match descriptor (inner (res f)) with Some _ => true | None => false end.

(** What read and write do: return, or throw an exception.  No code of /repo. *)
Inductive reply (A : Type) : Type := Returned (a : A) | Threw (e : exn).
Arguments Returned {A} _.
Arguments Threw {A} _.

(** file.cpp 53-66 *)
Definition file_read (pl : platform) (f : file) (dst : list N) (n : Z)
  : outcome (file * reply (list N * Z)) :=
  match mode f with
  | ReadOnly | ReadAndWrite =>
      bind (read (file_ops pl) (res f) dst n) (fun '(r, dst, k) =>
      Ok (File r (path f) (mode f), Returned (dst, k)))
  | WriteOnly => Ok (f, Threw InvalidAccessMode)
  end.

(** file.cpp 68-81 *)
Definition file_write (pl : platform) (f : file) (data : list N) : outcome (file * reply Z) :=
  match mode f with
  | ReadOnly => Ok (f, Threw InvalidAccessMode)
  | WriteOnly | ReadAndWrite =>
      bind (write (file_ops pl) (res f) data) (fun '(r, k) =>
      Ok (File r (path f) (mode f), Returned k))
  end.

(** output_resource.cpp 33-40 *)
Definition file_flush (pl : platform) (f : file) : outcome file :=
  bind (flush (file_ops pl) (res f)) (fun r => Ok (File r (path f) (mode f))).

(** seekable_io_resource.ipp 26-39 *)
Definition file_seek (pl : platform) (f : file) (n : Z) (pr : position_reference) : outcome file :=
  noexcept (bind (flush (file_ops pl) (res f)) (fun r =>
  Ok (File (Resource (seek_raw pl (inner r) n pr) (set_read_dirty (buf r) true)) (path f) (mode f)))).

(** seekable_transfer_resource.ipp 24-46 *)
Definition file_go (pl : platform) (f : file) (n : Z) : file :=
  File (Resource (seek_raw pl (inner (res f)) n FromCurrent) (buf (res f))) (path f) (mode f).

(** unix_like_file.cpp 47-52 (lseek's -1 for an error is added to like any other
    position); windows_file.cpp 47-61 (SetFilePointerEx leaves
    position_structure as it is at an error) *)
Definition file_position (pl : platform) (f : file) : outcome Z :=
  match snd (sys_seek (os (inner (res f))) (descriptor (inner (res f))) 0 FromCurrent), pl with
  | Some p, _ => Ok (convert I64 (p + bpos (buf (res f))))
  | None, UnixLike => Ok (convert I64 (-1 + bpos (buf (res f))))
  | None, Windows => UB Indeterminate
  end.

(** file.cpp 44-49: std::filesystem::file_size throws if there is no such file; the
    comparison is unsigned *)
Definition file_is_at_end (pl : platform) (f : file) : outcome bool :=
  bind (file_position pl f) (fun p =>
  match path f with
  | Some q =>
      match disk (os (inner (res f))) q with
      | Some c => Ok (as_size p =? size_of c)
      | None => Terminate
      end
  | None => Terminate
  end).

Definition with_sys (f : file) (s : sys) : file := File (Resource s (buf (res f))) (path f) (mode f).

(** unix_like_file.cpp 94-101, windows_file.cpp 113-120 *)
Definition file_close (pl : platform) (f : file) : outcome file :=
  noexcept (bind (file_flush pl f) (fun f =>
  let s := inner (res f) in
  Ok (with_sys f (Sys (sys_close (os s) (descriptor s)) None (filled_last s))))).

Definition mode_reads (m : access_mode) : bool := match m with WriteOnly => false | _ => true end.
Definition mode_writes (m : access_mode) : bool := match m with ReadOnly => false | _ => true end.

(** unix_like_file.cpp 56-92, windows_file.cpp 65-111 (OPEN_ALWAYS) *)
Definition file_open (pl : platform) (f : file) (p : N) (m : access_mode) (how : if_not_there)
  : outcome (file * bool) :=
  bind (if is_open f then file_close pl f else Ok f) (fun f =>
  let s := inner (res f) in
  match how, disk (os s) p with
  | Fail, None => Ok (f, false)
  | _, _ =>
      let create := match how, pl with Fail, UnixLike => false | _, _ => true end in
      let '(w, fd) := sys_open (os s) p create (mode_reads m) (mode_writes m) in
      let f := File (Resource (Sys w fd (filled_last s)) (buf (res f))) (path f) m in
      Ok (f, is_open f)
  end).

(** unix_like_file.cpp 12-18, file.cpp 12-20: a file object with no file.  The
    default capacity of the buffer is a parameter. *)
Definition no_file (w : world) (cap : nat) : file :=
  File (Resource (Sys w None 0) (new_buffer cap)) None ReadOnly.

(** unix_like_file.cpp 20-31, windows_file.cpp 20-31, file.cpp 22-33: what open returns is ignored *)
Definition new_file (pl : platform) (w : world) (p : N) (m : access_mode) (how : if_not_there) (cap : nat)
  : outcome file :=
  bind (file_open pl (File (Resource (Sys w None 0) (new_buffer cap)) (Some p) m) p m how) (fun '(f, _) => Ok f).

(** unix_like_file.cpp 33-36, windows_file.cpp 33-36: what is left behind by the destructor *)
Definition destroy (pl : platform) (f : file) : outcome world :=
  bind (file_close pl f) (fun f => Ok (os (inner (res f)))).

(** unix_like_file.hpp 52-56, io_buffer.hpp 95-98: the defaulted move constructor.
    The vector is empty afterwards, everything else is copied.  Gives the new
    object and the old one. *)
Definition move_file (f : file) : file * file :=
  (f, File (Resource (inner (res f))
        (Buffer [] (filled (buf (res f))) (bpos (buf (res f))) (read_dirty (buf (res f)))
           (write_dirty (buf (res f))))) (path f) (mode f)).

(** Another file object of the same program, seen when the operating system is in
    state w.  No code of /repo. *)
Definition in_world (w : world) (f : file) : file :=
  with_sys f (Sys w (descriptor (inner (res f))) (filled_last (inner (res f)))).
