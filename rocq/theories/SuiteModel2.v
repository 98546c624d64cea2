(** The project's automated tests of the I/O module, transcribed as in SuiteModel.v:
    /repo/tests/automated/io/*.cpp.  The programs find the files of /repo/tests/data in
    the directory ../../test_data. *)
From Coq Require Import NArith ZArith List Bool Ascii String.
From Verif Require Import Base Integers UnicodeSpec UnicodeModel UnicodeText ResourceModel StreamModel FileModel TextFileModel
  DataFileModel.
From Verif Require Import TestSpec ReportSpec SuiteModel.
Import ListNotations.
Open Scope N_scope.

(** Not part of /repo: the rest of what the machine decides: its byte order and its
    operating system; and the configured CMP_CONFIG_DEFAULT_BUFFER_CAPACITY. *)
Record computer : Type := Computer {
  processor : machine;
  native : endian;
  system : platform;
  default_capacity : nat }.

(** /repo/tests/data: the bytes of the files.  The file names are numbers: 0 and 1 are
    test_open1.txt and test_open2.txt, from 13 on the files that are written by
    test_text_output_stream.cpp. *)
Definition test_data (name : N) : option (list N) :=
  match name with
  | 2 => (* (Delta)unicode_name(lira).txt *)
     Some []
  | 3 => (* test_reading.txt *)
     Some [97; 98; 99; 100]
  | 4 => (* test_writing.txt *)
     Some []
  | 5 => (* test_write_binary.txt *)
     Some []
  | 6 => (* test_read_binary.txt *)
     Some []
  | 7 => (* test_stream.txt *)
     Some [72; 101; 108; 108; 111; 44; 32; 119; 111; 114; 108; 100; 33]
  | 8 => (* test_read_utf8_without_bom.txt *)
     Some [99; 111; 114; 97; 195; 167; 195; 163; 111; 240; 159; 152; 128; 194; 175; 92; 95; 40; 227; 131; 132; 41; 95;
     47; 194; 175; 10; 99; 111; 114; 97; 195; 167; 195; 163; 111; 240; 159; 152; 128; 194; 175; 92; 95; 40; 227;
     131; 132; 41; 95; 47; 194; 175; 10; 99; 111; 114; 97; 195; 167; 195; 163; 111; 240; 159; 152; 128; 194; 175;
     92; 95; 40; 227; 131; 132; 41; 95; 47; 194; 175; 10; 99; 111; 114; 97; 195; 167; 195; 163; 111; 240; 159; 152;
     128; 194; 175; 92; 95; 40; 227; 131; 132; 41; 95; 47; 194; 175]
  | 9 => (* test_read_utf16_with_little_endian_bom.txt *)
     Some [255; 254; 99; 0; 111; 0; 114; 0; 97; 0; 231; 0; 227; 0; 111; 0; 61; 216; 0; 222; 175; 0; 92; 0; 95; 0; 40; 0;
     196; 48; 41; 0; 95; 0; 47; 0; 175; 0; 10; 0; 99; 0; 111; 0; 114; 0; 97; 0; 231; 0; 227; 0; 111; 0; 61; 216; 0;
     222; 175; 0; 92; 0; 95; 0; 40; 0; 196; 48; 41; 0; 95; 0; 47; 0; 175; 0; 10; 0; 99; 0; 111; 0; 114; 0; 97; 0;
     231; 0; 227; 0; 111; 0; 61; 216; 0; 222; 175; 0; 92; 0; 95; 0; 40; 0; 196; 48; 41; 0; 95; 0; 47; 0; 175; 0;
     10; 0; 99; 0; 111; 0; 114; 0; 97; 0; 231; 0; 227; 0; 111; 0; 61; 216; 0; 222; 175; 0; 92; 0; 95; 0; 40; 0;
     196; 48; 41; 0; 95; 0; 47; 0; 175; 0]
  | 10 => (* test_read_utf16_with_big_endian_bom.txt *)
     Some [254; 255; 0; 99; 0; 111; 0; 114; 0; 97; 0; 231; 0; 227; 0; 111; 216; 61; 222; 0; 0; 175; 0; 92; 0; 95; 0; 40;
     48; 196; 0; 41; 0; 95; 0; 47; 0; 175; 0; 10; 0; 99; 0; 111; 0; 114; 0; 97; 0; 231; 0; 227; 0; 111; 216; 61;
     222; 0; 0; 175; 0; 92; 0; 95; 0; 40; 48; 196; 0; 41; 0; 95; 0; 47; 0; 175; 0; 10; 0; 99; 0; 111; 0; 114; 0;
     97; 0; 231; 0; 227; 0; 111; 216; 61; 222; 0; 0; 175; 0; 92; 0; 95; 0; 40; 48; 196; 0; 41; 0; 95; 0; 47; 0;
     175; 0; 10; 0; 99; 0; 111; 0; 114; 0; 97; 0; 231; 0; 227; 0; 111; 216; 61; 222; 0; 0; 175; 0; 92; 0; 95; 0;
     40; 48; 196; 0; 41; 0; 95; 0; 47; 0; 175]
  | 11 => (* test_read_utf32_with_little_endian_bom.txt *)
     Some [255; 254; 0; 0; 99; 0; 0; 0; 111; 0; 0; 0; 114; 0; 0; 0; 97; 0; 0; 0; 231; 0; 0; 0; 227; 0; 0; 0; 111; 0; 0;
     0; 0; 246; 1; 0; 175; 0; 0; 0; 92; 0; 0; 0; 95; 0; 0; 0; 40; 0; 0; 0; 196; 48; 0; 0; 41; 0; 0; 0; 95; 0; 0; 0;
     47; 0; 0; 0; 175; 0; 0; 0; 10; 0; 0; 0; 99; 0; 0; 0; 111; 0; 0; 0; 114; 0; 0; 0; 97; 0; 0; 0; 231; 0; 0; 0;
     227; 0; 0; 0; 111; 0; 0; 0; 0; 246; 1; 0; 175; 0; 0; 0; 92; 0; 0; 0; 95; 0; 0; 0; 40; 0; 0; 0; 196; 48; 0; 0;
     41; 0; 0; 0; 95; 0; 0; 0; 47; 0; 0; 0; 175; 0; 0; 0; 10; 0; 0; 0; 99; 0; 0; 0; 111; 0; 0; 0; 114; 0; 0; 0; 97;
     0; 0; 0; 231; 0; 0; 0; 227; 0; 0; 0; 111; 0; 0; 0; 0; 246; 1; 0; 175; 0; 0; 0; 92; 0; 0; 0; 95; 0; 0; 0; 40;
     0; 0; 0; 196; 48; 0; 0; 41; 0; 0; 0; 95; 0; 0; 0; 47; 0; 0; 0; 175; 0; 0; 0; 10; 0; 0; 0; 99; 0; 0; 0; 111; 0;
     0; 0; 114; 0; 0; 0; 97; 0; 0; 0; 231; 0; 0; 0; 227; 0; 0; 0; 111; 0; 0; 0; 0; 246; 1; 0; 175; 0; 0; 0; 92; 0;
     0; 0; 95; 0; 0; 0; 40; 0; 0; 0; 196; 48; 0; 0; 41; 0; 0; 0; 95; 0; 0; 0; 47; 0; 0; 0; 175; 0; 0; 0]
  | 12 => (* test_read_utf32_with_big_endian_bom.txt *)
     Some [0; 0; 254; 255; 0; 0; 0; 99; 0; 0; 0; 111; 0; 0; 0; 114; 0; 0; 0; 97; 0; 0; 0; 231; 0; 0; 0; 227; 0; 0; 0;
     111; 0; 1; 246; 0; 0; 0; 0; 175; 0; 0; 0; 92; 0; 0; 0; 95; 0; 0; 0; 40; 0; 0; 48; 196; 0; 0; 0; 41; 0; 0; 0;
     95; 0; 0; 0; 47; 0; 0; 0; 175; 0; 0; 0; 10; 0; 0; 0; 99; 0; 0; 0; 111; 0; 0; 0; 114; 0; 0; 0; 97; 0; 0; 0;
     231; 0; 0; 0; 227; 0; 0; 0; 111; 0; 1; 246; 0; 0; 0; 0; 175; 0; 0; 0; 92; 0; 0; 0; 95; 0; 0; 0; 40; 0; 0; 48;
     196; 0; 0; 0; 41; 0; 0; 0; 95; 0; 0; 0; 47; 0; 0; 0; 175; 0; 0; 0; 10; 0; 0; 0; 99; 0; 0; 0; 111; 0; 0; 0;
     114; 0; 0; 0; 97; 0; 0; 0; 231; 0; 0; 0; 227; 0; 0; 0; 111; 0; 1; 246; 0; 0; 0; 0; 175; 0; 0; 0; 92; 0; 0; 0;
     95; 0; 0; 0; 40; 0; 0; 48; 196; 0; 0; 0; 41; 0; 0; 0; 95; 0; 0; 0; 47; 0; 0; 0; 175; 0; 0; 0; 10; 0; 0; 0; 99;
     0; 0; 0; 111; 0; 0; 0; 114; 0; 0; 0; 97; 0; 0; 0; 231; 0; 0; 0; 227; 0; 0; 0; 111; 0; 1; 246; 0; 0; 0; 0; 175;
     0; 0; 0; 92; 0; 0; 0; 95; 0; 0; 0; 40; 0; 0; 48; 196; 0; 0; 0; 41; 0; 0; 0; 95; 0; 0; 0; 47; 0; 0; 0; 175]
  | _ => None
  end.

(** The operating system when a test function begins: every test function starts from
    the files as they were delivered (simplification: no two of them use the same
    file in different ways).  It does all it is asked to do.  The files of tests/data in /repo. *)
Definition start : world := World test_data (fun _ => None) 0 [].

(** sizeof of the unit types, as used in tests/automated/io/test_container_transfer_resources.cpp
    80-829 *)
Definition unit_width (k : ukind) : nat :=
  match k with KChar _ | K8 => 1 | K16 | KW2 => 2 | K32 | KW4 => 4 end.

(** The bytes of an array of code units in memory.
    tests/automated/io/test_container_transfer_resources.cpp 80-829. *)
Definition in_memory (c : computer) (k : ukind) (s : list N) : list N :=
  flat_map (to_memory (native c) (unit_width k)) s.

(* ---------------------------------------------------------------- io general *)

(** A check of tests/automated/io/test_io_general.cpp 26-78 *)
Definition inverts (c : computer) (w : nat) (value expected : N) (rest : test) : test :=
  call (invert_endianness (to_memory (native c) w value) (Z.of_nat w)) (fun bytes =>
  must (from_memory (native c) bytes =? expected) (EndStage rest)).

(** io/test_io_general.cpp 26-78 *)
Definition io_general_tests (c : computer) : list test :=
  [StartTest (lit "test_invert_endianness") (
   inverts c 2 0x0102 0x0201 (
   inverts c 4 0x01020304 0x04030201 (
   inverts c 8 0x0102030405060708 0x0807060504030201 (
   Return true))))].

(* ------------------------------------------------------------ container resources *)

(** io/test_container_transfer_resources.cpp 80-137: the chars are compared with the
    first bytes of the elements in memory. *)
Definition first_bytes (w : nat) (data : list N) (n : nat) : list N :=
  map (fun i => nth (i * w) data 0) (seq 0 n).
Definition test_read_generic (k : ukind) (r : resource container) (rest : test) : test :=
  let w := unit_width k in
  call (read container_ops r (repeat 0 (5 * w)) (Z.of_nat (5 * w))) (fun '(r, data, n) =>
  must (n =? Z.of_nat (5 * w))%Z (
  must (same_string (first_bytes w data 5) (lit "Hello")) (
  call (read container_ops r data (Z.of_nat (3 * w))) (fun '(r, data, n) =>
  must (n =? Z.of_nat (2 * w))%Z (
  must (same_string (first_bytes w data 2) (lit "!" ++ [10])) rest))))).

(** 139-210: an opaque and a transparent input resource, an opaque and a transparent
    read/write resource; they read in the same way (the constructors of
    ResourceModel.v). *)
Definition test_read (c : computer) (k : ukind) (rest : test) : test :=
  let r := new_resource (in_memory c k (units k (lit "Hello!" ++ [10]))) (Z.of_nat (unit_width k)) 0 in
  test_read_generic k r (test_read_generic k r (test_read_generic k r (test_read_generic k r rest))).

(** 212-286 *)
Definition test_write_generic (c : computer) (k : ukind) (r : resource container) (rest : test) : test :=
  let w := unit_width k in
  call (write container_ops r (in_memory c k (lit "Hello"))) (fun '(r, n) =>
  must (n =? Z.of_nat (5 * w))%Z (
  call (flush container_ops r) (fun r =>
  must (same_string (content (inner r)) (in_memory c k (units k (lit "Hello")))) rest))).

(** 288-337 *)
Definition test_write (c : computer) (k : ukind) (rest : test) : test :=
  let r := new_resource [] (Z.of_nat (unit_width k)) 0 in
  test_write_generic c k r (test_write_generic c k r (test_write_generic c k r (test_write_generic c k r rest))).

(** 339-473 *)
Definition test_set_position_generic (c : computer) (k : ukind) (r : resource container) (rest : test) : test :=
  let w := unit_width k in
  call (write container_ops r (in_memory c k (lit "Hello"))) (fun '(r, n) =>
  must (n =? Z.of_nat (5 * w))%Z (
  call (flush container_ops r) (fun r =>
  must (same_string (content (inner r)) (in_memory c k (units k (lit "Hello")))) (
  call (seek_io r 0 FromBegin) (fun r =>
  call (write container_ops r (in_memory c k (lit "Y"))) (fun '(r, _) =>
  call (seek_io r 0 FromEnd) (fun r =>
  call (write container_ops r (in_memory c k (lit "w"))) (fun '(r, _) =>
  call (flush container_ops r) (fun r =>
  must (same_string (content (inner r)) (in_memory c k (units k (lit "Yellow")))) (
  must (is_at_end r) (
  call (seek_io r 0 FromBegin) (fun r =>
  call (read container_ops r (repeat 0 (5 * w + 1)) (Z.of_nat (5 * w + 1))) (fun '(r, _, _) =>
  must (same_string (content (inner r)) (in_memory c k (units k (lit "Yellow")))) rest))))))))))))).

(** 475-503 *)
Definition test_set_position (c : computer) (k : ukind) (rest : test) : test :=
  let r := new_resource [] (Z.of_nat (unit_width k)) 0 in
  test_set_position_generic c k r (test_set_position_generic c k r rest).

(** 507-829.  A std::vector of std::byte is treated like a std::u8string. *)
Definition container_transfer_resources_tests (c : computer) : list test :=
  let char := KChar (char_signed (processor c)) in
  let wchar := wide (processor c) in
  [StartTest (lit "test_read_blob") (test_read c K8 (EndStage (Return true)));
   StartTest (lit "test_read_string") (test_read c char (EndStage (Return true)));
   StartTest (lit "test_read_u8string") (test_read c K8 (EndStage (Return true)));
   StartTest (lit "test_read_u16string") (test_read c K16 (EndStage (Return true)));
   StartTest (lit "test_read_u32string") (test_read c K32 (EndStage (Return true)));
   StartTest (lit "test_read_wstring") (test_read c wchar (EndStage (Return true)));
   StartTest (lit "test_write_blob") (test_write c K8 (EndStage (Return true)));
   StartTest (lit "test_write_string") (test_write c char (EndStage (Return true)));
   StartTest (lit "test_write_u8string") (test_write c K8 (EndStage (Return true)));
   StartTest (lit "test_write_u16string") (test_write c K16 (EndStage (Return true)));
   StartTest (lit "test_write_u32string") (test_write c K32 (EndStage (Return true)));
   StartTest (lit "test_write_wstring") (test_write c wchar (EndStage (Return true)));
   StartTest (lit "test_set_position_blob") (test_set_position c K8 (EndStage (Return true)));
   StartTest (lit "test_set_position_string") (test_set_position c char (EndStage (Return true)));
   StartTest (lit "test_set_position_u8string") (test_set_position c K8 (EndStage (Return true)));
   StartTest (lit "test_set_position_u16string") (test_set_position c K16 (EndStage (Return true)));
   StartTest (lit "test_set_position_u32string") (test_set_position c K32 (EndStage (Return true)));
   StartTest (lit "test_set_position_wstring") (test_set_position c wchar (EndStage (Return true)))].

(* ---------------------------------------------------------------------- file *)

(** No code of /repo: the operating system after the last call on a file *)
Definition world_of (f : file) : world := os (inner (res f)).
(** std::filesystem::exists, used in tests/automated/io/test_file.cpp 36-136 *)
Definition exists_in (w : world) (name : N) : bool := match disk w name with Some _ => true | None => false end.

(** std::filesystem::remove, of a file that is not open.  Used in tests/automated/io/test_file.cpp
    36-370. *)
Definition remove (w : world) (name : N) : world := World (set (disk w) name None) (table w) (unused w) (script w).

(** The opening of a file in tests/automated/io/test_file.cpp 36-370 *)
Definition opens (c : computer) (w : world) (name : N) (m : access_mode) (how : if_not_there) (cap : nat)
    (rest : file -> test) : test :=
  call (new_file (system c) w name m how cap) (fun f => must (is_open f) (rest f)).

(** io/test_file.cpp 36-136 *)
Definition test_open (c : computer) : test :=
  StartTest (lit "test_open") (
  let w := remove (remove start 0) 1 in
  opens c w 0 ReadOnly Create (default_capacity c) (fun f1 =>
  must (exists_in (world_of f1) 0) (
  EndStage (
  opens c (world_of f1) 0 ReadOnly Create (default_capacity c) (fun f2 =>
  EndStage (
  call (new_file (system c) (world_of f2) 1 ReadOnly Fail (default_capacity c)) (fun f3 =>
  must (negb (is_open f3)) (
  must (negb (exists_in (world_of f3) 1)) (
  EndStage (
  call (file_close (system c) (in_world (world_of f3) f1)) (fun f1 =>
  call (file_close (system c) (in_world (world_of f1) f2)) (fun f2 =>
  call (file_close (system c) (in_world (world_of f2) f3)) (fun f3 =>
  let w := remove (remove (world_of f3) 0) 1 in
  EndStage (
  opens c w 2 ReadOnly Fail (default_capacity c) (fun f4 =>
  call (file_close (system c) f4) (fun f4 =>
  EndStage (Return true))))))))))))))))).

Definition position_is (c : computer) (f : file) (p : Z) (rest : test) : test :=
  call (file_position (system c) f) (fun q => must (q =? p)%Z (EndStage rest)).

(** io/test_file.cpp 138-214 *)
Definition test_position (c : computer) : test :=
  StartTest (lit "test_position") (
  opens c start 3 ReadOnly Fail (default_capacity c) (fun f =>
  position_is c f 0 (
  call (returned (file_read (system c) f [0; 0] 2)) (fun '(f, _) =>
  position_is c f 2 (
  call (file_seek (system c) f 0 FromBegin) (fun f =>
  position_is c f 0 (
  call (file_seek (system c) f 0 FromEnd) (fun f =>
  position_is c f 4 (
  call (file_seek (system c) f (-1) FromEnd) (fun f =>
  position_is c f 3 (
  Return true))))))))))).

Definition at_end_is (c : computer) (f : file) (expected : bool) (rest : test) : test :=
  call (file_is_at_end (system c) f) (fun b => must (Bool.eqb b expected) (EndStage rest)).

(** io/test_file.cpp 216-281 *)
Definition test_is_at_end (c : computer) : test :=
  StartTest (lit "test_is_at_end") (
  opens c start 3 ReadOnly Fail (default_capacity c) (fun f =>
  at_end_is c f false (
  call (returned (file_read (system c) f [0; 0] 2)) (fun '(f, (data, _)) =>
  at_end_is c f false (
  call (returned (file_read (system c) f data 2)) (fun '(f, _) =>
  at_end_is c f true (
  call (file_seek (system c) f 0 FromEnd) (fun f =>
  at_end_is c f true (
  Return true))))))))).

(** io/test_file.cpp 283-329 *)
Definition test_file_read (c : computer) : test :=
  StartTest (lit "test_read") (
  opens c start 3 ReadOnly Fail 2 (fun f =>
  call (returned (file_read (system c) f [0; 0; 0; 0] 4)) (fun '(f, (data, n)) =>
  must (n =? 4)%Z (
  must (same_string data (lit "abcd")) (
  EndStage (Return true)))))).

(** io/test_file.cpp 331-370 *)
Definition test_file_write (c : computer) : test :=
  StartTest (lit "test_write") (
  opens c start 4 WriteOnly Fail 2 (fun f =>
  call (returned (file_write (system c) f (lit "xyzw"))) (fun '(f, n) =>
  must (n =? 4)%Z (
  EndStage (Return true))))).

Definition file_tests (c : computer) : list test :=
  [test_open c; test_position c; test_is_at_end c; test_file_read c; test_file_write c].

(* -------------------------------------------------------------- data streams *)

(** 128.25, as the bits of a double *)
Definition bits_of_128_25 : N := 0x4060080000000000.

(** io/test_data_input_stream.cpp 26-91: written by a std::ofstream; the data stream's
    byte order is the default, big-endian (data_input_stream.hpp 50). *)
Definition data_input_stream_tests (c : computer) : list test :=
  [StartTest (lit "test_read") (
   let w := set_content start 6 (to_memory (native c) 4 75 ++ to_memory (native c) 8 bits_of_128_25) in
   opens c w 6 ReadOnly Fail (default_capacity c) (fun f =>
   call (data_read (native c) (file_source (system c)) Big f 4) (fun '(f, value1) =>
   call (data_read (native c) (file_source (system c)) Big f 8) (fun '(f, value2) =>
   must (from_memory (native c) value1 =? 75) (
   must (from_memory (native c) value2 =? bits_of_128_25) (
   EndStage (Return true)))))))].

(** io/test_data_output_stream.cpp 26-89: read by a std::ifstream *)
Definition data_output_stream_tests (c : computer) : list test :=
  [StartTest (lit "test_write") (
   opens c start 5 WriteOnly Fail (default_capacity c) (fun f =>
   call (data_write (native c) (file_sink (system c)) (native c) f (to_memory (native c) 4 75)) (fun f =>
   call (data_write (native c) (file_sink (system c)) (native c) f (to_memory (native c) 8 bits_of_128_25)) (fun f =>
   call (sink_flush (file_sink (system c)) f) (fun f =>
   let content := content_of (world_of f) 5 in
   must (from_memory (native c) (firstn 4 content) =? 75) (
   must (from_memory (native c) (firstn 8 (skipn 4 content)) =? bits_of_128_25) (
   EndStage (Return true))))))))].

(** io/test_data_io_stream.cpp 25-48 *)
Definition data_io_stream_tests (c : computer) : list test :=
  [StartTest (lit "test_read") (
   let stream := new_data_io (new_resource (lit "Hello, world!") 1 0) (native c) in
   call (through stream (fun r => seek_io r 5 FromCurrent)) (fun stream =>
   call (put_value (native c) container_sink stream (lit ";")) (fun stream =>
   call (through stream (flush container_ops)) (fun stream =>
   must (same_string (content (inner (dio_res stream))) (lit "Hello; world!")) (
   EndStage (Return true))))))].

(* -------------------------------------------------------------- text streams *)

(** Not part of /repo: bounds for the loops, larger than any text here *)
Definition enough : nat := 100.

Definition form_of (k : ukind) : encoding_form :=
  match k with KChar _ | K8 => utf8 | K16 | KW2 => utf16 | K32 | KW4 => utf32 end.
Definition is_utf8 (e : encoding_form) : bool := match e with utf8 => true | _ => false end.

(** io/test_text_input_stream.cpp 62-166, 575-676 *)
Definition test_read_strings (c : computer) (name : string) (k : ukind) : test :=
  StartTest (lit name) (
  let r := new_resource (in_memory c k (text k "Hello yellow world!")) (Z.of_nat (unit_width k)) 0 in
  let stream := TextInput r (native c) (form_of k) in
  call (read_word (native c) container_source enough k stream) (fun '(stream, string1) =>
  call (read_word (native c) container_source enough k stream) (fun '(stream, string2) =>
  call (read_word (native c) container_source enough k stream) (fun '(stream, string3) =>
  must (same_string string1 (text k "Hello")) (
  must (same_string string2 (text k "yellow")) (
  must (same_string string3 (text k "world!")) (
  EndStage (Return true)))))))).

(** A line: "cora", U+00E7, U+00E3, "o", U+1F600 and the shrug.  Of
    tests/data/test_read_utf8_without_bom.txt and the like. *)
Definition line : list N := lit "cora" ++ [0xE7; 0xE3] ++ lit "o" ++ [0x1F600] ++ shrug.
(** Four such lines: tests/data/test_read_utf8_without_bom.txt and the like *)
Definition four_lines : list N := line ++ [10] ++ line ++ [10] ++ line ++ [10] ++ line.

(** if (encoding != utf8) stream.read_bom();  tests/automated/io/test_text_input_stream.cpp 62-276. *)
Definition bom_read (c : computer) (st : text_input file) (rest : text_input file -> test) : test :=
  if is_utf8 (in_form st) then rest st
  else call (read_bom (native c) (file_source (system c)) st) (fun '(st, _) => rest st).

(** The reading of a line in tests/automated/io/test_text_input_stream.cpp 168-276 *)
Definition line_read (c : computer) (st : text_input file) (k : ukind) (last : bool)
    (rest : text_input file -> test) : test :=
  call (read_line (native c) (file_source (system c)) enough k st) (fun '(st, l) =>
  must (same_string l (units k line)) (
  call (text_at_end (file_source (system c)) st) (fun e => must (Bool.eqb e last) (rest st)))).

(** 168-276 *)
Definition test_read_line_generic (c : computer) (f : file) (form : encoding_form) (order : endian) (rest : test) : test :=
  bom_read c (TextInput f order form) (fun st =>
  line_read c st K8 false (fun st =>
  line_read c st K16 false (fun st =>
  line_read c st K32 false (fun st =>
  line_read c st (wide (processor c)) true (fun _ => EndStage rest))))).

Definition all_read (c : computer) (st : text_input file) (k : ukind) (rest : text_input file -> test) : test :=
  bom_read c st (fun st =>
  call (read_all (native c) (file_source (system c)) enough k st) (fun '(st, l) =>
  must (same_string l (units k four_lines)) (
  call (text_at_end (file_source (system c)) st) (fun e => must e (rest st))))).

(** stream->set_position(0, position_reference::begin) *)
Definition rewind (c : computer) (st : text_input file) (rest : text_input file -> test) : test :=
  call (file_seek (system c) (in_res st) 0 FromBegin) (fun f => rest (TextInput f (in_order_ st) (in_form st))).

(** 355-494 *)
Definition test_read_all_generic (c : computer) (f : file) (form : encoding_form) (order : endian) (rest : test) : test :=
  all_read c (TextInput f order form) K8 (fun st => rewind c st (fun st =>
  all_read c st K16 (fun st => rewind c st (fun st =>
  all_read c st K32 (fun st => rewind c st (fun st =>
  all_read c st (wide (processor c)) (fun _ => EndStage rest))))))).

(** 278-353, 496-571: the file's name is made of the encoding form and the byte order. *)
Definition with_bom (form : encoding_form) (order : endian) : N :=
  match form, order with
  | utf16, Little => 9 | utf16, Big => 10
  | utf32, Little => 11 | utf32, Big => 12
  | utf8, _ => 8
  end.
Definition read_multibyte (c : computer) (generic : computer -> file -> encoding_form -> endian -> test -> test)
    (form : encoding_form) (order : endian) (rest : test) : test :=
  opens c start (with_bom form order) ReadOnly Fail (default_capacity c) (fun f => generic c f form order rest).

(** 678-916 *)
Definition read_tests (c : computer) (prefix : string) (generic : computer -> file -> encoding_form -> endian -> test -> test)
  : list test :=
  [StartTest (lit (prefix ++ "_from_utf8")) (read_multibyte c generic utf8 (native c) (Return true));
   StartTest (lit (prefix ++ "_from_utf16"))
     (read_multibyte c generic utf16 Little (read_multibyte c generic utf16 Big (Return true)));
   StartTest (lit (prefix ++ "_from_utf32"))
     (read_multibyte c generic utf32 Little (read_multibyte c generic utf32 Big (Return true)));
   StartTest (lit (prefix ++ "_from_wide"))
     (read_multibyte c generic (form_of (wide (processor c))) Little
       (read_multibyte c generic (form_of (wide (processor c))) Big (Return true)))].

Definition text_input_stream_tests (c : computer) : list test :=
  [test_read_strings c "test_read_strings_from_char" (KChar (char_signed (processor c)));
   test_read_strings c "test_read_strings_from_utf8" K8;
   test_read_strings c "test_read_strings_from_utf16" K16;
   test_read_strings c "test_read_strings_from_utf32" K32;
   test_read_strings c "test_read_strings_from_wide" (wide (processor c))]
  ++ read_tests c "test_read_line" test_read_line_generic
  ++ read_tests c "test_read_all" test_read_all_generic.

(** io/test_text_output_stream.cpp 34-84 *)
Definition test_write_generic_text (c : computer) (f : file) (form : encoding_form) (order : endian) (rest : test) : test :=
  let ops := file_sink (system c) in
  let put k st rest :=
    call (write_string (native c) ops k st (units k shrug)) (fun st =>
    call (write_char (native c) ops (char_signed (processor c)) st 10) rest) in
  let after st :=
    put K8 st (fun st => put K16 st (fun st => put K32 st (fun st => put (wide (processor c)) st (fun st =>
    call (text_flush ops st) (fun _ => EndStage rest))))) in
  let st := TextOutput f order form in
  if is_utf8 form then after st else call (write_bom (native c) ops st) after.

(** 86-157, 161-279 *)
Definition write_multibyte (c : computer) (name : N) (form : encoding_form) (order : endian) (rest : test) : test :=
  opens c start name WriteOnly Create (default_capacity c) (fun f => test_write_generic_text c f form order rest).
Definition text_output_stream_tests (c : computer) : list test :=
  [StartTest (lit "test_write_to_utf8") (write_multibyte c 13 utf8 (native c) (Return true));
   StartTest (lit "test_write_to_utf16") (write_multibyte c 14 utf16 Little (write_multibyte c 15 utf16 Big (Return true)));
   StartTest (lit "test_write_to_utf32") (write_multibyte c 16 utf32 Little (write_multibyte c 17 utf32 Big (Return true)));
   StartTest (lit "test_write_to_wide")
     (write_multibyte c 18 (form_of (wide (processor c))) Little
       (write_multibyte c 19 (form_of (wide (processor c))) Big (Return true)))].

(** stream->set_position(n, position_reference::begin); stream << "there!";
    stream->set_position(0, position_reference::begin); stream.read_all(result); *)
Definition streams {R : Type} (c : computer) (ins : source R) (outs : sink R) (seek : R -> Z -> outcome R)
    (st : text_io R) (rest : test) : test :=
  let go st n := bind (seek (io_res st) n) (fun r =>
    Ok (TextIO r (io_in_order st) (io_in_form st) (io_out_order st) (io_out_form st))) in
  call (go st 7%Z) (fun st =>
  call (as_output st (fun o => write_string (native c) outs K8 o (text K8 "there!"))) (fun st =>
  call (go st 0%Z) (fun st =>
  call (as_input st (read_all (native c) ins enough K8)) (fun '(st, result) =>
  must (same_string result (text K8 "Hello, there!")) (EndStage rest))))).

(** io/test_text_io_stream.cpp 26-83 *)
Definition text_io_stream_tests (c : computer) : list test :=
  [StartTest (lit "test_stream") (
   streams c container_source container_sink (fun r n => seek_io r n FromBegin)
     (new_text_io (new_resource (text K8 "Hello, world!") 1 0) utf8 (native c)) (
   opens c start 7 ReadAndWrite Fail (default_capacity c) (fun f =>
   streams c (file_source (system c)) (file_sink (system c)) (fun f n => file_seek (system c) f n FromBegin)
     (new_text_io f utf8 (native c)) (
   Return true))))].
