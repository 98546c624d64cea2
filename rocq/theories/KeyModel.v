(** Model of keys, their names and the translation of native key codes.  Unknown
    native codes and values that are no keys included. *)
From Coq Require Import NArith ZArith List Bool.
From Verif Require Import Base KeySpec.
Import ListNotations.
Open Scope N_scope.

(** include/cmp/desktop_gui/general.hpp 32-105: enum class key.  [other_key] stands for
    every further value of the enumeration's underlying type. *)
Inductive key : Type :=
    | key_f1 | key_f2 | key_f3 | key_f4 | key_f5 | key_f6 | key_f7 | key_f8 | key_f9 | key_f10
    | key_f11 | key_f12 | key_f13 | key_f14 | key_f15 | key_f16 | key_f17 | key_f18 | key_f19
    | key_f20 | key_f21 | key_f22 | key_f23 | key_f24 | key_number_0 | key_number_1 | key_number_2
    | key_number_3 | key_number_4 | key_number_5 | key_number_6 | key_number_7 | key_number_8
    | key_number_9 | key_numpad_0 | key_numpad_1 | key_numpad_2 | key_numpad_3 | key_numpad_4
    | key_numpad_5 | key_numpad_6 | key_numpad_7 | key_numpad_8 | key_numpad_9 | key_a | key_b
    | key_c | key_d | key_e | key_f | key_g | key_h | key_i | key_j | key_k | key_l | key_m | key_n
    | key_o | key_p | key_q | key_r | key_s | key_t | key_u | key_v | key_w | key_x | key_y | key_z
    | key_space_bar | key_unknown | other_key (n : Z).

(** src/cmp/desktop_gui/general.cpp 10-160: to_u8string.  Without a matching case the
    end is reached without a return. *)
Definition to_u8string (k : key) : outcome (list N) :=
  match k with
  | key_f1 => Ok [70; 49]
  | key_f2 => Ok [70; 50]
  | key_f3 => Ok [70; 51]
  | key_f4 => Ok [70; 52]
  | key_f5 => Ok [70; 53]
  | key_f6 => Ok [70; 54]
  | key_f7 => Ok [70; 55]
  | key_f8 => Ok [70; 56]
  | key_f9 => Ok [70; 57]
  | key_f10 => Ok [70; 49; 48]
  | key_f11 => Ok [70; 49; 49]
  | key_f12 => Ok [70; 49; 50]
  | key_f13 => Ok [70; 49; 51]
  | key_f14 => Ok [70; 49; 52]
  | key_f15 => Ok [70; 49; 53]
  | key_f16 => Ok [70; 49; 54]
  | key_f17 => Ok [70; 49; 55]
  | key_f18 => Ok [70; 49; 56]
  | key_f19 => Ok [70; 49; 57]
  | key_f20 => Ok [70; 50; 48]
  | key_f21 => Ok [70; 50; 49]
  | key_f22 => Ok [70; 50; 50]
  | key_f23 => Ok [70; 50; 51]
  | key_f24 => Ok [70; 50; 52]
  | key_number_0 => Ok [48]
  | key_number_1 => Ok [49]
  | key_number_2 => Ok [50]
  | key_number_3 => Ok [51]
  | key_number_4 => Ok [52]
  | key_number_5 => Ok [53]
  | key_number_6 => Ok [54]
  | key_number_7 => Ok [55]
  | key_number_8 => Ok [56]
  | key_number_9 => Ok [57]
  | key_numpad_0 => Ok [78; 117; 109; 112; 97; 100; 32; 48]
  | key_numpad_1 => Ok [78; 117; 109; 112; 97; 100; 32; 49]
  | key_numpad_2 => Ok [78; 117; 109; 112; 97; 100; 32; 50]
  | key_numpad_3 => Ok [78; 117; 109; 112; 97; 100; 32; 51]
  | key_numpad_4 => Ok [78; 117; 109; 112; 97; 100; 32; 52]
  | key_numpad_5 => Ok [78; 117; 109; 112; 97; 100; 32; 53]
  | key_numpad_6 => Ok [78; 117; 109; 112; 97; 100; 32; 54]
  | key_numpad_7 => Ok [78; 117; 109; 112; 97; 100; 32; 55]
  | key_numpad_8 => Ok [78; 117; 109; 112; 97; 100; 32; 56]
  | key_numpad_9 => Ok [78; 117; 109; 112; 97; 100; 32; 57]
  | key_a => Ok [65]
  | key_b => Ok [66]
  | key_c => Ok [67]
  | key_d => Ok [68]
  | key_e => Ok [69]
  | key_f => Ok [70]
  | key_g => Ok [71]
  | key_h => Ok [72]
  | key_i => Ok [73]
  | key_j => Ok [74]
  | key_k => Ok [75]
  | key_l => Ok [76]
  | key_m => Ok [77]
  | key_n => Ok [78]
  | key_o => Ok [79]
  | key_p => Ok [80]
  | key_q => Ok [81]
  | key_r => Ok [82]
  | key_s => Ok [83]
  | key_t => Ok [84]
  | key_u => Ok [85]
  | key_v => Ok [86]
  | key_w => Ok [87]
  | key_x => Ok [88]
  | key_y => Ok [89]
  | key_z => Ok [90]
  | key_space_bar => Ok [83; 112; 97; 99; 101; 32; 66; 97; 114]
  | key_unknown => Ok [85; 110; 107; 110; 111; 119; 110]
  | other_key _ => UB NoReturn
  end.

(** A switch over key codes, with key::unknown as the default.  The cases are different
    numbers, as C++ requires, so the first match is the only one.  The form of windows_window.cpp
    12-162, gtk_window.cpp 14-190, macos_window.mm 34-176. *)
Definition switch (cases : list (N * key)) (code : N) : key :=
  match find (fun c => fst c =? code) cases with Some (_, k) => k | None => key_unknown end.

(** src/cmp/desktop_gui/impl/windows/windows_window.cpp 12-162: the cases of
    translate_key_code.  The VK_ constants are those of Windows.h (not in /repo). *)
Definition windows_cases : list (N * key) :=
  [
    (112, key_f1); (113, key_f2); (114, key_f3); (115, key_f4); (116, key_f5); (117, key_f6);
    (118, key_f7); (119, key_f8); (120, key_f9); (121, key_f10); (122, key_f11); (123, key_f12);
    (124, key_f13); (125, key_f14); (126, key_f15); (127, key_f16); (128, key_f17); (129, key_f18);
    (130, key_f19); (131, key_f20); (132, key_f21); (133, key_f22); (134, key_f23); (135, key_f24);
    (48, key_number_0); (49, key_number_1); (50, key_number_2); (51, key_number_3);
    (52, key_number_4); (53, key_number_5); (54, key_number_6); (55, key_number_7);
    (56, key_number_8); (57, key_number_9); (96, key_numpad_0); (97, key_numpad_1);
    (98, key_numpad_2); (99, key_numpad_3); (100, key_numpad_4); (101, key_numpad_5);
    (102, key_numpad_6); (103, key_numpad_7); (104, key_numpad_8); (105, key_numpad_9);
    (65, key_a); (66, key_b); (67, key_c); (68, key_d); (69, key_e); (70, key_f); (71, key_g);
    (72, key_h); (73, key_i); (74, key_j); (75, key_k); (76, key_l); (77, key_m); (78, key_n);
    (79, key_o); (80, key_p); (81, key_q); (82, key_r); (83, key_s); (84, key_t); (85, key_u);
    (86, key_v); (87, key_w); (88, key_x); (89, key_y); (90, key_z); (32, key_space_bar) ].

(** src/cmp/desktop_gui/impl/gtk/gtk_window.cpp 14-190: the cases of translate_key_code.
    The GDK_KEY_ constants are those of gdkkeysyms.h (not in /repo). *)
Definition gtk_cases : list (N * key) :=
  [
    (65470, key_f1); (65471, key_f2); (65472, key_f3); (65473, key_f4); (65474, key_f5);
    (65475, key_f6); (65476, key_f7); (65477, key_f8); (65478, key_f9); (65479, key_f10);
    (65480, key_f11); (65481, key_f12); (65482, key_f13); (65483, key_f14); (65484, key_f15);
    (65485, key_f16); (65486, key_f17); (65487, key_f18); (65488, key_f19); (65489, key_f20);
    (65490, key_f21); (65491, key_f22); (65492, key_f23); (65493, key_f24); (48, key_number_0);
    (49, key_number_1); (50, key_number_2); (51, key_number_3); (52, key_number_4);
    (53, key_number_5); (54, key_number_6); (55, key_number_7); (56, key_number_8);
    (57, key_number_9); (65456, key_numpad_0); (65457, key_numpad_1); (65458, key_numpad_2);
    (65459, key_numpad_3); (65460, key_numpad_4); (65461, key_numpad_5); (65462, key_numpad_6);
    (65463, key_numpad_7); (65464, key_numpad_8); (65465, key_numpad_9); (65, key_a); (97, key_a);
    (66, key_b); (98, key_b); (67, key_c); (99, key_c); (68, key_d); (100, key_d); (69, key_e);
    (101, key_e); (70, key_f); (102, key_f); (71, key_g); (103, key_g); (72, key_h); (104, key_h);
    (73, key_i); (105, key_i); (74, key_j); (106, key_j); (75, key_k); (107, key_k); (76, key_l);
    (108, key_l); (77, key_m); (109, key_m); (78, key_n); (110, key_n); (79, key_o); (111, key_o);
    (80, key_p); (112, key_p); (81, key_q); (113, key_q); (82, key_r); (114, key_r); (83, key_s);
    (115, key_s); (84, key_t); (116, key_t); (85, key_u); (117, key_u); (86, key_v); (118, key_v);
    (87, key_w); (119, key_w); (88, key_x); (120, key_x); (89, key_y); (121, key_y); (90, key_z);
    (122, key_z); (32, key_space_bar) ].

(** src/cmp/desktop_gui/impl/macos/macos_window.mm 34-176: the cases of
    translate_key_code. *)
Definition macos_cases : list (N * key) :=
  [
    (122, key_f1); (120, key_f2); (99, key_f3); (118, key_f4); (96, key_f5); (97, key_f6);
    (98, key_f7); (100, key_f8); (101, key_f9); (109, key_f10); (103, key_f11); (111, key_f12);
    (105, key_f13); (107, key_f14); (113, key_f15); (106, key_f16); (64, key_f17); (79, key_f18);
    (80, key_f19); (90, key_f20); (29, key_number_0); (18, key_number_1); (19, key_number_2);
    (20, key_number_3); (21, key_number_4); (23, key_number_5); (22, key_number_6);
    (26, key_number_7); (28, key_number_8); (25, key_number_9); (82, key_numpad_0);
    (83, key_numpad_1); (84, key_numpad_2); (85, key_numpad_3); (86, key_numpad_4);
    (87, key_numpad_5); (88, key_numpad_6); (89, key_numpad_7); (91, key_numpad_8);
    (92, key_numpad_9); (0, key_a); (11, key_b); (8, key_c); (2, key_d); (14, key_e); (3, key_f);
    (5, key_g); (4, key_h); (34, key_i); (38, key_j); (40, key_k); (37, key_l); (46, key_m);
    (45, key_n); (31, key_o); (35, key_p); (12, key_q); (15, key_r); (1, key_s); (17, key_t);
    (32, key_u); (9, key_v); (13, key_w); (7, key_x); (16, key_y); (6, key_z); (49, key_space_bar) ].

(** The three translate_key_code functions: windows_window.cpp 12-162, gtk_window.cpp 14-190,
    macos_window.mm 34-176 *)
Definition translate_key_code (t : toolkit) (code : N) : key :=
  switch (match t with WindowsApi => windows_cases | Gtk => gtk_cases | MacOS => macos_cases end) code.
