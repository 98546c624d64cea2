(** Model of the times update functions are told:
    /repo/api/src/cmp/desktop_gui/impl/common/common_window.cpp 12-33 (update_window), and of
    the example program /repo/examples/desktop_gui_example/src/main.cpp.

    The clock is std::chrono::steady_clock; its differences are 64-bit counts of nanoseconds
    in the standard libraries of all supported compilers. *)
From Coq Require Import NArith ZArith List Bool.
From Verif Require Import Base Integers UnicodeModel NumberModel FloatModel.
Import ListNotations.
Open Scope Z_scope.

(** common_window.cpp 19-24 and 27-30: duration_cast<duration<double>>(d).count(), which is
    static_cast<double>(d.count()) / static_cast<double>(1000000000), each operation rounded. *)
Definition seconds (ticks : Z) : fval :=
  match from_long_long F64 ticks with
  | Fin x => pack F64 (Z.sgn x * round_ratio (prec F64) (Z.abs x) 1000000000)
  | x => x
  end.

(** Models no function of /repo: an update function that adds up the deltas it is told. *)
Definition accumulate (deltas : list fval) : fval := fold_left (fadd F64) deltas (Fin 0).

(** main.cpp 31-33: static_cast<int>(std::floor(total_seconds)) *)
Definition whole_seconds (total : fval) : outcome Z :=
  match total with
  | Fin x => let i := whole F64 x in
             if (min_of I32 <=? i) && (i <=? max_of I32) then Ok i else UB FloatCast
  | _ => UB FloatCast
  end.

(** main.cpp 9-99: class demo_window, and the title of the window. *)
Record demo_window : Type := DemoWindow {
  show_counter : bool; last_counter_value : Z; shown_title : list N }.

(** "Demo Window " and three further characters in UTF-8, main.cpp 16 and 22, 63. *)
Definition demo_name : list N :=
  [68; 101; 109; 111; 32; 87; 105; 110; 100; 111; 119; 32; 0xC2; 0xAF; 92; 95; 40; 0xE3; 0x83; 0x84; 41;
   95; 47; 0xC2; 0xAF]%N.

(** main.cpp 13-23: the constructor.  Setting and getting titles are modelled in LookModel.v;
    here the title is the one last set. *)
Definition new_demo : demo_window := DemoWindow false (-1) demo_name.

(** main.cpp 25-49: update *)
Definition demo_update (cs : bool) (total : fval) (w : demo_window) : outcome demo_window :=
  if show_counter w then
    bind (whole_seconds total) (fun k =>
    if last_counter_value w <? k then
      bind (format_integer K8 cs I32 k (IntegerFormat 10 OnlyWhenNegative SepComma)) (fun s =>
      Ok (DemoWindow true k (s ++ [115%N])))
    else Ok w)
  else Ok w.

(** main.cpp 51-67: handle_key_down_event, without the printed line (see StdioModel.v) *)
Definition demo_key_down (space_bar : bool) (w : demo_window) : demo_window :=
  if space_bar then
    if show_counter w then DemoWindow false (last_counter_value w) demo_name
    else DemoWindow true (last_counter_value w) (shown_title w)
  else w.
