(** Keys of a keyboard, what is written on them, and the codes by which Windows, GTK and
    macOS know them.  Independent of the model. *)
From Coq Require Import NArith List.
Import ListNotations.
Open Scope N_scope.

(** The libraries that show windows and tell of keys. *)
Inductive toolkit : Type := WindowsApi | Gtk | MacOS.

Inductive label : Type :=
| FunctionKey (n : N)   (* F1 .. F24 *)
| NumberKey (d : N)     (* 0 .. 9 above the letters *)
| NumpadKey (d : N)
| LetterKey (i : N)     (* 0 is A, 25 is Z *)
| SpaceKey.

Definition on_keyboard (l : label) : Prop :=
  match l with
  | FunctionKey n => 1 <= n <= 24
  | NumberKey d | NumpadKey d => d <= 9
  | LetterKey i => i <= 25
  | SpaceKey => True
  end.

(** "F12", "7", "Numpad 7", "Q", "Space Bar" in UTF-8 *)
Definition caption (l : label) : list N :=
  match l with
  | FunctionKey n => 70 :: (if n <? 10 then [48 + n] else [48 + n / 10; 48 + n mod 10])
  | NumberKey d => [48 + d]
  | NumpadKey d => [78; 117; 109; 112; 97; 100; 32; 48 + d]
  | LetterKey i => [65 + i]
  | SpaceKey => [83; 112; 97; 99; 101; 32; 66; 97; 114]
  end.

(** "Unknown" *)
Definition unknown_caption : list N := [85; 110; 107; 110; 111; 119; 110].

(** Virtual-key codes of Windows. *)
Definition windows_code (l : label) : N :=
  match l with
  | FunctionKey n => 0x70 + (n - 1)
  | NumberKey d => 0x30 + d
  | NumpadKey d => 0x60 + d
  | LetterKey i => 0x41 + i
  | SpaceKey => 0x20
  end.

(** Key symbols of GDK: a letter has one for each case. *)
Definition gdk_codes (l : label) : list N :=
  match l with
  | FunctionKey n => [0xffbe + (n - 1)]
  | NumberKey d => [0x30 + d]
  | NumpadKey d => [0xffb0 + d]
  | LetterKey i => [0x41 + i; 0x61 + i]
  | SpaceKey => [0x20]
  end.

(** Virtual key codes of macOS (HIToolbox/Events.h), in the order of the labels.  There
    are none for F21 .. F24. *)
Definition macos_codes (l : label) : list N :=
  let pick n from := match nth_error from (N.to_nat n) with Some c => [c] | None => [] end in
  match l with
  | FunctionKey n =>
      pick (n - 1) [0x7A; 0x78; 0x63; 0x76; 0x60; 0x61; 0x62; 0x64; 0x65; 0x6D; 0x67; 0x6F;
                    0x69; 0x6B; 0x71; 0x6A; 0x40; 0x4F; 0x50; 0x5A]
  | NumberKey d => pick d [0x1D; 0x12; 0x13; 0x14; 0x15; 0x17; 0x16; 0x1A; 0x1C; 0x19]
  | NumpadKey d => pick d [0x52; 0x53; 0x54; 0x55; 0x56; 0x57; 0x58; 0x59; 0x5B; 0x5C]
  | LetterKey i =>
      pick i [0x00; 0x0B; 0x08; 0x02; 0x0E; 0x03; 0x05; 0x04; 0x22; 0x26; 0x28; 0x25; 0x2E;
              0x2D; 0x1F; 0x23; 0x0C; 0x0F; 0x01; 0x11; 0x20; 0x09; 0x0D; 0x07; 0x10; 0x06]
  | SpaceKey => [0x31]
  end.
