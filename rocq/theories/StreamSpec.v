(** What a user expects of values and texts on a byte stream.  Independent of the
    model. *)
From Coq Require Import NArith ZArith List Bool.
From Verif Require Import UnicodeSpec.
Import ListNotations.
Open Scope N_scope.

(* -------------------------------------------------------------- byte order *)

Inductive byte_order : Type := LittleEndian | BigEndian.

Definition opposite (o : byte_order) : byte_order :=
  match o with LittleEndian => BigEndian | BigEndian => LittleEndian end.

(** The w low bytes of v, the least significant first. *)
Fixpoint little (w : nat) (v : N) : list N :=
  match w with
  | O => []
  | S w => v mod 256 :: little w (v / 256)
  end.

(** A value of w bytes in a given byte order. *)
Definition in_order (o : byte_order) (w : nat) (v : N) : list N :=
  match o with LittleEndian => little w v | BigEndian => rev (little w v) end.

(** A value that fits in w bytes. *)
Definition fits (x : nat * N) : Prop := snd x < 256 ^ N.of_nat (fst x).

(** Values of various widths one after the other. *)
Definition values_bytes (o : byte_order) (vs : list (nat * N)) : list N :=
  flat_map (fun '(w, v) => in_order o w v) vs.

(* -------------------------------------------------------------------- text *)

(** Bytes per code unit. *)
Definition unit_width (e : encoding) : nat :=
  match e with UTF8 => 1 | UTF16 => 2 | UTF32 => 4 end.

(** A text in an encoding form and byte order. *)
Definition text_bytes (e : encoding) (o : byte_order) (l : list N) : list N :=
  flat_map (in_order o (unit_width e)) (encode e l).

(** U+FEFF *)
Definition byte_order_mark : N := 0xFEFF.

(* ------------------------------------------------------------------- lines *)

(** The first line and what follows it: LF or CR LF ends a line.  Any other
    character, also a CR not followed by LF, belongs to the line. *)
Fixpoint first_line (l : list N) : list N * list N :=
  match l with
  | [] => ([], [])
  | c :: r =>
      if c =? 10 then ([], r)
      else match r with
           | d :: r' =>
               if (c =? 13) && (d =? 10) then ([], r')
               else let '(a, b) := first_line r in (c :: a, b)
           | [] => ([c], [])
           end
  end.

(** The lines of a text.  A text that ends with a line end has no further line
    after it. *)
Inductive lines_of : list N -> list (list N) -> Prop :=
| NoLines : lines_of [] []
| OneMore l a b ls : l <> [] -> first_line l = (a, b) -> lines_of b ls -> lines_of l (a :: ls).

(* ------------------------------------------------------------------- words *)

(** [words_of l ws]: ws are the maximal runs of non-white-space characters of l, in
    order. *)
Inductive words_of : list N -> list (list N) -> Prop :=
| NoWords l : Forall white_space l -> words_of l []
| AWord s w r ws : Forall white_space s -> w <> [] -> Forall (fun c => ~ white_space c) w ->
    (forall c t, r = c :: t -> white_space c) -> words_of r ws ->
    words_of (s ++ w ++ r) (w :: ws).

(** Every CR is followed by LF, or ends the text. *)
Fixpoint carriage_returns_paired (l : list N) : Prop :=
  match l with
  | [] => True
  | c :: r => (c = 13 -> match r with [] => True | d :: _ => d = 10 end) /\ carriage_returns_paired r
  end.
