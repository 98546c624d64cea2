(** Programs that ask for numbers and truth values, as in the theorem statements. *)
From Coq Require Import NArith ZArith List Bool.
From Verif Require Import Base Integers UnicodeSpec UnicodeModel UnicodeText StreamSpec ResourceModel NumberModel StreamModel
  StreamText StdioSpec StdioModel StdioText RetrySpec RetryModel.
Import ListNotations.
Open Scope Z_scope.

(** uout << text or uerr << text; or a question. *)
Inductive step : Type := Print (ch : channel) (k : ukind) (l : list N) | Try (q : wanted).

Fixpoint run_steps (pl : platform) (native : endian) (fuel : nat) (s : stdio) (l : list step)
  : outcome (stdio * list reply) :=
  match l with
  | [] => Ok (s, [])
  | Print ch k x :: l => bind (say pl native ch k x s) (fun s => run_steps pl native fuel s l)
  | Try q :: l =>
      bind (attempt pl native fuel q s) (fun '(s, a) =>
      bind (run_steps pl native fuel s l) (fun '(s, rs) => Ok (s, a :: rs)))
  end.

(** for (;;) { uout << prompt; try { uin >> x; break; } catch (...) {} }, cut off after n
    rounds. *)
Fixpoint ask_until (pl : platform) (native : endian) (fuel : nat) (n : nat) (k : ukind) (prompt : list N)
    (q : wanted) (s : stdio) : outcome (stdio * reply) :=
  match n with
  | O => Diverge
  | S n =>
      bind (say pl native StandardOutput k prompt s) (fun s =>
      bind (attempt pl native fuel q s) (fun '(s, a) =>
      match a with Wrong => ask_until pl native fuel n k prompt q s | _ => Ok (s, a) end))
  end.

Definition asked (l : list step) : list wanted :=
  flat_map (fun x => match x with Try q => [q] | _ => [] end) l.
Definition printed (ch : channel) (l : list step) : list N :=
  flat_map (fun x => match x with Print ch' _ t => if same_channel ch ch' then t else [] | _ => [] end) l.
Definition can_print (pl : platform) (native : byte_order) (l : list step) : Prop :=
  Forall (fun x => match x with
                   | Print _ k t => Forall (printable native UTF8 native k) t /\
                       (pl = Windows -> Z.of_nat (length (text_bytes UTF8 native t)) < 2 ^ 32)
                   | _ => True
                   end) l.
