(** What happens to a container that any number of writers and readers and its owner use, in
    every order: an abstract machine made of those of PenSpec and CursorSpec.  Independent of
    the model. *)
From Coq Require Import NArith ZArith List Bool.
From Verif Require Import ResourceSpec CursorSpec PenSpec.
Import ListNotations.
Open Scope Z_scope.

(** One that uses the container through a buffer of cap bytes. *)
Inductive user : Type :=
| Writer (cap s : Z) (wt : option (list N))
| Reader (cap : Z) (c : cursor).

(** The owner gives the container another content; or the k-th user does something. *)
Inductive event : Type :=
| Replaced (l : list N)
| By (k : nat) (x : call).

(** How it ends: memory outside the container is written or read; or with this content, these
    users and these answers. *)
Inductive ending : Type :=
| Outside (writing : bool)
| Now (l : list N) (us : list user) (answers : list answer).

Definition instead {A : Type} (k : nat) (u : A) (us : list A) : list A := firstn k us ++ u :: skipn (S k) us.

Definition answered (a : answer) (e : ending) : ending :=
  match e with Outside b => Outside b | Now l us answers => Now l us (a :: answers) end.

(** All work on what is in the container at the time; everyone has a position of their own. *)
Fixpoint crowd (w : Z) (l : list N) (us : list user) (es : list event) : ending :=
  match es with
  | [] => Now l us []
  | Replaced l :: es => crowd w l us es
  | By k x :: es =>
      match nth_error us k with
      | None => crowd w l us es
      | Some (Writer cap s wt) =>
          match stroke w cap (Pen l s wt) x with
          | None => Outside true
          | Some (p, a) => answered a (crowd w (page p) (instead k (Writer cap (spot p) (waiting p)) us) es)
          end
      | Some (Reader cap c) =>
          match turn w cap l c x with
          | None => Outside false
          | Some (c, a) => answered a (crowd w l (instead k (Reader cap c) us) es)
          end
      end
  end.

(** Someone new: whether to write, and the size of the buffer. *)
Definition newcomer (x : bool * nat) : user :=
  if fst x then Writer (Z.of_nat (snd x)) 0 None else Reader (Z.of_nat (snd x)) start.

(** Writers do not read, readers do not write, and blocks are large enough. *)
Definition suited (kinds : list (bool * nat)) (e : event) : Prop :=
  match e with
  | Replaced _ => True
  | By k x =>
      match nth_error kinds k with
      | None => True
      | Some (true, _) => match x with Read _ _ => False | _ => True end
      | Some (false, _) => match x with Write _ | Flush => False | Read block n => 0 <= n <= len block | _ => True end
      end
  end.

(** How many bytes are ever brought to the container. *)
Fixpoint brought (es : list event) : Z :=
  match es with
  | [] => 0
  | Replaced l :: es => len l + brought es
  | By _ (Write d) :: es => len d + brought es
  | _ :: es => brought es
  end.

(** The position a user reports. *)
Definition reported (u : user) : Z :=
  match u with
  | Writer _ s wt => s + len (match wt with Some d => d | None => [] end)
  | Reader _ c => place c + spent c
  end.

(** The k-th user goes to the end, writes d and flushes. *)
Definition appends (x : nat * list N) : list event :=
  [By (fst x) (SetPosition 0 End); By (fst x) (Write (snd x)); By (fst x) Flush].
