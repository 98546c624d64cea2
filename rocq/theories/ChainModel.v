(** Model of chains of << and >>:
    /repo/api/include/cmp/io/text_output_stream.hpp 262-552,
    /repo/api/include/cmp/io/text_input_stream.hpp 293-394,
    /repo/api/include/cmp/io/data_output_stream.hpp 126-146,
    /repo/api/include/cmp/io/data_input_stream.hpp 126-146,
    /repo/api/include/cmp/io/output_stream.hpp 245-264,
    /repo/api/include/cmp/io/text_io_stream.hpp 18-24, data_io_stream.hpp 18-24.
    None stands for a program that does not compile. *)
From Coq Require Import NArith List Bool.
From Verif Require Import TypeSpec TypeModel ChainSpec.
Import ListNotations.
Open Scope N_scope.

(** The type of an expression that is a stream: one of the six, or output_stream&, the
    base class of those that write.  The return types of the operators: text_output_stream.ipp
    150-470, text_input_stream.ipp 404-510, output_stream.ipp 135-147, data_output_stream.ipp and
    data_input_stream.ipp. *)
Inductive static_type : Type := Whole (k : stream_kind) | BaseOutput.

(** The class templates the operators take are deduced through base classes
    (text_io_stream.hpp 21-24, data_io_stream.hpp 21-24, output_stream.hpp 27). *)
Definition text_output (s : static_type) : bool := match s with Whole TextOut | Whole TextBoth => true | _ => false end.
Definition text_input (s : static_type) : bool := match s with Whole TextIn | Whole TextBoth => true | _ => false end.
Definition data_output (s : static_type) : bool := match s with Whole DataOut | Whole DataBoth => true | _ => false end.
Definition data_input (s : static_type) : bool := match s with Whole DataIn | Whole DataBoth => true | _ => false end.
Definition any_output (s : static_type) : bool :=
  match s with BaseOutput => true | s => text_output s || data_output s end.

(** The parameter flush_t: output_stream.hpp 256-264 *)
Definition takes_flush (t : ty) : bool := match converts t FlushMark with Some _ => true | None => false end.

(** data_output_stream.hpp 137-146: T& with a T that is fundamental.  A temporary does
    not bind to T&.  The body passes &source to std::memcpy, which does not take
    pointers to volatile (data_output_stream.ipp 26-58). *)
Definition data_put (named : bool) (t : ty) : option fundamental :=
  if named then
    match t with
    | Basic _ Void => None                           (* there are no such objects *)
    | Basic q f => if is_volatile q then None else Some f
    | _ => None
    end
  else None.

(** data_input_stream.hpp 137-146 and data_input_stream.ipp 26-72: &target is passed to
    std::memcpy as the place to write to, so it must not point to const either. *)
Definition data_get (t : ty) : option fundamental :=
  match t with
  | Basic _ Void => None
  | Basic q f => if is_volatile q || is_const q then None else Some f
  | _ => None
  end.

(** One part: its effect and the type of the resulting stream.  Every operator returns
    a reference to the class it takes.  output_stream.ipp 135-147, data_output_stream.hpp 137-146,
    data_input_stream.hpp 137-146, text_output_stream.hpp 275-552, text_input_stream.hpp 293-394. *)
Definition step (z : sizes) (s : static_type) (p : part) : option (effect * static_type) :=
  match p with
  | Put named t =>
      if any_output s && takes_flush t then Some (Shown Flushes, BaseOutput)
      else if text_output s then
        match print_choice t with Calls x => Some (Shown x, Whole TextOut) | _ => None end
      else if data_output s then
        match data_put named t with Some f => Some (Stored f, Whole DataOut) | None => None end
      else None
  | Get t =>
      if text_input s then
        match read_choice z t with Some (Calls x) => Some (Taken x, Whole TextIn) | _ => None end
      else if data_input s then
        match data_get t with Some f => Some (Loaded f, Whole DataIn) | None => None end
      else None
  end.

(** stream << a >> b ..., from left to right.  No code of /repo: the use of its operators in an
    expression. *)
Fixpoint chain (z : sizes) (s : static_type) (ps : list part) : option (list effect) :=
  match ps with
  | [] => Some []
  | p :: ps =>
      match step z s p with
      | Some (e, s') => match chain z s' ps with Some es => Some (e :: es) | None => None end
      | None => None
      end
  end.
