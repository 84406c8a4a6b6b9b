(** Frames of a file as Python programs use them (bind_py_file_io.cc:129-163, 178-206),
    on top of FrameModel.v: items, iterators and names of fields.

    The rules of pybind11 2.11.1 for numbers are those of PyArgModel.v; those for lists
    of strings and [make_iterator], and [reversed] of Python, are stated here and
    trusted.  Lifetimes of the objects are in PyLifeModel.v, what an access does with the
    data is in NetCDFModel.v and those on top of it. *)
From Coq Require Import String.
From Verif Require Import Base FrameModel PyCommModel PyArgModel.
Local Open Scope Z_scope.
Local Open Scope list_scope.

(** The argument [field_names]: a list or tuple, whose items are strings or something
    else; a string; anything else.  [std::vector<std::string>] takes sequences other than
    strings. *)
Inductive pynames := NSeq (l : list (option string)) | NText (s : string) | NOther.
Fixpoint load_strings (l : list (option string)) : option (list string) :=
  match l with
  | [] => Some []
  | None :: _ => None
  | Some s :: r => option_map (cons s) (load_strings r)
  end.
Definition load_names (n : pynames) : option (list string) := match n with NSeq l => load_strings l | _ => None end.
(** No names: the overload for all fields *)
Definition names_argument (n : option pynames) : option (option (list string)) :=
  match n with None => Some None | Some x => option_map Some (load_names x) end.
(** A single function with an argument of type [Index_t] *)
Definition index_argument (a : pyarg) : option Z := overloads [fun convert => load_index convert a].

(** State of [make_iterator]: current index, end, [first_or_done] *)
Record frame_iter := mk_iter { it_at : Z; it_end : Z; it_idle : bool }.
(** A file: number of frames, iterators, objects of [reversed] with their next index *)
Record pyfile := mk_pyfile { p_nb : Z; p_iters : list frame_iter; p_revs : list Z }.
Definition opened_with (nb : Z) : pyfile := mk_pyfile nb [] [].

(** What programs do.  [PFrame] is the constructor of [FileFrame] (147), [PUse] is
    [read] or [write] of a frame (148-162), [PAccess] [read] or [write] of the file
    (178-206); iterators and objects of [reversed] are named by their number. *)
Inductive pfop :=
| PLen | PItem (a : pyarg) | PAppend | PFrame (a : pyarg)
| PIter | PNext (i : nat) | PReversed | PPrevious (i : nat)
| PUse (frame : Z) (names : option pynames) | PAccess (a : pyarg) (names : option pynames).
(** [OFrame]: a frame with its number.  [OAccess]: the frame that is accessed, and the
    names of the fields, if not all. *)
Inductive pfout :=
| OLen (n : Z) | OFrame (f : Z) | OIter (i : nat) | OStop | OAccess (f : Z) (names : option (list string)) | OTypeError | ORaised (e : exn) | OUndefined.

Definition frame_out (r : res Z) : pfout := match r with Ok f => OFrame f | Err e => ORaised e | UB => OUndefined end.
Definition access_out (names : option (list string)) (r : res Z) : pfout :=
  match r with Ok f => OAccess f names | Err e => ORaised e | UB => OUndefined end.
(** [make_iterator]: [__next__].  [*it] is file_io_base.hh:509-511. *)
Definition iter_next (nb : Z) (t : frame_iter) : frame_iter * pfout :=
  let at_ := if it_idle t then it_at t else it_at t + 1 in
  if at_ =? it_end t then (mk_iter at_ (it_end t) true, OStop)
  else (mk_iter at_ (it_end t) false, frame_out (frame_at nb at_)).
(** [reversed] of an object with [__len__] and [__getitem__]: [__next__].  An exception
    other than [IndexError] and [StopIteration] passes, and ends the iteration. *)
Definition rev_next (nb : Z) (i : Z) : Z * pfout :=
  if i <? 0 then (-1, OStop)
  else match frame_at nb i with Ok f => (i - 1, OFrame f) | r => (-1, frame_out r) end.

Definition pfstep (s : pyfile) (o : pfop) : pyfile * pfout :=
  match o with
  | PLen => (s, OLen (p_nb s))
  | PItem a => (s, match index_argument a with Some k => frame_out (frame_at (p_nb s) k) | None => OTypeError end)
  | PAppend => (mk_pyfile (p_nb s + 1) (p_iters s) (p_revs s), OFrame (p_nb s))
  | PFrame a => (s, match index_argument a with Some k => OFrame k | None => OTypeError end)
  | PIter => (mk_pyfile (p_nb s) (p_iters s ++ [mk_iter 0 (p_nb s) true]) (p_revs s), OIter (length (p_iters s)))
  | PNext i =>
      match nth_error (p_iters s) i with
      | None => (s, OUndefined)
      | Some t => let '(t', r) := iter_next (p_nb s) t in (mk_pyfile (p_nb s) (upd (p_iters s) i t') (p_revs s), r)
      end
  | PReversed => (mk_pyfile (p_nb s) (p_iters s) (p_revs s ++ [p_nb s - 1]), OIter (length (p_revs s)))
  | PPrevious i =>
      match nth_error (p_revs s) i with
      | None => (s, OUndefined)
      | Some k => let '(k', r) := rev_next (p_nb s) k in (mk_pyfile (p_nb s) (p_iters s) (upd (p_revs s) i k'), r)
      end
  | PUse f names => (s, match names_argument names with Some n => access_out n (accessed f (p_nb s)) | None => OTypeError end)
  | PAccess a names =>
      (s, match index_argument a, names_argument names with Some k, Some n => access_out n (accessed k (p_nb s)) | _, _ => OTypeError end)
  end.
Fixpoint pfrun (s : pyfile) (h : list pfop) : pyfile * list pfout :=
  match h with
  | [] => (s, [])
  | o :: r => let '(s1, x) := pfstep s o in let '(s2, l) := pfrun s1 r in (s2, x :: l)
  end.
