(** Option dictionaries in Python (bind_py_options_dictionary.cc): which objects the
    constructors, [add], [__setitem__] and [__getitem__] take and give, on top of
    DictModel.v.

    The rules of pybind11 for numbers are those of PyCommModel.v.  Floats are given by
    their 64 bits. *)
From Coq Require Import String.
From Verif Require Import Base DictModel PyCommModel.
Local Open Scope Z_scope.
Local Open Scope list_scope.

(** An array of numpy that has at least one dimension: whether its elements are
    [numpy.float64], its extents, its elements in C order (none of another type),
    whether it can be written, and whether some stride is negative.  Arrays of other
    elements have more than one of them. *)
Record narray := mk_narray { n_real : bool; n_dims : list nat; n_entries : list Z; n_writeable : bool; n_reversed : bool }.
(** [Eigen::MatrixXd], entries row by row *)
Record matrix := mk_matrix { x_rows : nat; x_cols : nat; x_entries : list Z }.
(** Objects: [OInt] is an [int], [ONumpyInt] an integer of numpy, [OFloat] a [float] or
    [numpy.float64], [OReal] another real number. *)
Inductive pyobj :=
| OInt (n : Z) | OBool (b : bool) | ONumpyInt (n : Z) | OFloat (bits : Z) | OReal (bits : Z) | OComplex (re im : Z)
| OArray (a : narray) | ODict (l : list (option string * pyobj)) | OOther.

(** [py::EigenDRef<Eigen::MatrixXd>]: arrays of floats with one or two dimensions that
    can be written, whatever their strides unless negative; vectors are columns. *)
Definition load_matrix (a : narray) : option matrix :=
  if n_real a && n_writeable a && negb (n_reversed a) then
    match n_dims a with
    | [r] => Some (mk_matrix r 1 (n_entries a))
    | [r; c] => Some (mk_matrix r c (n_entries a))
    | _ => None
    end
  else None.
(** 53-75 [convert], 149-166 [__setitem__]: the value of an item.  An array that does
    not fit is refused by [cast] with a [RuntimeError], as unknown types are. *)
Fixpoint item (x : pyobj) : py Z matrix :=
  match x with
  | OInt n => PInt n
  | OBool b => PInt (Z.b2z b)
  | OFloat r => PReal r
  | ODict l => PDict (map (fun e => (fst e, item (snd e))) l)
  | OArray a => match load_matrix a with Some m => PMat m | None => POther end
  | ONumpyInt _ | OReal _ | OComplex _ _ | OOther => POther
  end.
Definition make_dict (s : dstate Z matrix) (x : pyobj) : dstate Z matrix * res nat := convert s (item x).
Definition set_item (s : dstate Z matrix) (a : nat) (key : string) (x : pyobj) : dstate Z matrix * res unit := py_setitem s a key (item x).

(** 83-89 the constructor from key and value, 132-148 [add]: overloads for [Int], [Real]
    and matrices, in this order.  An array of one element that is not taken as it is
    becomes a number. *)
Definition number_of (x : pyobj) : option pynum :=
  match x with
  | OInt n | ONumpyInt n => Some (NInt n) | OBool b => Some (NBool b) | OFloat r => Some (NFloat r) | OReal r => Some (NReal r) | OComplex r i => Some (NComplex r i)
  | OArray a => match n_real a, n_entries a with true, [r] => Some (NReal r) | _, _ => None end
  | ODict _ | OOther => None
  end.
Definition overload (x : pyobj) : option (dval Z matrix) :=
  let number := match number_of x with
                | Some y => match choose sum_types y with
                            | Some (_, VZ n) => Some (VInt n)
                            | Some (_, VR r) => Some (VReal r)
                            | _ => None
                            end
                | None => None
                end in
  match x with OArray a => match load_matrix a with Some m => Some (VMat m) | None => number end | _ => number end.
(** None: [TypeError] *)
Definition add_item (s : dstate Z matrix) (a : nat) (key : string) (x : pyobj) : option (dstate Z matrix * res unit) :=
  option_map (add_value s a key) (overload x).
Definition new_dict (s : dstate Z matrix) (key : string) (x : pyobj) : option (dstate Z matrix * nat) :=
  option_map (fun v => let '(s1, b) := alloc s (NVal v) in alloc s1 (NDict [(key, b)])) (overload x).
(** 95-131 [__getitem__]: matrices are copied to a new array of two dimensions, entry by
    entry. *)
Definition given_back (v : dval Z matrix) : pyobj :=
  match v with
  | VInt n => OInt n
  | VReal r => OFloat r
  | VMat m => OArray (mk_narray true [x_rows m; x_cols m] (x_entries m) true false)
  end.
Definition get_item (s : dstate Z matrix) (a : nat) (key : string) : res pyobj := let! v := py_getitem s a key in Ok (given_back v).
