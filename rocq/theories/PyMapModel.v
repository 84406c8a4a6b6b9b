(** Typed getters, field maps and state fields in Python (bind_py_field_collection.cc:
    394-431, bind_py_field.cc:135-175, bind_py_state_field.cc:62-92): what the calls take
    and give, on top of RegistryModel.v, FieldModel.v and StateModel.v.

    The rules of pybind11 2.11.1 for numbers are those of PyCommModel.v and PyArgModel.v,
    those for matrices are stated at [load_value] and trusted.  Lifetimes of the objects
    are in PyLifeModel.v.  Maps with a negative number of rows (C53) are made as in C++,
    what Eigen does with them is not modelled. *)
From Coq Require Import String.
From Verif Require Import Base UnitsModel LayoutModel FieldModel RegistryModel StateModel PyCommModel PyArgModel.
Local Open Scope Z_scope.
Local Open Scope list_scope.

(** An array of numpy: the type of scalars of fields that its [dtype] is, if any
    ([float64] is [Real], [complex128] is [Complex], [int32] is [Int], [uint32] is
    [Uint]), extents, elements in C order, whether it can be written, and whether some
    stride is negative. *)
Record ndarray (A : Type) := mk_ndarray { d_type : option ftype; d_dims : list nat; d_entries : list A; d_writeable : bool; d_reversed : bool }.
Arguments mk_ndarray {A}. Arguments d_type {A}. Arguments d_dims {A}. Arguments d_entries {A}. Arguments d_writeable {A}. Arguments d_reversed {A}.
(** Values given to [set_uniform]: an array, or a number, list or anything else *)
Inductive pyvalue (A : Type) := VArray (a : ndarray A) | VOther.
Arguments VArray {A}. Arguments VOther {A}.

Section PyMap.
Context {A : Type} (zero : A) (add : A -> A -> A) (div : A -> Z -> A).

(** bind_py_field_collection.cc:394-431 [get_real_field] and others, with field.cc:69-77
    [assert_typeid]: one function per type of scalars *)
Definition py_get_field (ty : ftype) (c : coll A) (name : string) : res (rfield A) :=
  let! r := get_field c name in
  if negb (ftype_eqb (rf_type r) ty) then Err RuntimeError else Ok r.

(** The Python object for a map: field, type of scalars, map *)
Record pymap := mk_pymap { q_name : string; q_type : ftype; q_map : fmap }.
(** bind_py_field.cc:135-148 [get_pixel_map], [get_sub_pt_map] with field_typed.cc:517-522,
    535-540: no rows, or [Unknown] rows, is the default shape.  None: [TypeError] *)
Definition rows_argument (a : option pyarg) : option (option Z) :=
  match a with
  | None => Some None
  | Some x => option_map (fun n => if n =? unknown then None else Some n) (overloads [fun convert => load_index convert x])
  end.
Definition py_map (c : coll A) (name : string) (u : iter_unit) (a : option pyarg) : option (res pymap) :=
  option_map (fun rows => let! r := get_field c name in
                          let! m := new_map (rf_field r) u rows in
                          Ok (mk_pymap name (rf_type r) m)) (rows_argument a).

(** [py::EigenDRef<Eigen::Matrix<T, Dynamic, Dynamic>>]: arrays of exactly this type that
    can be written, with one or two dimensions; vectors are columns.  Nothing is
    converted.  Rows, columns, elements in C order. *)
Definition load_value (ty : ftype) (v : pyvalue A) : option (nat * nat * list A) :=
  match v with
  | VOther => None
  | VArray a =>
      match d_type a with
      | None => None
      | Some t =>
          if ftype_eqb t ty && d_writeable a && negb (d_reversed a) then
            match d_dims a with
            | [r] => Some (r, 1%nat, d_entries a)
            | [r; k] => Some (r, k, d_entries a)
            | _ => None
            end
          else None
      end
  end.
(** Eigen stores matrices by columns *)
Definition by_columns (r k : nat) (l : list A) : list A :=
  flat_map (fun j => map (fun i => nth (i * k + j) l zero) (seq 0 r)) (seq 0 k).
Definition by_rows (r k : nat) (l : list A) : list A :=
  flat_map (fun i => map (fun j => nth (i + r * j) l zero) (seq 0 k)) (seq 0 r).
(** bind_py_field.cc:168-175 [set_uniform], with field_map.hh:151-168 [operator=]; the
    matrix is copied on the way, for its strides are not those of [EigenRef].  None:
    [TypeError] *)
Definition py_set_uniform (c : coll A) (m : pymap) (v : pyvalue A) : option (coll A * res unit) :=
  option_map (fun t => let '(r, k, l) := t in
    on_field c (q_name m) (keep (map_update (fun _ x => x) (q_map m) (Z.of_nat r) (Z.of_nat k) (by_columns r k l)))) (load_value (q_type m) v).
(** bind_py_field.cc:161 [mean]: a new array *)
Definition py_mean (c : coll A) (m : pymap) : res (ndarray A) :=
  let! r := get_field c (q_name m) in
  let! s := map_mean zero add div (q_map m) (rf_field r) in
  let rows := Z.to_nat (m_rows (q_map m)) in
  let cols := Z.to_nat (m_cols (q_map m)) in
  Ok (mk_ndarray (Some (q_type m)) [rows; cols] (by_rows rows cols s) true false).

(** bind_py_state_field.cc:62-92 [current], [old]: the number of steps is a [size_t].
    None: [TypeError]; [OutOfRange] is [IndexError] *)
Definition py_current (y : sys A) (prefix : string) : res (rfield A) := field_at y prefix 0.
Definition py_old (y : sys A) (prefix : string) (steps : option pynum) : option (res (rfield A)) :=
  match load_integer true 0 (2 ^ 64 - 1) (match steps with None => NInt 1 | Some x => x end) with
  | Some (VZ n) => Some (field_at y prefix (Z.to_nat n))
  | _ => None
  end.
End PyMap.
