(** Arrays of fields in a Python program (bind_py_field.cc:88-134, numpy_tools.hh:
    428-436): which memory they are on, and what becomes of it while the program goes on
    working with the collection.

    Modelled are the calls of a program on one collection that exists all the time
    (see PyLifeModel.v for its lifetime).  Trusted rules of numpy and pybind11
    (2.11.1): [py::array] with a pointer and a base is an array on that memory; with a
    null pointer numpy allocates memory for the elements, of arbitrary content, and
    takes the strides as they are given; negative extents are refused
    ([ValueError]), as are shapes and strides of different length; element access
    checks the index against the shape.  Negative indices, which numpy counts from the
    end, are not modelled. *)
From Coq Require Import String.
From Verif Require Import Base CIntModel GridModel StridedModel UnitsModel LayoutModel FieldModel RegistryModel NumpyModel.
Local Open Scope Z_scope.
Local Open Scope list_scope.

Section PyArray.
Context {A : Type} (zero junk : A).

(** An array that the program got of a field: the field and the view asked for, the
    allocation its pointer designates ([None]: memory of its own), shape and
    strides, and its own memory. *)
Record view := mk_view {
  v_name : string;
  v_unit : iter_unit;
  v_ptr : option Z;
  v_arr : nparray;
  v_own : list A
}.
Record session := mk_session { p_coll : coll A; p_views : list view }.

(** [sizeof(T)] of the types of fields. *)
Definition type_size (t : ftype) : Z := match t with Real | Index => 8 | Complex => 16 | Int | Uint => 4 end.

(** numpy's element access. *)
Definition address (a : nparray) (i : list Z) : Z := Z.quot (linear_index i (np_strides a)) (np_item a).
Fixpoint index_ok (shape i : list Z) : bool :=
  match shape, i with
  | [], [] => true
  | n :: s, x :: r => (0 <=? x) && (x <? n) && index_ok s r
  | _, _ => false
  end.

(** bind_py_field.cc:88-91, 123-128: the properties [s] and [p] and the method
    [array] of a field. *)
Definition get_array (c : coll A) (name : string) (u : iter_unit) : res view :=
  let! r := get_field c name in
  let f := rf_field r in
  let! a := numpy_wrap (f_lay f) (get_strides (f_lay f)) u (type_size (rf_type r)) in
  if negb (length (np_shape a) =? length (np_strides a))%nat then Err RuntimeError
  else if existsb (fun n => n <? 0) (np_shape a) then Err ValueError
  else Ok (mk_view name u (f_ptr f) a
             (match f_ptr f with None => repeat junk (Z.to_nat (zprod (np_shape a))) | Some _ => [] end)).

(** The memory an array is on, as long as the pointer designates the present
    allocation of the field. *)
Definition view_memory (s : session) (v : view) : res (list A) :=
  match v_ptr v with
  | None => Ok (v_own v)
  | Some g => let! r := get_field (p_coll s) (v_name v) in
              if g =? f_gen (rf_field r) then Ok (f_vals (rf_field r)) else UB
  end.
Definition get_view (s : session) (i : nat) : res view :=
  match nth_error (p_views s) i with Some v => Ok v | None => Err KeyError end.
(** [x = a\[idx\]] *)
Definition view_get (s : session) (i : nat) (idx : list Z) : res A :=
  let! v := get_view s i in
  if negb (index_ok (np_shape (v_arr v)) idx) then Err OutOfRange
  else let! m := view_memory s v in rd m (address (v_arr v) idx).
(** [a\[idx\] = x]; the change of a field's memory is the write of the registry. *)
Definition view_put (s : session) (i : nat) (idx : list Z) (x : A) : session * res unit :=
  match get_view s i with
  | Ok v =>
      if negb (index_ok (np_shape (v_arr v)) idx) then (s, Err OutOfRange)
      else match view_memory s v with
      | Ok m =>
          match v_ptr v with
          | None =>
              match wr m (address (v_arr v) idx) x with
              | Ok w => (mk_session (p_coll s) (upd (p_views s) i (mk_view (v_name v) (v_unit v) None (v_arr v) w)), Ok tt)
              | Err e => (s, Err e) | UB => (s, UB)
              end
          | Some _ =>
              let '(c', o) := step zero (p_coll s) (OWrite (v_name v) (address (v_arr v) idx) x) in
              (mk_session c' (p_views s), o)
          end
      | Err e => (s, Err e) | UB => (s, UB)
      end
  | Err e => (s, Err e) | UB => (s, UB)
  end.

(** bind_py_field.cc:93-108: assignment of an array, whose memory is [vals], to one of
    the properties.  [strided_copy] writes through the pointer of the field; where
    that designates no memory, any write is undefined. *)
Definition assign_array (c : coll A) (name : string) (u : iter_unit) (a : nparray) (vals : list A)
  : coll A * res unit :=
  on_field c name (keep (fun f =>
    match f_ptr f with
    | Some g =>
        if g =? f_gen f then
          let! v := array_setter (f_lay f) (get_strides (f_lay f)) u a vals (f_vals f) in Ok (with_vals f v)
        else let! _ := array_setter (f_lay f) (get_strides (f_lay f)) u a vals [] in Ok f
    | None => let! _ := array_setter (f_lay f) (get_strides (f_lay f)) u a vals [] in Ok f
    end)).

(** What a program can do to a collection (bind_py_field_collection.cc:67-378,
    388, 482-497, 510-518, bind_py_field.cc:70): there is no way to remove, pad, reshape
    or push to fields. *)
Definition from_python (o : op A) : bool :=
  match o with
  | ORegister _ _ _ _ _ _ | OSetSubPts _ _ | OAddPixel _ | OInitLocal | OInitGlobal _ _ _ _
  | OInitGlobalOrder _ _ _ _ => true
  | _ => false
  end.
Inductive pycall :=
| PColl (o : op A)
| PArray (name : string) (u : iter_unit)
| PPut (i : nat) (idx : list Z) (x : A)
| PAssign (name : string) (u : iter_unit) (a : nparray) (vals : list A)
| PZero (name : string).

Definition pystep (s : session) (k : pycall) : session * res unit :=
  match k with
  | PColl o => if from_python o then let '(c', r) := step zero (p_coll s) o in (mk_session c' (p_views s), r)
               else (s, Err KeyError)
  | PArray name u =>
      match get_array (p_coll s) name u with
      | Ok v => (mk_session (p_coll s) (p_views s ++ [v]), Ok tt)
      | Err e => (s, Err e) | UB => (s, UB)
      end
  | PPut i idx x => view_put s i idx x
  | PAssign name u a vals => let '(c', r) := assign_array (p_coll s) name u a vals in (mk_session c' (p_views s), r)
  | PZero name => let '(c', r) := on_field (p_coll s) name (fun f => (set_zero zero f, Ok tt)) in
                  (mk_session c' (p_views s), r)
  end.
Definition pyrun (s : session) (l : list pycall) : session := fold_left (fun s k => fst (pystep s k)) l s.
End PyArray.
Arguments view A : clear implicits.
Arguments session A : clear implicits.
Arguments pycall A : clear implicits.
