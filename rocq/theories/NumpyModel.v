(** Wrapping numpy arrays in fields and fields in numpy arrays
    (numpy_tools.hh), fields on foreign memory (field_typed.cc, [WrappedField])
    and the Python properties [s] and [p] of a field (bind_py_field.cc). *)
From Verif Require Import Base CIntModel GridModel StridedModel LayoutModel.

(** What the code reads of a [py::array_t<T>]: shape, strides in bytes and
    item size.  The address of the first element is the origin of all
    offsets. *)
Record nparray := mk_nparray {
  np_shape : list Z;
  np_strides : list Z;
  np_item : Z
}.
Definition np_ndim (a : nparray) : nat := length (np_shape a).
Definition np_size (a : nparray) : Z := zprod (np_shape a).

(** [std::minmax_element] returns the first smallest and the last largest
    element; [last_max i] yields value and position of the latter. *)
Definition min_elt (x : Z) (l : list Z) : Z := fold_left Z.min l x.
Definition last_max (x : Z) (l : list Z) : Z * nat :=
  snd (fold_left (fun st y => let '(i, (bv, bi)) := st in
                              (S i, if bv <=? y then (y, i) else (bv, bi)))
                 l (1%nat, (x, 0%nat))).

(** numpy_tools.hh:141-145, 176-182: division by the smallest stride, if that
    is positive. *)
Definition normalise (smallest : Z) (l : list Z) : list Z :=
  if 0 <? smallest then map (fun s => Z.quot s smallest) l else l.

(** numpy_tools.hh:159-163, 166-170: [for (i = 1; i < size - 1; ++i)] compares
    the entries [i + 1] and [i]; the pair (1, 0) is not looked at. *)
Fixpoint any_decrease (l : list Z) : bool :=
  match l with x :: ((y :: _) as r) => (y <? x) || any_decrease r | _ => false end.
Fixpoint any_increase (l : list Z) : bool :=
  match l with x :: ((y :: _) as r) => (x <? y) || any_increase r | _ => false end.

(** numpy_tools.hh:112-152: first guess from the order of components and
    pixels, then contiguity of the components.  [c :: cs] and [p :: ps] are
    the byte strides, [axes] the outcome of [std::sort] inside
    [is_buffer_contiguous]. *)
Definition guess_order (n comp : list Z) (c : Z) (cs : list Z) (p : Z) (ps : list Z) : storder :=
  let c_first := min_elt c cs in
  let '(c_second, c_at) := last_max c cs in
  let p_first := min_elt p ps in
  let '(p_second, p_at) := last_max p ps in
  if p_second <? c_first then
    if c_first =? zn n p_at * p_second then RowMajor else UnknownOrder
  else if c_second <=? p_first then
    if p_first =? zn comp c_at * c_second then ColMajor else UnknownOrder
  else UnknownOrder.

(** numpy_tools.hh:71-204 [detect_storage_order]; an empty grid ([dim = 0])
    makes the code dereference the end of an empty vector. *)
Definition detect_storage_order_with (axes : list nat) (n comp : list Z) (nsub : Z) (a : nparray)
  : res (storder * list Z * list Z) :=
  let dim := length n in
  let nc := length comp in
  if negb (dim + nc =? np_ndim a)%nat then Err NumpyError else
  let cstr := firstn nc (np_strides a) in
  let pstr := skipn (np_ndim a - dim) (np_strides a) in
  let item s := Z.quot s (np_item a) in
  let strides := map item cstr
                 ++ (if negb (nc =? 0)%nat && (nsub =? 1) then [0] else [])
                 ++ map item pstr in
  match pstr with
  | [] => UB
  | p :: ps =>
    let! order := match cstr with
      | [] => Ok ColMajor
      | c :: cs =>
        let norm := normalise (min_elt c cs) cstr in
        let! contiguous := is_buffer_contiguous_ax comp norm axes in
        let guess := if contiguous then guess_order n comp c cs p ps else UnknownOrder in
        Ok (match guess with
            | ColMajor => if any_decrease (tl norm) then UnknownOrder else ColMajor
            | o => if any_increase (tl norm) then UnknownOrder else o
            end)
      end in
    let pnorm := normalise (min_elt p ps) pstr in
    if (1 <? nsub) && storder_eqb order UnknownOrder then Err NumpyError
    else Ok (order, pnorm,
             match order with ColMajor | RowMajor => [] | _ => strides end)
  end.
Definition component_strides_norm (comp : list Z) (a : nparray) : list Z :=
  match firstn (length comp) (np_strides a) with
  | [] => []
  | c :: cs => normalise (min_elt c cs) (c :: cs)
  end.
Definition detect_storage_order (n comp : list Z) (nsub : Z) (a : nparray) :=
  detect_storage_order_with (compute_axes_order comp (component_strides_norm comp a)) n comp nsub a.

(** field_typed.hh [WrappedField]: the layout as of any field, the strides
    given by the caller (empty: none), and the size of the foreign memory. *)
Record wrapped := mk_wrapped {
  w_lay : layout;
  w_custom : list Z;
  w_size : Z
}.

(** field_typed.cc:717-730 [WrappedField::get_strides]: the strides given by
    the caller are returned as they are, whatever the element size. *)
Definition wrapped_strides (w : wrapped) (u : iter_unit) (e : Z) : res (list Z) :=
  match w_custom w with
  | [] => get_strides (w_lay w) u e
  | s => match u with SubPt => Ok s | Pixel => Err FieldError end
  end.

(** field_typed.cc:733-740 [WrappedField::get_storage_order] *)
Definition wrapped_order (w : wrapped) : storder :=
  match w_custom w with [] => l_order (w_lay w) | _ => UnknownOrder end.

(** field_typed.cc:551-640: the two constructors differ in the layout only
    ([layout_of_nb], [layout_of_shape]).  The division is by zero for a field
    without components. *)
Definition wrapped_field (f : layout) (size : Z) (custom : list Z) : res wrapped :=
  if l_nbc f =? 0 then UB else
  let entries := Z.quot size (l_nbc f) in
  let w := mk_wrapped f custom size in
  let! s := wrapped_strides w SubPt 1 in
  if negb (length (get_shape f SubPt) =? length s)%nat then Err FieldError
  else if negb (size =? l_nbc f * entries) then Err FieldError
  else if negb (l_nsub f * l_npix f =? entries) then Err FieldError
  else Ok w.

(** field_typed.cc:687-693 [set_pad_size]; 703-714 [resize] (the pad size of a
    wrapped field is always 0); 743-746 [get_buffer_size]. *)
Definition wrapped_set_pad_size (w : wrapped) (pad : Z) : res wrapped := Err FieldError.
Definition wrapped_buffer_size (w : wrapped) : Z := w_size w.
Definition wrapped_resize (w : wrapped) : res wrapped :=
  if negb (l_nsub (w_lay w) * l_npix (w_lay w) * l_nbc (w_lay w) =? wrapped_buffer_size w)
  then Err FieldError else Ok w.

(** field_typed.cc:696-700 [set_zero] on the memory that starts at the data
    pointer: the first [size] scalars, whatever the strides. *)
Definition wrapped_set_zero {A} (zero : A) (w : wrapped) (mem : list A) : res (list A) :=
  if Z.of_nat (length mem) <? w_size w then UB
  else Ok (repeat zero (Z.to_nat (w_size w)) ++ skipn (Z.to_nat (w_size w)) mem).

(** numpy_tools.hh:319-329, 390-401: a collection with the strides found, and a
    field on the memory of the array.  The number of sub-points is entered in
    the map of the collection.  field_collection_global.cc:86-131 for the
    checks of the extents. *)
Definition proxy_field (order : storder) (domain n loc pstr comp : list Z) (nsub : Z)
    (custom : list Z) (a : nparray) : res wrapped :=
  if get_nb_from_shape domain <=? 0 then Err FieldCollectionError else
  if get_nb_from_shape n <? 0 then Err FieldCollectionError else
  let! f := global_layout order n pstr loc comp nsub in
  wrapped_field f (np_size a) custom.

(** numpy_tools.hh:421-424: field and iteration unit of a [NumpyProxy]. *)
Record proxy := mk_proxy { pr_field : wrapped; pr_iter : iter_unit }.

(** numpy_tools.hh:256-330: constructor from the number of degrees of freedom
    per pixel. *)
Definition proxy_dof_with (axes : list nat) (domain n loc : list Z) (ndof : Z) (a : nparray)
  : res proxy :=
  let dim := length n in
  if negb (get_nb_from_shape n * ndof =? np_size a) then Err NumpyError else
  if (np_ndim a <? dim)%nat then Err NumpyError else
  if negb (zlist_eqb n (skipn (np_ndim a - dim) (np_shape a))) then Err NumpyError else
  let comp := firstn (np_ndim a - dim) (np_shape a) in
  if negb (zprod comp =? ndof) then Err NumpyError else
  let! (order, pstr, strides) := detect_storage_order_with axes n comp 1 a in
  let! w := proxy_field order domain n loc pstr comp 1 strides a in
  Ok (mk_proxy w Pixel).
Definition proxy_dof (domain n loc : list Z) (ndof : Z) (a : nparray) : res proxy :=
  proxy_dof_with (compute_axes_order (firstn (np_ndim a - length n) (np_shape a))
                    (component_strides_norm (firstn (np_ndim a - length n) (np_shape a)) a))
                 domain n loc ndof a.

(** numpy_tools.hh:343-402: constructor from number of sub-points and shape of
    the components.  [sub_axis] says whether the array has an axis for the
    sub-points. *)
Definition has_sub_axis (n comp : list Z) (a : nparray) : bool :=
  (length n + length comp + 1 =? np_ndim a)%nat.
Definition sub_pt_shape_of (n comp : list Z) (nsub : Z) (a : nparray) : list Z :=
  if has_sub_axis n comp a then comp ++ [nsub] else comp.
Definition proxy_comp_with (axes : list nat) (domain n loc : list Z) (nsub : Z) (comp : list Z)
    (a : nparray) : res proxy :=
  let dim := length n in
  let pixels_match := zlist_eqb n (skipn (np_ndim a - dim) (np_shape a)) in
  let comps_match := zlist_eqb comp (firstn (length comp) (np_shape a)) in
  let! u := if has_sub_axis n comp a then
              if pixels_match && (nsub =? zn (np_shape a) (length comp)) && comps_match
              then Ok SubPt else Err NumpyError
            else if (dim + length comp =? np_ndim a)%nat then
              if pixels_match && (nsub =? 1) && comps_match then Ok Pixel else Err NumpyError
            else Err NumpyError in
  let! (order, pstr, strides) :=
    detect_storage_order_with axes n (sub_pt_shape_of n comp nsub a) nsub a in
  let! w := proxy_field order domain n loc pstr comp nsub strides a in
  Ok (mk_proxy w u).
Definition proxy_comp (domain n loc : list Z) (nsub : Z) (comp : list Z) (a : nparray) : res proxy :=
  let sh := sub_pt_shape_of n comp nsub a in
  proxy_comp_with (compute_axes_order sh (component_strides_norm sh a)) domain n loc nsub comp a.

(** numpy_tools.hh:428-436 [numpy_wrap]: an array on the memory of the field.
    [strides] is the field's [get_strides]; [sz] is [sizeof(T)]. *)
Definition numpy_wrap (f : layout) (strides : iter_unit -> Z -> res (list Z)) (u : iter_unit) (sz : Z)
  : res nparray :=
  let! s := strides u sz in Ok (mk_nparray (get_shape f u) s sz).

(** A fresh [py::array_t<T>] of a given shape is in C order. *)
Definition c_strides (shape : list Z) (sz : Z) : list Z := rev (running sz (rev shape)).
Definition fresh_array (shape : list Z) (sz : Z) : nparray := mk_nparray shape (c_strides shape sz) sz.

(** numpy_tools.hh:439-453 [numpy_copy] of a field that holds [mem]; [junk] is
    the content of the fresh array.  [axes] is the outcome of [std::sort] in
    [strided_copy]. *)
Definition numpy_copy_with {A} (axes : list nat) (f : layout) (strides : iter_unit -> Z -> res (list Z))
    (u : iter_unit) (sz : Z) (mem junk : list A) : res (list A) :=
  let shape := get_shape f u in
  let! s := strides u 1 in
  strided_copy_with axes shape s (map (fun x => Z.quot x sz) (c_strides shape sz)) mem junk.

(** bind_py_field.cc:87-91 [array_getter] is [numpy_wrap]; 93-110
    [array_setter]: assignment to the property [s] ([SubPt]) or [p] ([Pixel]).
    [vals] is the memory that starts at the first element of the array,
    [mem] the memory of the field.  The strides are divided as unsigned
    numbers in the code; for negative strides the result differs from the
    quotient by a multiple of the address space, which is not modelled. *)
Definition array_setter_with {A} (axes : list nat) (f : layout)
    (strides : iter_unit -> Z -> res (list Z)) (u : iter_unit) (a : nparray) (vals mem : list A)
  : res (list A) :=
  if negb (zlist_eqb (np_shape a) (get_shape f u)) then Err RuntimeError else
  let! s := strides u 1 in
  strided_copy_with axes (get_shape f u) (map (fun x => Z.quot x (np_item a)) (np_strides a)) s vals mem.
Definition array_setter {A} (f : layout) strides u (a : nparray) (vals mem : list A) : res (list A) :=
  let! s := strides u 1 in
  array_setter_with (compute_axes_order (get_shape f u) s) f strides u a vals mem.
