(** Typed fields with their storage (field_typed.cc) and dynamic field maps
    (field_map.cc, field_map.hh).  Scalars are an arbitrary type. *)
From Verif Require Import Base CIntModel GridModel StridedModel LayoutModel.

(** grid_common.hh: [Unknown] *)
Definition unknown : Z := -1.

Section Fields.
Context {A : Type} (zero : A) (add sub : A -> A -> A) (opp : A -> A).

(** A registered field together with what it reads of its collection.
    - [f_lay]: component shape and count, sub-points, pixel layout
      ([l_nsub = unknown] when the number of sub-points is not known,
      [l_npix = l_nbuf = unknown] before the collection is initialised);
    - [f_glob]: the collection is global; [f_init]: it is initialised;
    - [f_cur]: current_nb_entries; [f_pad]: pad_size;
    - [f_vals]: the contents of the vector [values], [f_cap] its capacity and
      [f_gen] the identity of its current allocation;
    - [f_ptr]: data_ptr, as the identity of the allocation it points to. *)
Record field := mk_field {
  f_lay : layout;
  f_glob : bool;
  f_init : bool;
  f_cur : Z;
  f_pad : Z;
  f_vals : list A;
  f_cap : Z;
  f_gen : Z;
  f_ptr : option Z
}.

Definition with_vals (f : field) (v : list A) : field :=
  mk_field (f_lay f) (f_glob f) (f_init f) (f_cur f) (f_pad f) v (f_cap f) (f_gen f) (f_ptr f).
Definition with_lay (f : field) (l : layout) : field :=
  mk_field l (f_glob f) (f_init f) (f_cur f) (f_pad f) (f_vals f) (f_cap f) (f_gen f) (f_ptr f).

Definition len (v : list A) : Z := Z.of_nat (length v).

(** A freshly constructed field (field.cc:43-60, field_typed.hh members):
    empty vector, null pointer, no entries, no pad. *)
Definition new_field (l : layout) (glob init : bool) : field := mk_field l glob init 0 0 [] 0 0 None.

(** [std::vector::resize] / [push_back]: contents, and reallocation when the
    new size exceeds the capacity; capacity grows as in libstdc++
    (max(new size, twice the old size)). *)
Definition vec_resize (v : list A) (n : nat) : list A :=
  firstn n v ++ repeat zero (n - length v).
Definition grown (v : list A) (cap n : Z) : Z := if n <=? cap then cap else Z.max n (2 * len v).
Definition realloc (cap n gen : Z) : Z := if n <=? cap then gen else gen + 1.

(** field.cc:335 [has_nb_sub_pts] *)
Definition has_nsub (f : field) : bool := negb (l_nsub (f_lay f) =? unknown).

(** field.cc:107-112 [get_nb_entries], 115-120 [get_nb_buffer_entries] *)
Definition nb_entries (f : field) : Z :=
  if has_nsub f then l_nsub (f_lay f) * l_npix (f_lay f) else unknown.
Definition nb_buffer_entries (f : field) : Z :=
  if has_nsub f then l_nsub (f_lay f) * l_nbuf (f_lay f) else unknown.

(** field_typed.cc:193-211 [TypedField::resize].  The state is returned even
    when the call throws; a negative size makes the unsigned request huge and
    [std::vector::resize] throws [std::length_error] after
    current_nb_entries has been overwritten. *)
Definition resize (f : field) : field * res unit :=
  if negb (has_nsub f) then (f, Err FieldError)
  else
    let size := l_nsub (f_lay f) * l_nbuf (f_lay f) in
    let expected := size * l_nbc (f_lay f) + f_pad f in
    if (len (f_vals f) =? expected) && (f_cur f =? size) then
      (mk_field (f_lay f) (f_glob f) (f_init f) (f_cur f) (f_pad f) (f_vals f) (f_cap f) (f_gen f)
                (Some (f_gen f)), Ok tt)
    else if expected <? 0 then
      (mk_field (f_lay f) (f_glob f) (f_init f) size (f_pad f) (f_vals f) (f_cap f) (f_gen f) (f_ptr f),
       Err LengthError)
    else
      let g := realloc (f_cap f) expected (f_gen f) in
      (mk_field (f_lay f) (f_glob f) (f_init f) size (f_pad f)
                (vec_resize (f_vals f) (Z.to_nat expected))
                (grown (f_vals f) (f_cap f) expected) g (Some g), Ok tt).

(** field_typed.cc:107-111 [set_pad_size] *)
Definition set_pad_size (f : field) (p : Z) : field * res unit :=
  resize (mk_field (f_lay f) (f_glob f) (f_init f) (f_cur f) p (f_vals f) (f_cap f) (f_gen f) (f_ptr f)).

(** field_typed.cc:101-104 [set_zero] *)
Definition set_zero (f : field) : field := with_vals f (repeat zero (length (f_vals f))).

(** field.cc:126-159 [reshape] on a field with storage; [nsub = None] is the
    overload without a sub-division tag. *)
Definition field_reshape (f : field) (shape : list Z) (nsub : option Z) : res field :=
  let! l := match nsub with None => reshape (f_lay f) shape | Some k => reshape_sub (f_lay f) shape k end in
  Ok (with_lay f l).

(** Access to [n] scalars through a pointer [ptr]: defined when [n] is not
    positive, or when the pointer designates the current allocation of the
    field and the access stays within the vector. *)
Definition span (f : field) (ptr : option Z) (start n : Z) : res (list A) :=
  if n <=? 0 then Ok []
  else match ptr with
  | Some g =>
      if (g =? f_gen f) && (0 <=? start) && (start + n <=? len (f_vals f))
      then Ok (firstn (Z.to_nat n) (skipn (Z.to_nat start) (f_vals f)))
      else UB
  | None => UB
  end.

(** field_typed.cc:445-474 [eigen_vec]: the two overloads test the same two
    conditions (in different order, both raising FieldError); the result is
    the number of scalars mapped. *)
Definition eigen_vec_size (f : field) : res Z :=
  if nb_entries f =? unknown then Err FieldError
  else if negb (f_init f) then Err FieldError
  else Ok (nb_entries f * l_nbc (f_lay f)).
Definition eigen_vec (f : field) : res (list A) :=
  let! n := eigen_vec_size f in span f (f_ptr f) 0 n.

(** Write the mapped scalars back. *)
Definition put_prefix (f : field) (w : list A) : field :=
  with_vals f (w ++ skipn (length w) (f_vals f)).

Definition zip_with (op : A -> A -> A) (a b : list A) : list A :=
  map (fun p => op (fst p) (snd p)) (combine a b).

(** Assignment of an Eigen expression to a map: different sizes violate
    Eigen's precondition (an assertion in debug builds only): undefined. *)
Definition vec_update (f : field) (op : list A -> list A -> list A) (g : field) : res field :=
  let! n := eigen_vec_size f in
  let! m := eigen_vec_size g in
  if negb (n =? m) then UB
  else
    let! a := span f (f_ptr f) 0 n in
    let! b := span g (f_ptr g) 0 m in
    Ok (put_prefix f (op a b)).

(** field_typed.cc:378-405 [operator=].  [sort] is the result of sorting the
    axes of the destination inside [strided_copy]. *)
Definition assign_with (sort : list nat) (f g : field) : res field :=
  if f_glob f then
    let shape := get_shape (f_lay f) SubPt in
    if negb (zlist_eqb shape (get_shape (f_lay g) SubPt)) then Err FieldError
    else
      let! os := get_strides (f_lay f) SubPt 1 in
      let! is := get_strides (f_lay g) SubPt 1 in
      match f_ptr f, f_ptr g with
      | Some p, Some q =>
          if (p =? f_gen f) && (q =? f_gen g) then
            let! v := strided_copy_with sort shape is os (f_vals g) (f_vals f) in
            Ok (with_vals f v)
          else UB
      | _, _ => UB
      end
  else vec_update f (fun _ b => b) g.
Definition assign (f g : field) : res field :=
  match get_strides (f_lay f) SubPt 1 with
  | Ok os => assign_with (compute_axes_order (get_shape (f_lay f) SubPt) os) f g
  | _ => assign_with [] f g
  end.

(** field_typed.cc:408-411 [operator=(Negative)], 427-431 [operator+=],
    434-440 [operator-=] *)
Definition assign_neg (f g : field) : res field := vec_update f (fun _ b => map opp b) g.
Definition add_assign (f g : field) : res field := vec_update f (zip_with add) g.
Definition sub_assign (f g : field) : res field := vec_update f (zip_with sub) g.

(** [std::vector::push_back] of several scalars. *)
Definition push_one (f : field) (x : A) : field :=
  let n := len (f_vals f) + 1 in
  mk_field (f_lay f) (f_glob f) (f_init f) (f_cur f) (f_pad f) (f_vals f ++ [x])
           (grown (f_vals f) (f_cap f) n) (realloc (f_cap f) n (f_gen f)) (f_ptr f).
Definition push_all (f : field) (v : list A) : field := fold_left push_one v f.
Definition with_cur (f : field) (c : Z) : field :=
  mk_field (f_lay f) (f_glob f) (f_init f) c (f_pad f) (f_vals f) (f_cap f) (f_gen f) (f_ptr f).

(** field_typed.cc:262-286 [push_back(array)] and 289-311
    [push_back_single(array)]; the scalar overloads 221-259 are the case of
    one component. *)
Definition push_back_single (f : field) (v : list A) : res field :=
  if f_glob f then Err FieldError
  else if negb (has_nsub f) then Err FieldError
  else if negb (l_nbc (f_lay f) =? len v) then Err FieldError
  else Ok (push_all (with_cur f (f_cur f + 1)) v).
Definition push_back (f : field) (v : list A) : res field :=
  if f_glob f then Err FieldError
  else if negb (has_nsub f) then Err FieldError
  else if negb (l_nbc (f_lay f) =? len v) then Err FieldError
  else
    let n := l_nsub (f_lay f) in
    Ok (push_all (with_cur f (f_cur f + n)) (concat (repeat v (Z.to_nat n)))).

(** An [Eigen::Ref<const Eigen::Array<T, Dynamic, Dynamic>>], the parameter
    type of [push_back]: it binds without copy to any expression with unit
    inner stride, so consecutive columns lie [r_outer] scalars apart in
    [r_mem], the memory from its first coefficient on. *)
Record eref := mk_eref { r_mem : list A; r_rows : Z; r_cols : Z; r_outer : Z }.
(** field_typed.cc:281-285, 308-310: the loops read [value.data()[i]] for [i]
    below the number of components, whatever the outer stride. *)
Definition ref_data (r : eref) : list A := firstn (Z.to_nat (r_rows r * r_cols r)) (r_mem r).
Definition push_back_ref (f : field) (r : eref) : res field := push_back f (ref_data r).

(** ** Field maps (field_map.hh) *)

(** field_map.hh:338-357: members of a map. *)
Record fmap := mk_fmap {
  m_unit : iter_unit;
  m_stride : Z;
  m_rows : Z;
  m_cols : Z;
  m_ptr : option Z;
  m_init : bool
}.

(** field_map.cc:48-67 constructor with default shape; 70-99 constructor with
    a number of rows.  A zero number of rows is a division by zero.  On a
    collection that is not initialised, the map is left without data pointer
    and a callback is registered ([initialise_map] below). *)
Definition map_rows (f : field) (u : iter_unit) (rows : option Z) : res (Z * Z * Z) :=
  let! stride := get_stride (f_lay f) (has_nsub f) u in
  match rows with
  | None => Ok (stride, l_nbc (f_lay f), match u with Pixel => l_nsub (f_lay f) | SubPt => 1 end)
  | Some r => if r =? 0 then UB else Ok (stride, r, Z.quot stride r)
  end.
Definition new_map (f : field) (u : iter_unit) (rows : option Z) : res fmap :=
  let! t := map_rows f u rows in
  let '(stride, r, c) := t in
  if negb (storder_eqb (l_order (f_lay f)) ColMajor) then Err RuntimeError
  else
    let m := mk_fmap u stride r c (if f_init f then f_ptr f else None) (f_init f) in
    match rows with
    | None => Ok m
    | Some _ => if negb (r * c =? stride) then Err FieldMapError else Ok m
    end.

(** field_map.cc:190-197 [set_data_ptr], called by the collection's callback. *)
Definition initialise_map (m : fmap) (f : field) : res fmap :=
  if negb (f_init f) then Err FieldMapError
  else Ok (mk_fmap (m_unit m) (m_stride m) (m_rows m) (m_cols m) (f_ptr f) true).

(** field_map.cc:178-187 [size] *)
Definition map_size (m : fmap) (f : field) : Z :=
  if nb_entries f =? 0 then 0
  else match m_unit m with SubPt => f_cur f | Pixel => l_npix (f_lay f) end.

(** field_map.hh:295-309 [operator[]]: the scalars of entry [i]; the assertion
    on the index is active in debug builds only. *)
Definition map_entry (m : fmap) (f : field) (i : Z) : res (list A) :=
  span f (m_ptr m) (i * m_stride m) (m_rows m * m_cols m).

(** Iteration over a map: field_map.cc:124-134 [begin], field_map.hh:362-428
    iterator; the list of entries from 0 to [size] - 1. *)
Definition map_iterate (m : fmap) (f : field) : res (list (list A)) :=
  if negb (m_init m) then Err FieldMapError
  else mapM (map_entry m f) (zrange (Z.to_nat (map_size m f))).

(** field_map.cc:221-233 [sum] *)
Definition vzero (m : fmap) : list A := repeat zero (Z.to_nat (m_rows m * m_cols m)).
Definition map_sum (m : fmap) (f : field) : res (list A) :=
  if nb_entries f =? 0 then Ok (vzero m)
  else let! es := map_iterate m f in Ok (fold_left (zip_with add) es (vzero m)).
(** field_map.cc:236-245 [mean]; [div x n] is the division of a scalar by a
    count. *)
Definition map_mean (div : A -> Z -> A) (m : fmap) (f : field) : res (list A) :=
  if nb_entries f =? 0 then Ok (vzero m)
  else let! s := map_sum m f in Ok (map (fun x => div x (map_size m f)) s).

(** field_map.hh:154-204: assignment, addition and subtraction of one value to
    every entry; the shape of the value is checked first. *)
Definition write_at (v : list A) (start : nat) (w : list A) : list A :=
  firstn start v ++ w ++ skipn (start + length w) v.
Fixpoint map_write_loop (m : fmap) (op : A -> A -> A) (val : list A) (k : nat) (i : Z) (f : field) : res field :=
  match k with
  | O => Ok f
  | S k' =>
      let! e := map_entry m f i in
      let f' := with_vals f (write_at (f_vals f) (Z.to_nat (i * m_stride m)) (zip_with op e val)) in
      map_write_loop m op val k' (i + 1) f'
  end.
Definition map_update (op : A -> A -> A) (m : fmap) (rows cols : Z) (val : list A) (f : field) : res field :=
  if negb ((rows =? m_rows m) && (cols =? m_cols m)) then Err FieldMapError
  else if negb (m_init m) then Err FieldMapError
  else map_write_loop m op val (Z.to_nat (map_size m f)) 0 f.
End Fields.
Arguments field A : clear implicits.
