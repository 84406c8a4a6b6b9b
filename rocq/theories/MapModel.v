(** Statically sized field maps (field_map_static.hh), combination of all
    entries with an entry of the same map, and enumeration of entries together
    with their indices (field_map.cc, field_map_static.hh).  The members of a
    map are those of [FieldModel.fmap]. *)
From Coq Require Import String.
From Verif Require Import Base GridModel LayoutModel FieldModel RegistryModel.
Local Open Scope Z_scope.
Local Open Scope list_scope.

(** field_map_static.hh:466-530 [TensorRows], [TensorCols]: extents of the matrix
    that represents a tensor; other ranks are refused at compile time. *)
Definition tensor_rows (rank dim : Z) : option Z :=
  if rank =? 0 then Some 1 else if rank =? 1 then Some dim else if rank =? 2 then Some dim
  else if rank =? 4 then Some (dim * dim) else None.
Definition tensor_cols (rank dim : Z) : option Z :=
  if rank =? 0 then Some 1 else if rank =? 1 then Some 1 else if rank =? 2 then Some dim
  else if rank =? 4 then Some (dim * dim) else None.

Section Maps.
Context {A : Type} (zero : A) (add : A -> A -> A).

(** The type of the iterates: rows and columns, both positive
    (field_map_static.hh:441-453 [stride], [NbRow]; 551-627 [ScalarMap] is one by
    one). *)
Record iterate_type := mk_iterate { it_rows : Z; it_cols : Z }.
Definition it_stride (t : iterate_type) : Z := it_rows t * it_cols t.

(** field_map_static.hh:110-121 constructor *)
Definition new_static (f : field A) (u : iter_unit) (t : iterate_type) : res fmap :=
  let! m := new_map f u (Some (it_rows t)) in
  if negb (m_stride m =? it_stride t) then Err FieldMapError else Ok m.

(** field_map_static.hh:237-251 [operator[]]; the assertions are active in debug
    builds only. *)
Definition static_entry (t : iterate_type) (m : fmap) (f : field A) (i : Z) : res (list A) :=
  span f (m_ptr m) (i * it_stride t) (it_stride t).

(** [size] (field_map.cc:178-187) is unsigned. *)
Definition unsigned_size (m : fmap) (f : field A) : nat := Z.to_nat (map_size m f mod 2 ^ 64).

(** field_map_static.hh:301-363 [Iterator]: the index and the start of the
    current iterate, here the offset from the data pointer of the map. *)
Record static_iter := mk_static_iter { si_index : Z; si_start : Z }.
Definition static_first : static_iter := mk_static_iter 0 0.
Definition static_next (t : iterate_type) (i : static_iter) : static_iter :=
  mk_static_iter (si_index i + 1) ((si_index i + 1) * it_stride t).
Definition static_deref (t : iterate_type) (m : fmap) (f : field A) (i : static_iter) : res (list A) :=
  span f (m_ptr m) (si_start i) (it_stride t).
Fixpoint static_loop (t : iterate_type) (m : fmap) (f : field A) (k : nat) (i : static_iter) : res (list (list A)) :=
  match k with
  | O => Ok []
  | S k' =>
      let! e := static_deref t m f i in
      let! r := static_loop t m f k' (static_next t i) in
      Ok (e :: r)
  end.
(** Iteration: field_map_static.hh:257-260 [begin], [end] of a map that is not
    const do not ask whether the map is initialised; 263-271 the const versions
    do. *)
Definition static_iterate (t : iterate_type) (m : fmap) (f : field A) : res (list (list A)) :=
  static_loop t m f (unsigned_size m f) static_first.
Definition static_const_iterate (t : iterate_type) (m : fmap) (f : field A) : res (list (list A)) :=
  if negb (m_init m) then Err FieldMapError else static_loop t m f (unsigned_size m f) static_first.

(** field_map_static.hh:166-230: the operators with an argument of the type of the
    iterates, for a matrix that is not stored in the field. *)
Fixpoint static_write_loop (t : iterate_type) (op : A -> A -> A) (val : list A) (m : fmap) (k : nat) (i : static_iter)
    (f : field A) : res (field A) :=
  match k with
  | O => Ok f
  | S k' =>
      let! e := static_deref t m f i in
      let f' := with_vals f (write_at (f_vals f) (Z.to_nat (si_start i)) (zip_with op e val)) in
      static_write_loop t op val m k' (static_next t i) f'
  end.
Definition static_update (op : A -> A -> A) (t : iterate_type) (m : fmap) (val : list A) (f : field A) : res (field A) :=
  static_write_loop t op val m (unsigned_size m f) static_first f.

(** field_map_static.hh:632-643 [mean]: the sum times the reciprocal of the size;
    [scale x n] is [x * (1. / Real(n))].  Maps of scalars have no mean ([T::Zero]
    does not exist). *)
Definition static_mean (scale : A -> Z -> A) (t : iterate_type) (m : fmap) (f : field A) : res (list A) :=
  let! es := static_const_iterate t m f in
  let s := fold_left (zip_with add) es (repeat zero (Z.to_nat (it_stride t))) in
  Ok (map (fun x => scale x (map_size m f)) s).

(** The operators of field_map.hh:154-260 and field_map_static.hh:166-230 when the
    argument is entry [src] of the map itself, e.g. [map += map[0]]: the
    argument is a reference ([Eigen::Ref], [Eigen::Map] or [const T &]) to the
    memory of that entry, which the loop changes. *)
Fixpoint self_loop (m : fmap) (op : A -> A -> A) (src : Z) (k : nat) (i : Z) (f : field A) : res (field A) :=
  match k with
  | O => Ok f
  | S k' =>
      let! e := map_entry m f i in
      let! v := map_entry m f src in
      let f' := with_vals f (write_at (f_vals f) (Z.to_nat (i * m_stride m)) (zip_with op e v)) in
      self_loop m op src k' (i + 1) f'
  end.
Definition self_update (op : A -> A -> A) (m : fmap) (src : Z) (f : field A) : res (field A) :=
  if negb (m_init m) then Err FieldMapError
  else self_loop m op src (Z.to_nat (map_size m f)) 0 f.

(** Enumeration zips indices and entries (iterators.hh, see IterModel): it stops
    with the shorter range, and entries beyond are not looked at. *)
Definition paired (indices : list Z) (n : Z) (entry : Z -> res (list A)) : res (list (Z * list A)) :=
  mapM (fun p => let! e := entry (snd p) in Ok (fst p, e)) (combine indices (zrange (Z.to_nat n))).
(** field_collection.cc:513-532 [PixelIndexIterable]: the list of pixel indices;
    600-631 [IndexIterable] is [RegistryModel.index_iterate]. *)
Definition pixel_indices (c : coll A) : list Z := c_index c.
Definition sub_pt_indices (c : coll A) (tag : string) : res (list Z) :=
  let! s := index_stride c tag in
  index_iterate c tag (length (c_index c) * Z.to_nat s).
(** field_map.cc:200-208 [enumerate_pixel_indices_fast] *)
Definition enumerate_pixels_fast (c : coll A) (m : fmap) (f : field A) : res (list (Z * list A)) :=
  match m_unit m with
  | Pixel => if negb (m_init m) then Err FieldMapError
             else paired (pixel_indices c) (map_size m f) (map_entry m f)
  | SubPt => Err FieldMapError
  end.
(** field_map.cc:211-216 [enumerate_indices]: always over the sub-points of the
    field; [tag] is the sub-division of the field. *)
Definition enumerate_indices (c : coll A) (tag : string) (m : fmap) (f : field A) : res (list (Z * list A)) :=
  let! ix := sub_pt_indices c tag in
  if negb (m_init m) then Err FieldMapError
  else paired ix (map_size m f) (map_entry m f).
(** field_map_static.hh:274-295 [enumerate_indices]: the version depends on the
    iteration type. *)
Definition static_enumerate (c : coll A) (tag : string) (t : iterate_type) (m : fmap) (f : field A) : res (list (Z * list A)) :=
  match m_unit m with
  | Pixel => paired (pixel_indices c) (Z.of_nat (unsigned_size m f)) (static_entry t m f)
  | SubPt => let! ix := sub_pt_indices c tag in
             paired ix (Z.of_nat (unsigned_size m f)) (static_entry t m f)
  end.
End Maps.
