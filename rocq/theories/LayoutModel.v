(** Shapes, strides and sizes of a field (field.cc), the pixel part of a field
    collection (field_collection_global.cc, field_collection_local.cc) and the
    size of the buffer of a field (field_typed.cc). *)
From Verif Require Import Base CIntModel GridModel.

(** grid_common.hh:148-155 [StorageOrder]. *)
Inductive storder : Set := ColMajor | RowMajor | UnknownOrder | Automatic.
Definition storder_eqb (a b : storder) : bool :=
  match a, b with
  | ColMajor, ColMajor | RowMajor, RowMajor | UnknownOrder, UnknownOrder | Automatic, Automatic => true
  | _, _ => false
  end.

(** grid_common.hh:120-123 [IterUnit]. *)
Inductive iter_unit : Set := Pixel | SubPt.

(** What the layout functions of [Field] read: components_shape,
    nb_components, nb_sub_pts, and of the collection: storage order,
    get_pixels_shape, get_pixels_strides(1), nb_pixels, nb_buffer_pixels. *)
Record layout := mk_layout {
  l_comp : list Z;
  l_nbc : Z;
  l_nsub : Z;
  l_order : storder;
  l_pix : list Z;
  l_pstr : list Z;
  l_npix : Z;
  l_nbuf : Z
}.

(** field.cc:92-94 [get_nb_dof_per_pixel] *)
Definition nb_dof_per_pixel (f : layout) : Z := l_nbc f * l_nsub f.

(** field.cc:43-60: the two constructors. *)
Definition layout_of_shape (comp : list Z) nsub order pix pstr npix nbuf : layout :=
  mk_layout comp (get_nb_from_shape comp) nsub order pix pstr npix nbuf.
Definition layout_of_nb (nb : Z) nsub order pix pstr npix nbuf : layout :=
  mk_layout [nb] nb nsub order pix pstr npix nbuf.

(** field.cc:162-179 [get_sub_pt_shape]; [shape[shape.size() - 1] *= n] is
    [mul_last]. *)
Fixpoint mul_last (shape : list Z) (k : Z) : list Z :=
  match shape with
  | [] => []
  | [x] => [x * k]
  | x :: r => x :: mul_last r k
  end.
Definition get_sub_pt_shape (f : layout) (u : iter_unit) : list Z :=
  match u with
  | Pixel =>
      if 1 <? l_nsub f
      then match l_comp f with [] => [l_nsub f] | _ => mul_last (l_comp f) (l_nsub f) end
      else l_comp f
  | SubPt => l_comp f ++ [l_nsub f]
  end.

(** field.cc:187-197 [get_shape] *)
Definition get_shape (f : layout) (u : iter_unit) : list Z := get_sub_pt_shape f u ++ l_pix f.

(** field.cc:211-216: the accumulation loop. *)
Fixpoint running (acc : Z) (l : list Z) : list Z :=
  match l with [] => [] | n :: r => acc :: running (acc * n) r end.

(** field.cc:200-222 [get_components_strides] *)
Definition get_components_strides (f : layout) (e : Z) : res (list Z) :=
  match l_order f with
  | ColMajor => Ok (running e (l_comp f))
  | RowMajor => Ok (rev (running e (rev (l_comp f))))
  | _ => Err FieldError
  end.

(** field.cc:225-246 [get_sub_pt_strides] *)
Definition get_sub_pt_strides (f : layout) (u : iter_unit) (e : Z) : res (list Z) :=
  let! s := get_components_strides f e in
  match u with
  | Pixel => Ok s
  | SubPt =>
      match l_order f with
      | RowMajor => Ok (map (fun x => x * l_nsub f) s ++ [e])
      | _ => Ok (s ++ [l_nbc f * e])
      end
  end.

(** field_collection_global.cc:178-185, field_collection_local.cc:99-101
    [get_pixels_strides] *)
Definition get_pixels_strides (f : layout) (e : Z) : list Z := map (fun s => s * e) (l_pstr f).

(** field.cc:254-276 [get_strides] *)
Definition get_strides (f : layout) (u : iter_unit) (e : Z) : res (list Z) :=
  let! s := get_sub_pt_strides f u e in
  match l_order f with
  | ColMajor => Ok (s ++ map (fun n => n * nb_dof_per_pixel f) (get_pixels_strides f e))
  | RowMajor => Ok (map (fun x => x * l_nbuf f) s ++ get_pixels_strides f e)
  | _ => Err FieldError
  end.

(** field.cc:284-302 [get_stride]; [has] is the result of
    [FieldCollection::has_nb_sub_pts]. *)
Definition get_stride (f : layout) (has : bool) (u : iter_unit) : res Z :=
  match u with
  | Pixel => if has then Ok (l_nbc f * l_nsub f) else Err FieldError
  | SubPt => Ok (l_nbc f)
  end.

(** field_typed.cc:193-211 [resize]: number of scalars in the buffer without pad. *)
Definition buffer_scalars (f : layout) : Z := l_nsub f * l_nbuf f * l_nbc f.

(** field_collection.cc:352-357 and field.cc:305-310 [has_same_memory_layout] *)
Fixpoint zlist_eqb (a b : list Z) : bool :=
  match a, b with
  | [], [] => true
  | x :: a', y :: b' => (x =? y) && zlist_eqb a' b'
  | _, _ => false
  end.
Definition collection_same_layout (f g : layout) : bool :=
  zlist_eqb (l_pix f) (l_pix g) && storder_eqb (l_order f) (l_order g) && zlist_eqb (l_pstr f) (l_pstr g).
Definition has_same_memory_layout (f g : layout) : res bool :=
  if collection_same_layout f g && (l_nsub f =? l_nsub g) then
    let! s := get_components_strides f 1 in
    let! t := get_components_strides g 1 in
    Ok (zlist_eqb s t)
  else Ok false.

(** field.cc:126-137 [reshape(shape)] *)
Definition reshape (f : layout) (shape : list Z) : res layout :=
  if negb (get_nb_from_shape shape =? l_nbc f) then Err FieldError
  else Ok (mk_layout shape (get_nb_from_shape shape) (l_nsub f) (l_order f)
                     (l_pix f) (l_pstr f) (l_npix f) (l_nbuf f)).
(** field.cc:140-159 [reshape(shape, tag)]; [nsub] is the number of sub-points
    the collection holds for the tag. *)
Definition reshape_sub (f : layout) (shape : list Z) (nsub : Z) : res layout :=
  if negb (get_nb_from_shape shape * nsub =? nb_dof_per_pixel f) then Err FieldError
  else Ok (mk_layout shape (get_nb_from_shape shape) nsub (l_order f)
                     (l_pix f) (l_pstr f) (l_npix f) (l_nbuf f)).

(** field_collection_global.cc:86-131 and 134-150, the part of [initialise]
    that determines the pixel layout.  [None] for the strides means that a
    storage order is given instead. *)
Definition global_layout (order : storder) (n : list Z) (pstr : list Z) (loc : list Z)
    (comp : list Z) (nsub : Z) : res layout :=
  let! p := pixels_strided n loc pstr in
  let! nbuf := get_buffer_size n pstr in
  Ok (layout_of_shape comp nsub order (px_nb p) (px_strides p) (get_size n) nbuf).
Definition pixel_strides_for (order : storder) (n : list Z) : res (list Z) :=
  match order with ColMajor => get_col_major_strides n | _ => get_row_major_strides n end.
Definition global_layout_order (order porder : storder) (n loc comp : list Z) (nsub : Z) : res layout :=
  let porder' := match porder with Automatic => order | _ => porder end in
  let! s := pixel_strides_for porder' n in
  global_layout order n s loc comp nsub.

(** field_collection_local.cc:66-75, 96-103: a local collection has one pixel
    axis; its storage order is the default, column-major
    (field_collection.hh:135). *)
Definition local_layout (npix : Z) (comp : list Z) (nsub : Z) : layout :=
  layout_of_shape comp nsub ColMajor [npix] [1] npix npix.
