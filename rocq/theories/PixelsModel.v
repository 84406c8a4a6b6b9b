(** Statically dimensioned pixels, cubes and volumes (ccoord_operations.hh:58-64,
    117-149, 484-509, 898-1024, ccoord_operations.cc:71-81, 176-198, 237-250). *)
From Coq Require Import QArith.
From Verif Require Import Base CIntModel GridModel.
Local Open Scope Z_scope.
Local Open Scope list_scope.

(** ccoord_operations.cc:176-183: column-major constructor for arrays; all
    coordinates have the dimension of the class, and locations that are not given
    are zero (ccoord_operations.hh:653-655, 907-909). *)
Definition static_default_with (axes : list nat) (n loc : list Z) : pixels :=
  mk_pixels n loc (col_major_strides n) axes true.
(** 185-198: with strides. *)
Definition static_strided_with (axes : list nat) (n loc strides : list Z) : res pixels :=
  let! b := is_buffer_contiguous_ax n strides axes in
  Ok (mk_pixels n loc strides axes b).

(** 237-250 [get_dimensioned_pixels]: a cast behind a comparison of dimensions. *)
Definition get_dimensioned (dim : nat) (p : pixels) : res pixels :=
  if negb (dim =? length (px_nb p))%nat then Err RuntimeError else Ok p.

(** ccoord_operations.hh:403-421 [get_ccoord_from_axes_order] for arrays: the
    result starts with the extent of the first axis, the rest is zero. *)
Definition get_ccoord_static (n loc strides : list Z) (axes : list nat) (index : Z) : res (list Z) :=
  let! ret := ccoord_loop strides (rev axes) index
                (match n with [] => [] | x :: r => x :: repeat 0 (length r) end) in
  Ok (add_coords ret loc).
(** 930-936 [Pixels::get_ccoord] *)
Definition sp_get_ccoord (p : pixels) (i : Z) : res (list Z) :=
  get_ccoord_static (px_nb p) (px_loc p) (px_strides p) (px_axes p) i.
(** 941-970, 986-1024: the iterator runs from 0 to the number of pixels. *)
Definition sp_iterate (p : pixels) : res (list (list Z)) :=
  mapM (sp_get_ccoord p) (zrange (Z.to_nat (get_size (px_nb p)))).
(** 683-692 [DynamicPixels::get_index] for arrays.  The member of the same name of
    [Pixels] (923-927) refers to a function that does not exist and cannot be
    called. *)
Definition px_get_index_static (p : pixels) (c : list Z) : res Z :=
  if negb (length (px_nb p) =? length c)%nat then Err RuntimeError
  else Ok (stride_sum (px_strides p) (px_loc p) c).

(** 58-64, 125-128 [get_cube] for arrays, 132-151 for a dimension at run time. *)
Definition get_cube_static {T} (dim : nat) (x : T) : list T := map (fun _ => x) (seq 0 dim).
Definition get_cube {T} (dim : Z) (x : T) : res (list T) :=
  if dim =? 1 then Ok (get_cube_static 1 x)
  else if dim =? 2 then Ok (get_cube_static 2 x)
  else if dim =? 3 then Ok (get_cube_static 3 x)
  else Err RuntimeError.

(** 484-505 [compute_volume] on real numbers, exact. *)
Definition compute_volume_real (lengths : list Q) : Q := fold_left Qmult lengths 1%Q.
(** ccoord_operations.cc:71-81 [compute_pixel_volume]; [zip] ends with the shorter
    list.  Division by an extent of zero is not excluded (the result is then not
    finite). *)
Definition compute_pixel_volume (n : list Z) (lengths : list Q) : Q :=
  fold_left (fun v p => v * (snd p / inject_Z (fst p)))%Q (combine n lengths) 1%Q.
(** 153-250 [get_vector]: position of a pixel; all versions multiply component by
    component, those for dynamic coordinates assert equal dimensions. *)
Definition get_vector (c : list Z) (pixel : list Q) : list Q :=
  map (fun p => snd p * inject_Z (fst p))%Q (combine c pixel).
