(** Matrix views of fields (field_typed.cc:340-375, 414-417, 477-512).  Fields on
    foreign memory with strides of their own are not covered here. *)
From Verif Require Import Base CIntModel GridModel StridedModel LayoutModel FieldModel.

Section Views.
Context {A : Type}.
Implicit Types f : field A.

(** field_typed.hh:111-120 [Eigen_map]: number of rows and columns of a
    column-major matrix, and the allocation it refers to. *)
Record view := mk_view { v_rows : Z; v_cols : Z; v_ptr : option Z }.

(** field_typed.cc:340-375 [eigen_map]; [axes] is the outcome of sorting the
    strides of the pixels in [is_buffer_contiguous]. *)
Definition eigen_map (axes : list nat) f (rows cols : Z) : res view :=
  if negb (f_init f) then Err FieldError
  else
    let! b := is_buffer_contiguous_ax (l_pix (f_lay f)) (l_pstr (f_lay f)) axes in
    if negb b then Err FieldError else Ok (mk_view rows cols (f_ptr f)).

(** 477-492 [eigen_sub_pt] *)
Definition eigen_sub_pt (axes : list nat) f : res view :=
  if nb_entries f =? unknown then Err FieldError
  else eigen_map axes f (l_nbc (f_lay f)) (nb_entries f).

(** 495-512 [eigen_pixel] *)
Definition eigen_pixel (axes : list nat) f : res view :=
  if nb_entries f =? unknown then Err FieldError
  else if l_nsub (f_lay f) =? 0 then UB
  else eigen_map axes f (l_nbc (f_lay f) * l_nsub (f_lay f)) (Z.quot (nb_entries f) (l_nsub (f_lay f))).

(** Coefficient in row [r] and column [c] of an [Eigen::Map], without bounds
    check in release builds; [f] is the field at the time of the access. *)
Definition coeff (v : view) f (r c : Z) : res A :=
  let! l := span f (v_ptr v) (r + v_rows v * c) 1 in
  match l with [x] => Ok x | _ => UB end.
Definition set_coeff (v : view) f (r c : Z) (x : A) : res (field A) :=
  let! _ := span f (v_ptr v) (r + v_rows v * c) 1 in
  Ok (with_vals f (upd (f_vals f) (Z.to_nat (r + v_rows v * c)) x)).

(** 414-417 [operator=] with a matrix of [rows] by [cols] coefficients, listed
    column by column; the sizes are asserted in debug builds only. *)
Definition assign_matrix f (rows cols : Z) (w : list A) : res (field A) :=
  let! n := eigen_vec_size f in
  if negb ((rows =? n) && (cols =? 1)) then UB
  else let! _ := span f (f_ptr f) 0 n in Ok (put_prefix f w).
End Views.
