(** The gradient operator on fields of collections: what [GradModel] reads from
    its arguments, taken from the fields of [FieldModel]. *)
From Verif Require Import Base GridModel RingModel LayoutModel FieldModel GradModel.

(** What the operator asks a field for (gradient_operator_default.cc:174-206):
    [is_global], [get_storage_order] (in the constructor of its maps,
    field_map.cc:74-81), [get_nb_components], and through the maps over pixels
    the number of sub-points and the memory. *)
Definition op_field {R} (f : field R) : gfield R :=
  mk_gfield (f_glob f) (match l_order (f_lay f) with ColMajor => true | _ => false end)
    (Z.to_nat (l_nbc (f_lay f))) (Z.to_nat (l_nsub (f_lay f))) (f_vals f).

(** gradient_operator_default.cc:163-168 [apply_gradient] on fields: the result is
    written to the memory of the quadrature point field.  [p] are the pixels of
    its collection. *)
Definition field_gradient {R} (o : ops R) (g : gop R) (p : pixels) (nodal quad : field R) : field R * res unit :=
  let r := apply_gradient o g p (op_field nodal) (op_field quad) in (with_vals quad (fd_mem (fst r)), snd r).

(** gradient_operator_default.cc:246-254 [apply_transpose] on fields. *)
Definition field_transpose {R} (o : ops R) (g : gop R) (p : pixels) (quad nodal : field R) (weights : list R) : field R * res unit :=
  let r := apply_transpose o g p (op_field quad) (op_field nodal) weights in (with_vals nodal (fd_mem (fst r)), snd r).
