(** Specification vocabulary for the gradient operator on fields. *)
From Verif Require Import Base GridModel GridSpec LayoutModel LayoutSpec FieldModel FieldSpec RingModel GradModel GradSpec EigenSpec.

(** A field of a global collection with pixels [p] of extents [n], column-major
    storage of its components and no memory that is not used. *)
Definition on_grid {R} (n : list Z) (p : pixels) (f : field R) : Prop :=
  ready f /\ f_glob f = true /\ l_order (f_lay f) = ColMajor /\
  l_pix (f_lay f) = n /\ l_pstr (f_lay f) = px_strides p /\ unpadded f /\ f_pad f = 0.

(** What a field holds for a component, a sub-point and a pixel. *)
Definition val {R} (o : ops R) (f : field R) (comp : list Z) (q : Z) (c : list Z) : R :=
  match FieldSpec.value f (comp ++ [q] ++ c) with Ok x => x | _ => zero o end.
