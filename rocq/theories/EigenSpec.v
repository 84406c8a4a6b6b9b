(** Specification vocabulary for matrix views of fields. *)
From Verif Require Import Base GridSpec LayoutModel LayoutSpec FieldModel FieldSpec.

(** Number of the multi-index [c] of shape [n] when the first index runs fastest. *)
Fixpoint rank_of (n c : list Z) : Z :=
  match n, c with
  | n0 :: ns, x :: r => x + n0 * rank_of ns r
  | _, _ => 0
  end.

(** A component, a sub-point and a pixel of a field. *)
Definition entry_of {A} (f : field A) (comp : list Z) (q : Z) (p : list Z) : Prop :=
  in_shape (l_comp (f_lay f)) comp /\ 0 <= q < l_nsub (f_lay f) /\ in_shape (l_pix (f_lay f)) p.

(** Position of the pixel in the memory of the collection. *)
Definition pixel_no {A} (f : field A) (p : list Z) : Z := off (l_pstr (f_lay f)) p.
