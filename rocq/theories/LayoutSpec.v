(** Specification vocabulary for field layouts. *)
From Verif Require Import Base GridSpec LayoutModel.

(** The strides address every cell of a buffer of [size] scalars exactly once. *)
Definition bijective_on (n strides : list Z) (size : Z) : Prop :=
  length strides = length n /\
  within n strides size /\ injective_on n strides /\
  forall v, 0 <= v < size -> exists c, in_shape n c /\ off strides c = v.

(** The strides address distinct cells of a buffer of [size] scalars. *)
Definition embeds (n strides : list Z) (size : Z) : Prop :=
  length strides = length n /\ within n strides size /\ injective_on n strides.

(** A field whose component count matches its component shape and whose
    collection assigns distinct buffer pixels to distinct pixels. *)
Definition sane (f : layout) : Prop :=
  l_nbc f = zprod (l_comp f) /\ Forall (fun x => 0 < x) (l_comp f) /\ 0 < l_nsub f /\
  (l_order f = ColMajor \/ l_order f = RowMajor) /\
  embeds (l_pix f) (l_pstr f) (l_nbuf f).

(** As [sane], and the pixels fill the buffer (no padding). *)
Definition sane_dense (f : layout) : Prop :=
  sane f /\ bijective_on (l_pix f) (l_pstr f) (l_nbuf f).
