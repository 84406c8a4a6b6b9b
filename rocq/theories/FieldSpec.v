(** Specification vocabulary for fields with storage. *)
From Verif Require Import Base GridSpec StridedModel LayoutModel LayoutSpec FieldModel.

(** The scalar a field holds at a logical (component, sub-point, pixel) index. *)
Definition value {A} (f : field A) (c : list Z) : res A :=
  let! s := get_strides (f_lay f) SubPt 1 in rd (f_vals f) (off s c).

(** A field of an initialised collection whose storage is up to date. *)
Definition ready {A} (f : field A) : Prop :=
  sane (f_lay f) /\ f_init f = true /\ f_ptr f = Some (f_gen f) /\ 0 <= f_pad f /\
  l_npix (f_lay f) = zprod (l_pix (f_lay f)) /\ 0 <= l_npix (f_lay f) <= l_nbuf (f_lay f) /\
  f_cur f = l_nsub (f_lay f) * l_nbuf (f_lay f) /\
  len (f_vals f) = buffer_scalars (f_lay f) + f_pad f.

(** The pixels fill the buffer of the collection. *)
Definition unpadded {A} (f : field A) : Prop := l_nbuf (f_lay f) = l_npix (f_lay f).

(** Logical indices of a field. *)
Definition logical {A} (f : field A) (c : list Z) : Prop := in_shape (get_shape (f_lay f) SubPt) c.

(** A field registered in an initialised collection and filled with the given
    scalars; used in concrete cases. *)
Definition field_on {A} (zero : A) (l : layout) (glob : bool) (vals : list A) : field A :=
  with_vals (fst (resize zero (new_field l glob true))) vals.

(** Number of entries of a map: one per pixel or one per sub-point. *)
Definition entries_of {A} (f : field A) (u : iter_unit) : Z :=
  match u with SubPt => l_nsub (f_lay f) * l_npix (f_lay f) | Pixel => l_npix (f_lay f) end.
(** Scalars per entry. *)
Definition scalars_per_entry {A} (f : field A) (u : iter_unit) : Z :=
  match u with Pixel => l_nbc (f_lay f) * l_nsub (f_lay f) | SubPt => l_nbc (f_lay f) end.

(** Successive calls of [push_back] and [push_back_single]. *)
Fixpoint pushes {A} (f : field A) (vs : list (list A)) : res (field A) :=
  match vs with [] => Ok f | v :: r => let! f' := push_back f v in pushes f' r end.
Fixpoint pushes_single {A} (f : field A) (vs : list (list A)) : res (field A) :=
  match vs with [] => Ok f | v :: r => let! f' := push_back_single f v in pushes_single f' r end.

(** The field of a local collection after it was initialised with [n] pixels
    (the collection's data as seen by the field; storage not yet resized). *)
Definition initialised_local {A} (f : field A) (n : Z) : field A :=
  mk_field (local_layout n (l_comp (f_lay f)) (l_nsub (f_lay f))) (f_glob f) true (f_cur f) (f_pad f) (f_vals f) (f_cap f) (f_gen f) (f_ptr f).
