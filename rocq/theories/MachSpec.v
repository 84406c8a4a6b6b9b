(** Specification vocabulary for the theorems on overflow. *)
From Verif Require Import Base GridModel GridSpec LayoutModel LayoutSpec.

(** The values of [Index_t]. *)
Definition is_index (z : Z) : Prop := - 2 ^ 63 <= z < 2 ^ 63.
(** The number of points of a grid, where extents of zero count as one. *)
Definition room (n : list Z) : Z := zprod (map (Z.max 1) n).
(** The bytes of a field with elements of [e] bytes, at least those of a pixel. *)
Definition bytes (f : layout) (e : Z) : Z := Z.max 1 (l_nbuf f) * l_nsub f * l_nbc f * e.
(** Strides of pixels that do not exceed their memory. *)
Definition modest (f : layout) : Prop := 0 <= l_nbuf f /\ Forall (fun s => 0 <= s <= Z.max 1 (l_nbuf f)) (l_pstr f).
