(** Specification vocabulary for the grid properties; independent of the
    model's own functions. *)
From Verif Require Import Base.

(** [c] is a point of the box that starts at [loc] and has extents [n]. *)
Definition in_box (n loc c : list Z) : Prop :=
  length c = length n /\
  forall i, (i < length n)%nat -> zn loc i <= zn c i < zn loc i + zn n i.

(** [v] is the offset of [c] relative to [loc] under the given strides. *)
Definition offset_of (strides loc c : list Z) (v : Z) : Prop :=
  v = zsum (map (fun i => zn strides i * (zn c i - zn loc i)) (seq 0 (length strides))).

(** The offsets of the box fill [0 .. prod n) without gap or overlap. *)
Definition fills_exactly (n strides : list Z) : Prop :=
  length strides = length n /\
  let loc := repeat 0 (length n) in
  (forall c v, in_box n loc c -> offset_of strides loc c v -> 0 <= v < zprod n) /\
  (forall c c' v, in_box n loc c -> in_box n loc c' ->
     offset_of strides loc c v -> offset_of strides loc c' v -> c = c') /\
  (forall v, 0 <= v < zprod n -> exists c, in_box n loc c /\ offset_of strides loc c v).

(** Strides that nest: there is an order of the axes, from fastest to slowest,
    along which the strides increase strictly and every stride exceeds the
    largest offset that the faster axes can produce together.  Dense layouts
    of extents of at least 2 and layouts with padding after any axis are of
    this kind. *)
Definition nested (n strides : list Z) (order : list nat) : Prop :=
  length strides = length n /\
  Permutation order (seq 0 (length n)) /\
  (forall j k, (j < k < length order)%nat ->
     zn strides (nth j order 0%nat) < zn strides (nth k order 0%nat)) /\
  (forall k, (k < length order)%nat ->
     zsum (map (fun a => zn strides a * (zn n a - 1)) (firstn k order))
     < zn strides (nth k order 0%nat)).

(** [c] is a multi-index of an array of shape [n]. *)
Definition in_shape (n c : list Z) : Prop :=
  length c = length n /\ forall i, (i < length n)%nat -> 0 <= zn c i < zn n i.

(** Offset of the multi-index [c] under the given strides. *)
Definition off (strides c : list Z) : Z :=
  zsum (map (fun i => zn strides i * zn c i) (seq 0 (length strides))).

(** Distinct multi-indices of shape [n] have distinct offsets. *)
Definition injective_on (n strides : list Z) : Prop :=
  forall c c', in_shape n c -> in_shape n c' -> off strides c = off strides c' -> c = c'.

(** All offsets of shape [n] lie in a buffer of [size] elements. *)
Definition within (n strides : list Z) (size : Z) : Prop :=
  forall c, in_shape n c -> 0 <= off strides c < size.
