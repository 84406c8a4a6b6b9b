(** Specification vocabulary for the gradient operator. *)
From Verif Require Import Base GridSpec GridModel RingModel GradModel.
Local Open Scope list_scope.

(** Pixel [c] of a periodic grid with extents [n]. *)
Definition wrap (n c : list Z) : list Z := map (fun q => fst q mod snd q) (combine c n).

(** What a field stores for component [comp] of sub-point [pt] of the pixel at
    coordinates [c]. *)
Definition value {R} (o : ops R) (p : pixels) (f : gfield R) (c : list Z) (pt comp : nat) : R :=
  match px_get_index p c with
  | Ok i => nth (Z.to_nat i * (fd_comps f * fd_pts f) + pt * fd_comps f + comp)%nat (fd_mem f) (zero o)
  | _ => zero o
  end.

(** A field of the given numbers of components and sub-points, with one entry
    for each pixel. *)
Definition is_field {R} (n : list Z) (comps pts : nat) (f : gfield R) : Prop :=
  fd_global f = true /\ fd_colmajor f = true /\ fd_comps f = comps /\ fd_pts f = pts /\
  length (fd_mem f) = (Z.to_nat (zprod n) * (comps * pts))%nat.

(** Scalar product of two buffers. *)
Definition dot_product {R} (o : ops R) (a b : list R) : R :=
  sum_below o (length a) (fun i => mul o (nth i a (zero o)) (nth i b (zero o))).

(** A discretisation: for every element its nodes (index within the pixel and
    offset of the pixel) and the derivatives of the shape functions. *)
Record discretisation (R : Type) := mk_disc {
  node : nat -> nat -> nat;             (* element, node of the element *)
  offset : nat -> nat -> list Z;        (* element, node of the element *)
  deriv : nat -> nat -> nat -> nat -> R (* element, quadrature point, direction, node of the element *) }.
Arguments mk_disc {R} _ _ _.
Arguments node {R} _ _ _.
Arguments offset {R} _ _ _.
Arguments deriv {R} _ _ _ _ _.

(** What the constructor's documentation asks for: nodes belong to the pixel,
    offsets lead to the pixel itself or its successors. *)
Definition valid_disc {R} (sd ne nen npn : nat) (d : discretisation R) : Prop :=
  forall e i, (e < ne)%nat -> (i < nen)%nat ->
    (node d e i < npn)%nat /\ length (offset d e i) = sd /\ forall k, (k < sd)%nat -> 0 <= zn (offset d e i) k <= 1.

(** The arguments of the constructor for a discretisation. *)
Definition grads_of {R} (sd nq ne nen : nat) (d : discretisation R) : list (list (mat R)) :=
  map (fun q => map (fun e => mk_mat sd nen (fun k i => deriv d e q k i)) (seq 0 ne)) (seq 0 nq).
Definition pts_of {R} (sd ne nen : nat) (d : discretisation R) : list (list Z * mat Z) :=
  map (fun e => (map (fun i => Z.of_nat (node d e i)) (seq 0 nen), mk_mat nen sd (fun i k => zn (offset d e i) k))) (seq 0 ne).

(** The derivative in direction [k] at quadrature point [q] of element [e] of
    pixel [c] of the periodic nodal field [u]. *)
Definition derivative {R} (o : ops R) (n : list Z) (nen : nat) (d : discretisation R) (u : list Z -> nat -> R) (c : list Z) (e q k : nat) : R :=
  sum_below o nen (fun i => mul o (deriv d e q k i) (u (wrap n (add_coords c (offset d e i))) (node d e i))).

(** The pixels of a grid with extents [n] that starts at the origin, in
    column-major order or with strides without gaps. *)
Definition grid_of (n : list Z) (p : pixels) : Prop :=
  Forall (fun x => 0 < x) n /\
  (pixels_default n [] = Ok p \/
   exists axes s, sort_outcome n s axes /\ pixels_strided_with axes n [] s = Ok p /\ px_contiguous p = true /\ zprod n < 2 ^ 31).

(** Entry [i] of a field's buffer. *)
Definition coefficient {R} (o : ops R) (f : gfield R) (i : nat) : R := nth i (fd_mem f) (zero o).

(** Fields of one kind: they differ in their entries only. *)
Definition same_kind {R} (f f' : gfield R) : Prop :=
  fd_global f = fd_global f' /\ fd_colmajor f = fd_colmajor f' /\ fd_comps f = fd_comps f' /\ fd_pts f = fd_pts f' /\ length (fd_mem f) = length (fd_mem f').
