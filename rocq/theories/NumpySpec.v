(** Specification vocabulary for numpy arrays and fields on their memory. *)
From Verif Require Import Base GridSpec StridedModel LayoutModel LayoutSpec NumpyModel.

(** The field has the given component shape, number of sub-points and grid,
    and its scalar at component index [c], sub-point [q] and pixel [p] is, in
    memory, the element of the array at index [at_ c q p].  Offsets in the
    field count scalars, offsets in the array count bytes. *)
Definition shows (w : wrapped) (a : nparray) (comp : list Z) (nsub : Z) (n : list Z)
    (at_ : list Z -> Z -> list Z -> list Z) : Prop :=
  get_shape (w_lay w) SubPt = comp ++ nsub :: n /\
  exists s, wrapped_strides w SubPt 1 = Ok s /\
  forall c q p, in_shape comp c -> 0 <= q < nsub -> in_shape n p ->
    in_shape (np_shape a) (at_ c q p) /\
    np_item a * off s (c ++ q :: p) = off (np_strides a) (at_ c q p).

(** Position in an array with and without an axis for the sub-points. *)
Definition with_sub_axis (c : list Z) (q : Z) (p : list Z) : list Z := c ++ q :: p.
Definition without_sub_axis (c : list Z) (q : Z) (p : list Z) : list Z := c ++ p.
Definition position (n comp : list Z) (a : nparray) : list Z -> Z -> list Z -> list Z :=
  if (length n + length comp + 1 =? length (np_shape a))%nat then with_sub_axis else without_sub_axis.

(** An array with one stride per axis, non-empty along every axis. *)
Definition proper (a : nparray) : Prop :=
  length (np_strides a) = length (np_shape a) /\ Forall (fun x => 0 < x) (np_shape a) /\
  0 < np_item a /\ zprod (np_shape a) < 2 ^ 31.

(** All strides are multiples of the item size (of either sign, or zero). *)
Definition whole_items (a : nparray) : Prop := Forall (fun s => (np_item a | s)) (np_strides a).

(** The strides of an array of extents [n] along [order], fastest axis first:
    the first stride is [w], and every further one is a multiple of the one
    before and leaves room for all its elements.  Arrays in C or Fortran order
    and their transposes, possibly with padding after any axis, are of this
    kind. *)
Definition packed_along (w : Z) (n s : list Z) (order : list nat) : Prop :=
  length s = length n /\ Permutation order (seq 0 (length n)) /\
  (forall a r, order = a :: r -> zn s a = w) /\
  (forall k, (S k < length order)%nat ->
     (zn s (nth k order 0%nat) | zn s (nth (S k) order 0%nat)) /\
     zn n (nth k order 0%nat) * zn s (nth k order 0%nat) <= zn s (nth (S k) order 0%nat)).

(** ... with the first [nc] axes (components) all faster than the others, the
    second of them not faster than the first, or all slower, the second not
    slower than the first. *)
Definition regular (nc : nat) (a : nparray) : Prop :=
  exists fast slow,
    packed_along (np_item a) (np_shape a) (np_strides a) (fast ++ slow) /\
    ((Forall (fun i => (i < nc)%nat) fast /\ Forall (fun i => (nc <= i)%nat) slow /\
      ((2 <= nc)%nat -> zn (np_strides a) 0 <= zn (np_strides a) 1)) \/
     (Forall (fun i => (nc <= i)%nat) fast /\ Forall (fun i => (i < nc)%nat) slow /\
      ((2 <= nc)%nat -> zn (np_strides a) 1 <= zn (np_strides a) 0))).

(** Arrays in C order and in Fortran order. *)
Definition in_c_order (a : nparray) : Prop :=
  np_strides a = map (fun i => np_item a * zprod (skipn (S i) (np_shape a))) (seq 0 (length (np_shape a))).
Definition in_fortran_order (a : nparray) : Prop :=
  np_strides a = map (fun i => np_item a * zprod (firstn i (np_shape a))) (seq 0 (length (np_shape a))).

(** The element of an array at an index, in the memory that starts at its
    first element. *)
Definition element {A} (a : nparray) (mem : list A) (i : list Z) : res A :=
  rd mem (Z.quot (off (np_strides a) i) (np_item a)).

(** All elements of the array lie in a memory of [size] items. *)
Definition inside (a : nparray) (size : Z) : Prop :=
  forall i, in_shape (np_shape a) i ->
  0 <= off (np_strides a) i /\ off (np_strides a) i < np_item a * size.

(** Fields whose view [u] reaches every scalar once: all for [SubPt]; for
    [Pixel] those with column-major storage, and those with one sub-point. *)
Definition viewable (f : layout) (u : iter_unit) : Prop :=
  sane f /\
  match u with
  | SubPt => True
  | Pixel => l_nsub f = 1 \/ (l_order f = ColMajor /\ l_comp f <> [])
  end.

(** The elements fill a block of memory without gap or overlap. *)
Definition fills (shape : list Z) (item : Z) (strides : list Z) : Prop :=
  exists es, strides = map (fun x => x * item) es /\ fills_exactly shape es.
