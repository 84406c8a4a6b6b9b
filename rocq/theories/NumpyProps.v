(** C35, C77-C81: numpy arrays and fields on the same memory. *)
From Verif Require Import Base GridModel GridSpec GridProofs StridedModel LayoutModel LayoutSpec LayoutProofs2 NumpyModel NumpySpec
  NumpyProofs3 NumpyProofs4 NumpyProofs5 NumpyProofs6 NumpyProofs7.

(** C35: a field made from an array by the first constructor (number of degrees
    of freedom per pixel).  Whatever the order in which [std::sort] leaves ties,
    every scalar of the field is the array element with the same component and
    pixel index, if the array is [regular], or if it has strides in whole items
    and the field says that its storage order is unknown. *)
Theorem C35_dof_constructor axes domain n loc ndof a pr :
  proxy_dof_with axes domain n loc ndof a = Ok pr -> proper a ->
  let comp := firstn (np_ndim a - length n) (np_shape a) in
  sort_outcome comp (component_strides_norm comp a) axes ->
  regular (np_ndim a - length n) a \/ (whole_items a /\ wrapped_order (pr_field pr) = UnknownOrder) ->
  shows (pr_field pr) a comp 1 n without_sub_axis.
Proof. exact (dof_shows axes domain n loc ndof a pr). Qed.
Print Assumptions C35_dof_constructor.

(** Two components, 3 x 5 grid, in C order with two items of padding after each
    grid row. *)
Example C35_dof_case :
  exists pr, proxy_dof [3; 5] [3; 5] [0; 0] 2 (mk_nparray [2; 3; 5] [168; 56; 8] 8) = Ok pr /\
  wrapped_strides (pr_field pr) SubPt 1 = Ok [21; 21; 7; 1].
Proof. eexists. split; [vm_compute; reflexivity|]. vm_compute. reflexivity. Qed.

(** The same for the second constructor (number of sub-points and shape of the
    components). *)
Theorem C35_components_constructor axes domain n loc nsub comp a pr :
  proxy_comp_with axes domain n loc nsub comp a = Ok pr -> proper a ->
  let cs := sub_pt_shape_of n comp nsub a in
  sort_outcome cs (component_strides_norm cs a) axes ->
  regular (np_ndim a - length n) a \/ (whole_items a /\ wrapped_order (pr_field pr) = UnknownOrder) ->
  shows (pr_field pr) a comp nsub n (position n comp a).
Proof. exact (comp_shows axes domain n loc nsub comp a pr). Qed.
Print Assumptions C35_components_constructor.

Example C35_components_case :
  (exists pr, proxy_comp [4; 3] [4; 3] [0; 0] 2 [2] (mk_nparray [2; 2; 4; 3] [192; 96; 24; 8] 8) = Ok pr /\
   wrapped_order (pr_field pr) = RowMajor /\ wrapped_strides (pr_field pr) SubPt 1 = Ok [24; 12; 3; 1]) /\
  (exists pr, proxy_comp [4; 3] [4; 3] [0; 0] 2 [2] (mk_nparray [2; 2; 4; 3] [8; 16; 32; 128] 8) = Ok pr /\
   wrapped_order (pr_field pr) = ColMajor /\ wrapped_strides (pr_field pr) SubPt 1 = Ok [1; 2; 4; 16]) /\
  (exists pr, proxy_comp [3] [3] [0] 1 [2] (mk_nparray [2; 3] [80; 16] 8) = Ok pr /\
   wrapped_order (pr_field pr) = UnknownOrder /\ wrapped_strides (pr_field pr) SubPt 1 = Ok [10; 0; 2]).
Proof.
  split; [|split]; eexists; (split; [vm_compute; reflexivity|]); (split; [vm_compute; reflexivity|]); vm_compute; reflexivity.
Qed.

(** Arrays in C order and in Fortran order are regular. *)
Theorem C35_c_and_fortran_order nc a : proper a -> (nc <= length (np_shape a))%nat ->
  in_c_order a \/ in_fortran_order a -> regular nc a.
Proof. intros Hp Hn [H|H]; [now apply c_regular|now apply fortran_regular]. Qed.
Print Assumptions C35_c_and_fortran_order.

(** Every array in Fortran order is accepted and seen as column-major. *)
Theorem C35_fortran_accepted domain n loc a cs :
  proper a -> in_fortran_order a -> np_shape a = cs ++ n -> n <> [] ->
  (loc = [] \/ length loc = length n) -> Forall (fun x => 0 < x) domain -> zprod domain < 2 ^ 31 ->
  (exists pr, proxy_dof domain n loc (zprod cs) a = Ok pr /\ wrapped_order (pr_field pr) = ColMajor) /\
  (exists pr, proxy_comp domain n loc 1 cs a = Ok pr /\ wrapped_order (pr_field pr) = ColMajor) /\
  (forall comp nsub, cs = comp ++ [nsub] ->
   exists pr, proxy_comp domain n loc nsub comp a = Ok pr /\ wrapped_order (pr_field pr) = ColMajor).
Proof.
  intros Hp E Hsh Hne Hloc Hd Hdv. split; [now apply fortran_dof|]. split.
  - apply (fortran_accepted domain n loc 1 cs a cs without_sub_axis); try assumption. right; auto.
  - intros comp nsub Ecs. apply (fortran_accepted domain n loc nsub comp a cs with_sub_axis); try assumption. left; auto.
Qed.
Print Assumptions C35_fortran_accepted.

(** C81: so is every array in C order that has at least two elements along
    every axis, with a storage order other than unknown. *)
Theorem C81_c_order_accepted_partial axes domain n loc a cs :
  proper a -> in_c_order a -> np_shape a = cs ++ n -> n <> [] -> Forall (fun x => 2 <= x) (np_shape a) ->
  sort_outcome cs (component_strides_norm cs a) axes ->
  (loc = [] \/ length loc = length n) -> Forall (fun x => 0 < x) domain -> zprod domain < 2 ^ 31 ->
  (exists pr, proxy_dof_with axes domain n loc (zprod cs) a = Ok pr /\ wrapped_order (pr_field pr) <> UnknownOrder) /\
  (exists pr, proxy_comp_with axes domain n loc 1 cs a = Ok pr /\ wrapped_order (pr_field pr) <> UnknownOrder) /\
  (forall comp nsub, cs = comp ++ [nsub] ->
   exists pr, proxy_comp_with axes domain n loc nsub comp a = Ok pr /\ wrapped_order (pr_field pr) <> UnknownOrder).
Proof.
  intros Hp E Hsh Hne H2 Hso Hloc Hd Hdv. split; [now apply c_dof|]. split.
  - apply (c_comp axes domain n loc 1 cs a cs without_sub_axis); try assumption. right; auto.
  - intros comp nsub Ecs. apply (c_comp axes domain n loc nsub comp a cs with_sub_axis); try assumption. left; auto.
Qed.
Print Assumptions C81_c_order_accepted_partial.

(** Shapes that do not fit are refused: an accepted array has the extents of
    the grid last, and the components (with the sub-points) before. *)
Theorem C35_shape_checked axes domain n loc a :
  (forall ndof pr, proxy_dof_with axes domain n loc ndof a = Ok pr ->
     exists comp, np_shape a = comp ++ n /\ zprod comp = ndof) /\
  (forall nsub comp pr, proxy_comp_with axes domain n loc nsub comp a = Ok pr ->
     np_shape a = comp ++ [nsub] ++ n \/ (nsub = 1 /\ np_shape a = comp ++ n)).
Proof.
  split.
  - intros ndof pr H. destruct (proxy_dof_inv _ _ _ _ _ _ _ H) as (E1 & E2 & _). eexists. split; [exact E1|exact E2].
  - intros nsub comp pr H. destruct (proxy_comp_inv _ _ _ _ _ _ _ _ H) as (E1 & [(E2 & _)|(E2 & E3 & _)] & _).
    + left. rewrite E1, E2, <- app_assoc. reflexivity.
    + right. split; [exact E3|]. now rewrite E1, E2.
Qed.
Print Assumptions C35_shape_checked.

Example C35_shape_case :
  proxy_comp [4; 3] [4; 3] [0; 0] 2 [2] (mk_nparray [2; 2; 3; 4] [192; 96; 32; 8] 8) = Err NumpyError /\
  proxy_comp [4; 3] [4; 3] [0; 0] 2 [2] (mk_nparray [2; 4; 3] [96; 24; 8] 8) = Err NumpyError /\
  proxy_dof [4; 3] [4; 3] [0; 0] 3 (mk_nparray [2; 4; 3] [96; 24; 8] 8) = Err NumpyError.
Proof. split; [|split]; vm_compute; reflexivity. Qed.

(** C81: not so for every array: C order with a first grid extent of 1 is refused,
    although the layout is that of the corresponding Fortran case. *)
Theorem C81_extent_one_refuted :
  exists a n, proper a /\ in_c_order a /\ np_shape a = [2; 2] ++ n /\
  proxy_comp n n (map (fun _ => 0) n) 2 [2] a = Err NumpyError.
Proof.
  exists (mk_nparray [2; 2; 1; 3] [48; 24; 24; 8] 8), [1; 3].
  split; [repeat split; repeat constructor|]. split; [reflexivity|]. split; reflexivity.
Qed.
Print Assumptions C81_extent_one_refuted.

(** C77: the order of the first two component axes is not looked at.  A dense
    array with all components of a pixel side by side, or all pixels of a
    component, is accepted, and the field shows elements of the array at other
    component indices. *)
Theorem C77_component_order_refuted :
  (exists a n comp pr, proper a /\ whole_items a /\ np_shape a = comp ++ n /\ fills (np_shape a) (np_item a) (np_strides a) /\
     proxy_comp n n (map (fun _ => 0) n) 1 comp a = Ok pr /\ wrapped_order (pr_field pr) = ColMajor /\
     ~ shows (pr_field pr) a comp 1 n without_sub_axis) /\
  (exists a n comp pr, proper a /\ whole_items a /\ np_shape a = comp ++ n /\ fills (np_shape a) (np_item a) (np_strides a) /\
     proxy_comp n n (map (fun _ => 0) n) 1 comp a = Ok pr /\ wrapped_order (pr_field pr) = RowMajor /\
     ~ shows (pr_field pr) a comp 1 n without_sub_axis).
Proof.
  split.
  - exists (mk_nparray [2; 3; 4] [24; 8; 48] 8), [4], [2; 3]. eexists.
    split; [repeat split; repeat constructor|].
    split; [repeat constructor; [now exists 3|now exists 1|now exists 6]|]. split; [reflexivity|].
    split; [exists [3; 1; 6]; split; [reflexivity|apply fills_b; [discriminate|repeat constructor|reflexivity|reflexivity]]|].
    split; [vm_compute; reflexivity|]. split; [vm_compute; reflexivity|].
    apply (not_shows _ _ _ _ _ _ [1; 0] 0 [0]); vm_compute; [reflexivity|reflexivity|reflexivity|discriminate].
  - exists (mk_nparray [2; 3; 4] [32; 64; 8] 8), [4], [2; 3]. eexists.
    split; [repeat split; repeat constructor|].
    split; [repeat constructor; [now exists 4|now exists 8|now exists 1]|]. split; [reflexivity|].
    split; [exists [4; 8; 1]; split; [reflexivity|apply fills_b; [discriminate|repeat constructor|reflexivity|reflexivity]]|].
    split; [vm_compute; reflexivity|]. split; [vm_compute; reflexivity|].
    apply (not_shows _ _ _ _ _ _ [1; 0] 0 [0]); vm_compute; [reflexivity|reflexivity|reflexivity|discriminate].
Qed.
Print Assumptions C77_component_order_refuted.

(** C78: arrays whose pixels are not packed.  Every slice of a one-dimensional
    array without components ([x[::k]], also with a negative step) is accepted
    and read at the wrong place ... *)
Theorem C78_slices_refuted n k : 2 <= n < 2 ^ 31 -> k <> 0 -> k <> 1 ->
  exists pr, proxy_dof [n] [n] [0] 1 (mk_nparray [n] [8 * k] 8) = Ok pr /\
  ~ shows (pr_field pr) (mk_nparray [n] [8 * k] 8) [] 1 [n] without_sub_axis.
Proof. exact (slice_misread n k). Qed.
Print Assumptions C78_slices_refuted.

(** ... and so are arrays with broadcast axes, and with gaps that are not a
    multiple of the next faster axis. *)
Theorem C78_strides_refuted :
  (exists a pr, np_shape a = [1; 4] /\ np_strides a = [0; 8] /\ np_item a = 8 /\
     proxy_dof [1; 4] [1; 4] [0; 0] 1 a = Ok pr /\ ~ shows (pr_field pr) a [] 1 [1; 4] without_sub_axis) /\
  (exists a pr, np_shape a = [2; 3; 5] /\ np_strides a = [8; 16; 56] /\ np_item a = 8 /\
     proxy_dof [3; 5] [3; 5] [0; 0] 2 a = Ok pr /\ ~ shows (pr_field pr) a [2] 1 [3; 5] without_sub_axis) /\
  (exists a pr, np_shape a = [2; 2; 4] /\ np_strides a = [80; 32; 8] /\ np_item a = 8 /\
     proxy_dof [4] [4] [0] 4 a = Ok pr /\ ~ shows (pr_field pr) a [2; 2] 1 [4] without_sub_axis).
Proof.
  split; [|split].
  - exists (mk_nparray [1; 4] [0; 8] 8). eexists. split; [reflexivity|]. split; [reflexivity|]. split; [reflexivity|].
    split; [vm_compute; reflexivity|].
    apply (not_shows _ _ _ _ _ _ [] 0 [0; 1]); vm_compute; [reflexivity|reflexivity|reflexivity|discriminate].
  - exists (mk_nparray [2; 3; 5] [8; 16; 56] 8). eexists. split; [reflexivity|]. split; [reflexivity|]. split; [reflexivity|].
    split; [vm_compute; reflexivity|].
    apply (not_shows _ _ _ _ _ _ [0] 0 [0; 1]); vm_compute; [reflexivity|reflexivity|reflexivity|discriminate].
  - exists (mk_nparray [2; 2; 4] [80; 32; 8] 8). eexists. split; [reflexivity|]. split; [reflexivity|]. split; [reflexivity|].
    split; [vm_compute; reflexivity|].
    apply (not_shows _ _ _ _ _ _ [1; 0] 0 [0]); vm_compute; [reflexivity|reflexivity|reflexivity|discriminate].
Qed.
Print Assumptions C78_strides_refuted.

(** C79: a field on an array of unknown storage order.  The array made from it
    in turn has element strides where byte strides are due, and [set_zero]
    misses elements of the array and clears cells that are none. *)
Theorem C79_custom_strides_refuted :
  exists a pr v s, proper a /\ whole_items a /\
    proxy_dof [4] [4] [0] 2 a = Ok pr /\ wrapped_order (pr_field pr) = UnknownOrder /\
    numpy_wrap (w_lay (pr_field pr)) (wrapped_strides (pr_field pr)) SubPt (np_item a) = Ok v /\
    wrapped_strides (pr_field pr) SubPt 1 = Ok s /\
    (exists i, in_shape (np_shape v) i /\ off (np_strides v) i <> np_item a * off s i) /\
    wrapped_set_zero 0 (pr_field pr) (map Z.of_nat (seq 1 14)) = Ok [0; 0; 0; 0; 0; 0; 0; 0; 9; 10; 11; 12; 13; 14] /\
    (exists i, in_shape (np_shape a) i /\ off (np_strides a) i = np_item a * 12) /\
    (forall i, in_shape (np_shape a) i -> off (np_strides a) i <> np_item a * 5).
Proof.
  exists (mk_nparray [2; 4] [80; 8] 8). eexists. eexists. eexists.
  split; [repeat split; repeat constructor|]. split; [repeat constructor; [now exists 10|now exists 1]|].
  split; [vm_compute; reflexivity|]. split; [vm_compute; reflexivity|]. split; [vm_compute; reflexivity|]. split; [vm_compute; reflexivity|].
  split; [exists [1; 0; 0]; split; [apply in_shape_b; vm_compute; reflexivity|vm_compute; discriminate]|].
  split; [vm_compute; reflexivity|].
  split; [exists [1; 2]; split; [apply in_shape_b; vm_compute; reflexivity|vm_compute; reflexivity]|].
  cbn [np_shape np_strides np_item]. intros i Hi. destruct (in_shape_2 _ _ _ Hi) as (x & y & -> & Hx & Hy).
  rewrite !LayoutProofs.off_cons, LayoutProofs.off_nil. lia.
Qed.
Print Assumptions C79_custom_strides_refuted.

(** Nor does [set_zero] reach all elements of an array with padded pixels, whose
    storage order is known. *)
Theorem C79_padded_pixels_refuted :
  exists a pr mem', proper a /\ regular 1 a /\ proxy_dof [3; 5] [3; 5] [0; 0] 2 a = Ok pr /\ wrapped_order (pr_field pr) = RowMajor /\
    inside a 40 /\ wrapped_set_zero 0 (pr_field pr) (repeat 1 40) = Ok mem' /\
    (exists i, in_shape (np_shape a) i /\ element a mem' i = Ok 1) /\
    (exists j, rd mem' j = Ok 0 /\ forall i, in_shape (np_shape a) i -> off (np_strides a) i <> np_item a * j).
Proof.
  exists (mk_nparray [2; 3; 5] [168; 56; 8] 8). eexists. eexists. split; [repeat split; repeat constructor|]. split.
  - exists [2; 1]%nat, [0]%nat. split.
    + split; [reflexivity|]. split; [apply Permutation_sym; exact (Permutation_rev [0; 1; 2]%nat)|]. split; [intros x r H; injection H as <- _; reflexivity|].
      intros [|[|k]] Hk; cbn in *; [split; [now exists 7|lia]|split; [now exists 3|lia]|lia].
    + right. split; [repeat constructor|]. split; [repeat constructor|]. lia.
  - split; [vm_compute; reflexivity|]. split; [vm_compute; reflexivity|]. split.
    + intros i Hi. cbn [np_shape np_strides np_item] in *. destruct (in_shape_3 _ _ _ _ Hi) as (x & y & z & -> & Hx & Hy & Hz).
      rewrite !LayoutProofs.off_cons, LayoutProofs.off_nil. lia.
    + split; [vm_compute; reflexivity|]. split; [exists [1; 2; 4]; split; [apply in_shape_b; vm_compute; reflexivity|vm_compute; reflexivity]|].
      exists 5. split; [vm_compute; reflexivity|]. intros i Hi. cbn [np_shape np_strides np_item] in *. destruct (in_shape_3 _ _ _ _ Hi) as (x & y & z & -> & Hx & Hy & Hz).
      rewrite !LayoutProofs.off_cons, LayoutProofs.off_nil. lia.
Qed.
Print Assumptions C79_padded_pixels_refuted.

(** For fields without strides given by the caller, the array made from the
    field has the byte strides of its elements, and [set_zero] clears all
    scalars of a memory that has room for them. *)
Theorem C79_custom_strides_partial f u sz : viewable f u -> 0 < sz ->
  (exists s v, get_strides f u 1 = Ok s /\ numpy_wrap f (get_strides f) u sz = Ok v /\
     np_shape v = get_shape f u /\ np_item v = sz /\ whole_items v /\
     forall i, in_shape (get_shape f u) i -> off (np_strides v) i = sz * off s i) /\
  (forall A (zero : A) size mem, buffer_scalars f <= size -> size <= Z.of_nat (length mem) ->
     exists s mem', get_strides f u 1 = Ok s /\ wrapped_set_zero zero (mk_wrapped f [] size) mem = Ok mem' /\
     length mem' = length mem /\
     (forall i, in_shape (get_shape f u) i -> rd mem' (off s i) = Ok zero) /\
     (forall j, size <= j -> rd mem' j = rd mem j)).
Proof.
  intros Hv Hsz. split.
  - destruct (wrap_view f u sz Hv Hsz) as (s & v & H1 & H2 & H3 & H4 & _ & H5 & H6). now exists s, v.
  - intros A zero size mem. now apply set_zero_native.
Qed.
Print Assumptions C79_custom_strides_partial.

Example C79_case : exists f, global_layout_order RowMajor Automatic [5; 2] [] [2; 3] 1 = Ok f /\
  viewable f Pixel /\
  numpy_wrap f (get_strides f) Pixel 8 = Ok (mk_nparray [2; 3; 5; 2] [240; 80; 16; 8] 8).
Proof.
  eexists. split; [vm_compute; reflexivity|]. split; [|vm_compute; reflexivity].
  split; [|now left]. eapply (proj1 (proj1 (global_order_dense RowMajor Automatic [5; 2] [] [2; 3] 1 _ eq_refl ltac:(repeat constructor) ltac:(repeat constructor) eq_refl eq_refl (or_intror eq_refl)))).
Qed.

(** C80: assigning an array to the Python property [s] or [p] of a field.  The
    array need not be contiguous, and may have negative strides as far as the
    elements lie in its memory. *)
Theorem C80_assign_then_read A axes f u a (vals mem : list A) sz :
  viewable f u -> 0 < sz -> get_shape f u <> [] -> Forall (fun x => 0 < x) (get_shape f u) -> zprod (get_shape f u) < 2 ^ 31 ->
  (forall s, get_strides f u 1 = Ok s -> sort_outcome (get_shape f u) s axes) ->
  np_shape a = get_shape f u -> length (np_strides a) = length (np_shape a) -> 0 < np_item a -> whole_items a ->
  inside a (Z.of_nat (length vals)) -> Z.of_nat (length mem) = buffer_scalars f ->
  exists mem' v, array_setter_with axes f (get_strides f) u a vals mem = Ok mem' /\ length mem' = length mem /\
    numpy_wrap f (get_strides f) u sz = Ok v /\ np_shape v = np_shape a /\
    (forall i, in_shape (np_shape a) i -> element v mem' i = element a vals i) /\
    (forall j, (forall i, in_shape (np_shape a) i -> off (np_strides v) i <> sz * j) -> rd mem' j = rd mem j).
Proof. exact (setter_correct axes f u a vals mem sz). Qed.
Print Assumptions C80_assign_then_read.

(** Arrays of another shape are refused. *)
Theorem C80_wrong_shape A axes f u a (vals mem : list A) : np_shape a <> get_shape f u ->
  array_setter_with axes f (get_strides f) u a vals mem = Err RuntimeError.
Proof. exact (setter_wrong_shape axes f u a vals mem). Qed.
Print Assumptions C80_wrong_shape.

(** The function with the order the sort gives for up to 16 axes. *)
Theorem C80_setter A f u a (vals mem : list A) sz :
  viewable f u -> 0 < sz -> get_shape f u <> [] -> Forall (fun x => 0 < x) (get_shape f u) -> zprod (get_shape f u) < 2 ^ 31 ->
  np_shape a = get_shape f u -> length (np_strides a) = length (np_shape a) -> 0 < np_item a -> whole_items a ->
  inside a (Z.of_nat (length vals)) -> Z.of_nat (length mem) = buffer_scalars f ->
  exists mem' v, array_setter f (get_strides f) u a vals mem = Ok mem' /\ numpy_wrap f (get_strides f) u sz = Ok v /\
    forall i, in_shape (np_shape a) i -> element v mem' i = element a vals i.
Proof.
  intros V S0 NE P B SH LS PI WI IN LM.
  assert (G : exists s, get_strides f u 1 = Ok s).
  { destruct (setter_correct (compute_axes_order (get_shape f u) (match get_strides f u 1 with Ok s => s | _ => [] end)) f u a vals mem sz) as (m & v & E & _); try assumption.
    - intros s ->. apply GridProofs2.compute_axes_order_outcome.
    - unfold array_setter_with in E. destruct (negb _); [discriminate|]. destruct (get_strides f u 1) as [s| |]; [eauto|discriminate..]. }
  destruct G as (s & G).
  destruct (setter_correct (compute_axes_order (get_shape f u) s) f u a vals mem sz) as (m & v & E & _ & W & _ & El & _); try assumption.
  - intros s' E'. rewrite G in E'. apply LayoutProofs.Ok_inj in E'. subst s'. apply GridProofs2.compute_axes_order_outcome.
  - exists m, v. unfold array_setter. rewrite G. cbn [bind]. auto.
Qed.
Print Assumptions C80_setter.

Example C80_case : exists f, global_layout_order ColMajor Automatic [3] [] [2] 1 = Ok f /\
  array_setter f (get_strides f) SubPt (mk_nparray [2; 1; 3] [24; 24; 8] 8) [1; 2; 3; 4; 5; 6] [0; 0; 0; 0; 0; 0] = Ok [1; 4; 2; 5; 3; 6] /\
  array_setter f (get_strides f) Pixel (mk_nparray [3; 2] [16; 8] 8) [1; 2; 3; 4; 5; 6] [0; 0; 0; 0; 0; 0] = Err RuntimeError.
Proof. eexists. split; [vm_compute; reflexivity|]. split; vm_compute; reflexivity. Qed.

(** A copy of a field ([numpy_copy]) is an array in C order that has, at every
    index, the element of the view of the field. *)
Theorem C80_numpy_copy A axes f u sz (mem junk : list A) :
  viewable f u -> 0 < sz -> get_shape f u <> [] -> Forall (fun x => 0 < x) (get_shape f u) -> zprod (get_shape f u) < 2 ^ 31 ->
  sort_outcome (get_shape f u) (rev (running 1 (rev (get_shape f u)))) axes ->
  Z.of_nat (length mem) = buffer_scalars f -> Z.of_nat (length junk) = zprod (get_shape f u) ->
  in_c_order (fresh_array (get_shape f u) sz) /\
  exists out v, numpy_copy_with axes f (get_strides f) u sz mem junk = Ok out /\ length out = length junk /\
    numpy_wrap f (get_strides f) u sz = Ok v /\ np_shape v = get_shape f u /\
    forall i, in_shape (get_shape f u) i -> element (fresh_array (get_shape f u) sz) out i = element v mem i.
Proof.
  intros. split; [apply fresh_in_c_order|]. now apply copy_correct.
Qed.
Print Assumptions C80_numpy_copy.

Example C80_copy_case : exists f, global_layout_order ColMajor Automatic [3] [] [2] 1 = Ok f /\
  numpy_copy_with [2; 1; 0]%nat f (get_strides f) SubPt 8 [1; 4; 2; 5; 3; 6] [0; 0; 0; 0; 0; 0] = Ok [1; 2; 3; 4; 5; 6].
Proof. eexists. split; [vm_compute; reflexivity|]. vm_compute. reflexivity. Qed.

(** C103: a wrapped field never changes the size of its memory.  The pad size
    cannot be set; [resize] does nothing, and is refused if the collection asks
    for another number of scalars. *)
Theorem C103_fixed_size w : (forall pad, wrapped_set_pad_size w pad = Err FieldError) /\
  wrapped_resize w = if l_nsub (w_lay w) * l_npix (w_lay w) * l_nbc (w_lay w) =? w_size w then Ok w else Err FieldError.
Proof. split; [reflexivity|]. unfold wrapped_resize, wrapped_buffer_size. now destruct (_ =? _). Qed.
Print Assumptions C103_fixed_size.

(** The constructor accepts a memory exactly if it has as many scalars as the field,
    and as many strides as axes, if any; then the field can be resized. *)
Theorem C103_constructor f size custom : l_nbc f <> 0 -> l_order f = ColMajor \/ l_order f = RowMajor -> length (l_pstr f) = length (l_pix f) ->
  (custom = [] \/ length custom = length (get_shape f SubPt)) /\ size = l_nsub f * l_npix f * l_nbc f ->
  exists w, wrapped_field f size custom = Ok w /\ w_lay w = f /\ w_custom w = custom /\ wrapped_buffer_size w = size /\ wrapped_resize w = Ok w.
Proof.
  intros Hn Ho Hl [Hc ->]. exists (mk_wrapped f custom (l_nsub f * l_npix f * l_nbc f)). split.
  - unfold wrapped_field. destruct (Z.eqb_spec (l_nbc f) 0); [contradiction|]. rewrite Z.quot_mul by assumption.
    assert (X : exists s, wrapped_strides (mk_wrapped f custom (l_nsub f * l_npix f * l_nbc f)) SubPt 1 = Ok s /\ length s = length (get_shape f SubPt)).
    { unfold wrapped_strides. cbn [w_custom w_lay]. destruct custom as [|x r].
      - destruct (strides_length f Ho Hl) as (s & E & L). eauto.
      - destruct Hc as [|Hc]; [discriminate|]. eauto. }
    destruct X as (s & E & L). rewrite E. cbn [bind]. rewrite L, Nat.eqb_refl, (Z.mul_comm (l_nbc f)), !Z.eqb_refl. reflexivity.
  - split; [reflexivity|]. split; [reflexivity|]. split; [reflexivity|]. unfold wrapped_resize, wrapped_buffer_size. cbn [w_lay w_size]. now rewrite Z.eqb_refl.
Qed.
Print Assumptions C103_constructor.
Theorem C103_constructor_refuses f size custom : l_nbc f <> 0 ->
  size <> l_nsub f * l_npix f * l_nbc f \/ (custom <> [] /\ length custom <> length (get_shape f SubPt)) ->
  forall w, wrapped_field f size custom <> Ok w.
Proof.
  intros Hn H w. unfold wrapped_field. destruct (Z.eqb_spec (l_nbc f) 0); [contradiction|].
  destruct (wrapped_strides (mk_wrapped f custom size) SubPt 1) as [s| |] eqn:E; cbn [bind]; try discriminate.
  destruct (Nat.eqb_spec (length (get_shape f SubPt)) (length s)) as [El|]; cbn [negb]; [|discriminate].
  destruct (Z.eqb_spec size (l_nbc f * Z.quot size (l_nbc f))) as [E1|]; cbn [negb]; [|discriminate].
  destruct (Z.eqb_spec (l_nsub f * l_npix f) (Z.quot size (l_nbc f))) as [E2|]; cbn [negb]; [|discriminate]. exfalso.
  destruct H as [H|[H1 H2]]; [apply H; rewrite E2, Z.mul_comm; exact E1|]. unfold wrapped_strides in E. cbn [w_custom] in E.
  destruct custom; [contradiction|]. injection E as <-. apply H2. now symmetry.
Qed.
Print Assumptions C103_constructor_refuses.

(** Strides given by the caller: unknown storage order, no view by pixels; none:
    order and strides as of any field. *)
Theorem C103_views w e : (w_custom w <> [] -> wrapped_order w = UnknownOrder /\ wrapped_strides w SubPt e = Ok (w_custom w) /\ wrapped_strides w Pixel e = Err FieldError) /\
  (w_custom w = [] -> wrapped_order w = l_order (w_lay w) /\ forall u, wrapped_strides w u e = get_strides (w_lay w) u e).
Proof.
  unfold wrapped_order, wrapped_strides. destruct (w_custom w) as [|x r]; split; intros H; try contradiction; try discriminate.
  - split; [reflexivity|]. intros u. reflexivity.
  - auto.
Qed.
Print Assumptions C103_views.

(** [set_zero] clears [size] scalars and leaves the rest of the memory as it is;
    it is only defined on a memory of at least this size. *)
Theorem C103_set_zero A (zero : A) w mem mem' : 0 <= w_size w -> wrapped_set_zero zero w mem = Ok mem' ->
  length mem' = length mem /\ (forall j, 0 <= j < w_size w -> rd mem' j = Ok zero) /\ (forall j, w_size w <= j -> rd mem' j = rd mem j).
Proof. apply set_zero_effect. Qed.
Print Assumptions C103_set_zero.

Example C103_case : exists f, global_layout_order ColMajor Automatic [3] [] [2] 1 = Ok f /\
  (exists w, wrapped_field f 6 [] = Ok w /\ wrapped_resize w = Ok w /\ wrapped_order w = ColMajor /\
     wrapped_set_zero 0 w [1; 2; 3; 4; 5; 6; 7] = Ok [0; 0; 0; 0; 0; 0; 7] /\ wrapped_set_zero 0 w [1; 2; 3] = UB) /\
  (exists w, wrapped_field f 6 [10; 0; 1] = Ok w /\ wrapped_order w = UnknownOrder /\ wrapped_strides w Pixel 1 = Err FieldError) /\
  wrapped_field f 5 [] = Err FieldError /\ wrapped_field f 6 [3; 1] = Err FieldError.
Proof.
  eexists. split; [vm_compute; reflexivity|]. split; [eexists; split; [vm_compute; reflexivity|]; repeat (split; [vm_compute; reflexivity|]); vm_compute; reflexivity|].
  split; [eexists; split; [vm_compute; reflexivity|]; split; vm_compute; reflexivity|]. split; vm_compute; reflexivity.
Qed.
