(** * Properties of index arithmetic with 64-bit integers *)
From Verif Require Import Base CIntModel GridModel GridSpec GridProofs LayoutModel LayoutSpec LayoutProofs StridedModel MachModel MachSpec MachProofs.

(** C158: strides, sizes, volumes and the verdict on contiguity of a grid with fewer
    than 2^63 points are those of unbounded integers. *)
Theorem C158_grid n strides axes loc :
  Forall (fun x => 0 <= x) n -> room n < 2 ^ 63 -> Permutation axes (seq 0 (length n)) ->
  m_get_col_major_strides n = get_col_major_strides n /\ m_get_row_major_strides n = get_row_major_strides n /\
  m_get_size n = zprod n /\ m_compute_volume n = Ok (zprod n) /\
  m_is_buffer_contiguous_ax n strides axes = is_buffer_contiguous_ax n strides axes /\
  m_pixels_strided_with axes n loc strides = pixels_strided_with axes n loc strides.
Proof.
  intros F B A. split; [exact (m_col_strides_ok n F B)|]. split; [exact (m_row_strides_ok n F B)|]. split; [rewrite m_get_size_ok by (assumption || lia); unfold get_size; rewrite fold_left_mul; lia|].
  split; [rewrite (m_volume_ok n F B); unfold compute_volume; rewrite fold_left_mul; f_equal; lia|]. split; [exact (m_contiguous_ok n strides axes F B A)|exact (m_pixels_ok axes n loc strides F B A)].
Qed.
Print Assumptions C158_grid.
Example C158_grid_witness :
  room [2000000; 2000000; 2000000] = 8 * 10 ^ 18 /\ m_get_col_major_strides [2000000; 2000000; 2000000] = Ok [1; 2000000; 4000000000000] /\
  room [2000000; 2000000; 4000000] > 2 ^ 63 /\ m_compute_volume [2000000; 2000000; 4000000] = UB.
Proof. vm_compute. repeat split. Qed.

(** C158: the index of a coordinate in the grid: the strides, which may be negative,
    stay within a buffer of at most 2^63 elements. *)
Theorem C158_index n strides loc c size :
  size <= 2 ^ 63 -> Forall is_index n -> length strides = length n -> length loc = length n -> within n strides size -> in_box n loc c ->
  m_get_index_from_strides strides loc c = get_index_from_strides strides loc c.
Proof. intros B F L Ll W I. exact (m_index_ok size n strides loc c B F L W I Ll). Qed.
Print Assumptions C158_index.
Example C158_index_witness :
  m_get_index_from_strides [1; 3037000499] [- 5; 7] [3037000493; 3037000505] = Ok (3037000499 * 3037000499 - 1) /\
  m_get_index_from_strides [1; 3037000500] [0; 0] [0; 3037000500] = UB.
Proof. vm_compute. repeat split. Qed.

(** C158: the coordinate of an index, if its entries are numbers of 64 bits. *)
Theorem C158_coordinate n loc strides axes index c :
  0 <= index < 2 ^ 63 -> get_ccoord_from_axes_order n loc strides axes index = Ok c -> Forall is_index c ->
  m_get_ccoord_from_axes_order n loc strides axes index = Ok c.
Proof. exact (m_ccoord_ok n loc strides axes index c). Qed.
Print Assumptions C158_coordinate.
Example C158_coordinate_witness :
  m_get_ccoord_from_axes_order [4; 4000000000] [0; - 3] [4000000000; 1] [1%nat; 0%nat] 15999999999 = Ok [3; 3999999996] /\
  m_get_ccoord_from_axes_order [2; 2] [0; 2 ^ 63 - 1] [1; 2] [0%nat; 1%nat] 3 = UB.
Proof. vm_compute. repeat split. Qed.

(** C158: a collection with a domain of fewer than 2^31 points. *)
Theorem C158_collection axes nd nsd loc pstr : let n := if (length nsd =? 0)%nat then nd else nsd in
  Forall (fun x => 0 < x) nd -> zprod nd < 2 ^ 31 -> Forall2 (fun a b => 0 <= a <= b) n nd -> Permutation axes (seq 0 (length n)) ->
  Forall (fun x => 0 <= x) pstr -> (forall i, (i < length n)%nat -> zn n i * zn pstr i < 2 ^ 63) ->
  m_init_grid axes nd nsd loc pstr =
  (let! p := pixels_strided_with axes n loc pstr in let! b := get_buffer_size n pstr in Ok (p, zprod n, b, zrange (Z.to_nat (zprod n)))).
Proof. exact (m_init_ok axes nd nsd loc pstr). Qed.
Print Assumptions C158_collection.
Example C158_collection_witness :
  m_init_grid [1%nat; 0%nat] [46340; 46340] [2; 3] [46338; 5] [3000000000; 1] =
  Ok (mk_pixels [2; 3] [46338; 5] [3000000000; 1] [1%nat; 0%nat] false, 6, 6000000000, [0; 1; 2; 3; 4; 5]).
Proof. vm_compute. reflexivity. Qed.

(** C158: the strides and the size of the buffer of a field, in elements or bytes. *)
Theorem C158_field f u e pad :
  sane f -> modest f -> 0 < e -> 0 <= pad -> bytes f e + pad < 2 ^ 63 ->
  m_get_strides f u e = get_strides f u e /\ m_buffer_scalars f pad = Ok (buffer_scalars f + pad).
Proof.
  intros S M He Hp B. assert (Hb : 0 < Z.max 1 (l_nbuf f) * l_nsub f * l_nbc f).
  { destruct S as (Nb & Fc & Ns & _). pose proof (zprod_pos _ Fc). nia. }
  assert (B1 : bytes f 1 <= bytes f e) by (unfold bytes; nia). assert (Bs : buffer_scalars f <= bytes f 1).
  { unfold buffer_scalars, bytes. destruct S as (Nb & Fc & Ns & _). pose proof (zprod_pos _ Fc) as Pc. rewrite <- Nb in Pc. assert (l_nbuf f * (l_nsub f * l_nbc f) <= Z.max 1 (l_nbuf f) * (l_nsub f * l_nbc f)) by (apply Z.mul_le_mono_nonneg_r; nia). nia. }
  split; [apply m_strides_ok; try assumption; lia|]. apply m_scalars_ok; try assumption; try lia. exact (proj1 M).
Qed.
Print Assumptions C158_field.
(** C158: the strides of the storage orders, and all that are not negative, are
    [modest] on grids with a pixel. *)
Theorem C158_modest order porder n pstr loc comp nsub f :
  Forall (fun x => 0 < x) n ->
  (global_layout_order order porder n loc comp nsub = Ok f \/ (global_layout order n pstr loc comp nsub = Ok f /\ Forall (fun x => 0 <= x) pstr)) -> modest f.
Proof. intros P [E|[E F]]; [exact (order_modest order porder n loc comp nsub f P E)|exact (layout_modest order n pstr loc comp nsub f P F E)]. Qed.
Print Assumptions C158_modest.
Example C158_field_witness :
  exists f, global_layout_order RowMajor Automatic [1000000; 1000] [] [3; 3] 8 = Ok f /\ sane f /\ bytes f 8 = 576 * 10 ^ 9 /\
    m_get_strides f SubPt 8 = Ok [192 * 10 ^ 9; 64 * 10 ^ 9; 8 * 10 ^ 9; 8000; 8] /\ m_buffer_scalars f 1 = Ok (72 * 10 ^ 9 + 1).
Proof.
  eexists. split; [vm_compute; reflexivity|]. split; [|vm_compute; repeat split].
  unfold sane. cbn [l_nbc l_comp l_nsub l_order l_pix l_pstr l_nbuf]. split; [reflexivity|]. split; [repeat constructor|]. split; [lia|]. split; [now right|].
  split; [reflexivity|]. split.
  - intros c [L H]. destruct c as [|a [|b [|]]]; try discriminate L. pose proof (H 0%nat ltac:(cbn; lia)) as H0. pose proof (H 1%nat ltac:(cbn; lia)) as H1. cbn [zn nth] in H0, H1. rewrite !off_cons. change (off [] []) with 0. unfold zn in *. cbn [nth] in *. lia.
  - intros c d [L H] [L' H']. destruct c as [|a [|b [|]]]; try discriminate L. destruct d as [|a' [|b' [|]]]; try discriminate L'.
    pose proof (H 0%nat ltac:(cbn; lia)) as H0. pose proof (H 1%nat ltac:(cbn; lia)) as H1. pose proof (H' 0%nat ltac:(cbn; lia)) as H0'. pose proof (H' 1%nat ltac:(cbn; lia)) as H1'. rewrite !off_cons. change (off [] []) with 0. unfold zn in *. cbn [nth] in *. intros E.
    assert (a = a') by lia. assert (b = b') by lia. now subst.
Qed.

(** C158: copies between buffers of at most 2^63 elements; the number of elements to
    copy is the 32-bit number that C07 is about. *)
Theorem C158_copy {A} axes shape is os (inb outb : list A) :
  Permutation axes (seq 0 (length shape)) -> Forall (fun x => 0 < x <= 2 ^ 32) shape -> within shape is (2 ^ 63) -> within shape os (2 ^ 63) ->
  m_strided_copy_with axes shape is os inb outb = strided_copy_with axes shape is os inb outb.
Proof. exact (m_strided_copy_ok axes shape is os inb outb). Qed.
Print Assumptions C158_copy.
Example C158_copy_witness :
  m_strided_copy_with [0%nat; 1%nat] [2; 3] [1; 2] [3; 1] [10; 11; 12; 13; 14; 15] (repeat 0 6) = Ok [10; 12; 14; 11; 13; 15] /\
  m_linear_index 0 [(1, 2 ^ 62); (2 ^ 62, 1)] = Ok (2 ^ 63) /\ m_linear_index 0 [(2, 2 ^ 62)] = UB.
Proof. vm_compute. repeat split. Qed.

(** The number of points is computed exactly, or its computation overflows. *)
Theorem C158_volume n : Forall (fun x => 0 < x) n ->
  (zprod n < 2 ^ 63 -> m_compute_volume n = Ok (zprod n)) /\ (2 ^ 63 <= zprod n -> m_compute_volume n = UB).
Proof. exact (m_volume_exact n). Qed.
Print Assumptions C158_volume.
Example C158_volume_witness : m_compute_volume [2 ^ 31; 2 ^ 31] = Ok (2 ^ 62) /\ m_compute_volume [2 ^ 32; 2 ^ 31; 1] = UB.
Proof. vm_compute. repeat split. Qed.

(** C159: a domain of 2^32 points, the number that the comment on [Index_t] gives as
    the reason for its 64 bits, is refused, also where the part of it on the rank is
    small; [m_init_grid] does this whatever the locations and strides. *)
Theorem C159_refused_refuted : exists nd nsd, Forall (fun x => 0 < x) nd /\ zprod nd = 2 ^ 32 /\ Forall2 (fun a b => 0 <= a <= b) nsd nd /\ zprod nsd = 2 ^ 20 /\
  forall axes loc pstr, m_init_grid axes nd nsd loc pstr = Err FieldCollectionError.
Proof. exists [65536; 65536], [16; 65536]. split; [repeat constructor|]. split; [reflexivity|]. split; [repeat constructor; lia|]. split; [reflexivity|]. reflexivity. Qed.
Print Assumptions C159_refused_refuted.
(** C159: one more column, and the domain is accepted, but the counter of the loop over
    its pixels overflows. *)
Theorem C159_loop_refuted : exists nd, Forall (fun x => 0 < x) nd /\ bytes (mk_layout [1] 1 1 ColMajor nd [1; 65536] (zprod nd) (zprod nd)) 8 < 2 ^ 36 /\
  m_init_grid [0%nat; 1%nat] nd [] [] [1; 65536] = UB.
Proof. exists [65536; 65537]. split; [repeat constructor|]. split; [reflexivity|]. vm_compute. reflexivity. Qed.
Print Assumptions C159_loop_refuted.
Example C159_witness : exists p, m_init_grid [0%nat; 1%nat] [65536; 65537] [2; 2] [] [1; 2] = Ok (p, 4, 4, [0; 1; 2; 3]).
Proof. eexists. vm_compute. reflexivity. Qed.
