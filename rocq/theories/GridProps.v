(** C01-C06: grid coordinates, pixel iteration, contiguity, buffer size,
    periodic indices, element counts.

    [sort_outcome n s axes] (GridModel) says that [axes] is some result
    [std::sort] may return for the axes comparator; theorems that quantify over
    it hold for every standard library. *)
From Verif Require Import Base CIntModel GridModel GridSpec GridProofs GridProofs2 GridProofs3.

(** * C01: index and coordinate are mutually inverse *)

(** Column-major pixels (the default): both round trips, any extents. *)
Theorem C01_default_pixels_inverse :
  forall n loc p, pixels_default n loc = Ok p -> Forall (fun x => 0 < x) n ->
  (forall c, in_box (px_nb p) (px_loc p) c ->
     exists i, px_get_index p c = Ok i /\ 0 <= i < zprod (px_nb p) /\ px_get_ccoord p i = Ok c) /\
  (forall i, 0 <= i < zprod (px_nb p) ->
     exists c, px_get_ccoord p i = Ok c /\ in_box (px_nb p) (px_loc p) c /\ px_get_index p c = Ok i).
Proof. intros n loc p Hp Hn. destruct (px_good_default n loc p Hp Hn) as (A & B & _). exact (conj A B). Qed.
Print Assumptions C01_default_pixels_inverse.

(** The object describes exactly the requested box. *)
Theorem C01_default_pixels_box :
  forall n loc p, length loc = length n -> pixels_default n loc = Ok p -> px_nb p = n /\ px_loc p = loc.
Proof.
  exact (fun n loc p Hl Hp =>
    match pixels_default_fields _ n loc p Hp with
    | conj A (conj B _) => conj A (eq_trans B (default_loc_full n loc Hl)) end).
Qed.
Print Assumptions C01_default_pixels_box.

Example C01_default_case :
  exists p, pixels_default [3; 1; 2] [10; 20; 30] = Ok p /\
    px_get_index p [12; 20; 31] = Ok 5 /\ px_get_ccoord p 5 = Ok [12; 20; 31].
Proof. eexists. vm_compute. repeat split. Qed.

(** Pixels given by strides that the library judges contiguous. *)
Theorem C01_contiguous_pixels_inverse :
  forall axes n loc s p, sort_outcome n s axes -> pixels_strided_with axes n loc s = Ok p ->
  px_contiguous p = true -> Forall (fun x => 0 < x) n -> zprod n < 2 ^ 31 ->
  (forall c, in_box (px_nb p) (px_loc p) c ->
     exists i, px_get_index p c = Ok i /\ 0 <= i < zprod (px_nb p) /\ px_get_ccoord p i = Ok c) /\
  (forall i, 0 <= i < zprod (px_nb p) ->
     exists c, px_get_ccoord p i = Ok c /\ in_box (px_nb p) (px_loc p) c /\ px_get_index p c = Ok i).
Proof.
  intros axes n loc s p Ho Hp Hc Hn Hv.
  destruct (px_good_strided axes n loc s p Ho Hp Hc Hn Hv) as (A & B & _). exact (conj A B).
Qed.
Print Assumptions C01_contiguous_pixels_inverse.

Example C01_contiguous_case :
  let s := [6; 3; 1] in
  sort_outcome [4; 2; 3] s [2; 1; 0]%nat /\
  exists p, pixels_strided_with [2; 1; 0]%nat [4; 2; 3] [0; 0; 0] s = Ok p /\ px_contiguous p = true /\
    px_get_ccoord p 23 = Ok [3; 1; 2].
Proof.
  split; [exact (compute_axes_order_outcome [4; 2; 3] [6; 3; 1])|]. eexists. vm_compute. repeat split.
Qed.

(** Nested strides, padding allowed: from coordinate to index and back. *)
Theorem C01_nested_strides_inverse :
  forall n loc s order axes c, nested n s order -> sort_outcome n s axes ->
  length loc = length n -> in_box n loc c ->
  exists i, get_index_from_strides s loc c = Ok i /\ get_ccoord_from_axes_order n loc s axes i = Ok c.
Proof. exact nested_roundtrip. Qed.
Print Assumptions C01_nested_strides_inverse.

Example C01_nested_case :
  nested [4; 2; 3] [1; 50; 10] [0; 2; 1]%nat /\ in_box [4; 2; 3] [5; 5; 5] [8; 6; 7].
Proof.
  split.
  - split; [reflexivity|]. split; [apply perm_skip, perm_swap|]. split.
    + intros j k H. destruct j as [|[|j]], k as [|[|[|k]]]; cbn in *; lia.
    + intros k H. destruct k as [|[|[|k]]]; cbn in *; lia.
  - split; [reflexivity|]. intros [|[|[|i]]] H; cbn in *; lia.
Qed.

(** The free functions [get_index] / [get_ccoord] (column-major). *)
Theorem C01_colmajor_functions_inverse :
  forall n loc, length loc = length n -> Forall (fun x => 0 < x) n -> zprod n < 2 ^ 31 ->
  (forall c, in_box n loc c -> exists i, get_index n loc c = Ok i /\ 0 <= i < zprod n /\ get_ccoord n loc i = Ok c) /\
  (forall i, 0 <= i < zprod n -> exists c, get_ccoord n loc i = Ok c /\ in_box n loc c /\ get_index n loc c = Ok i).
Proof.
  exact (fun n loc Hl Hn Hv =>
    conj (fun c Hc => colmajor_ccoord_of_index n loc c Hl Hc Hv)
         (fun i Hi => colmajor_index_of_ccoord n loc i Hl Hn Hi Hv)).
Qed.
Print Assumptions C01_colmajor_functions_inverse.

Example C01_colmajor_case :
  get_index [5; 4; 3] [1; 1; 1] [5; 4; 3] = Ok 59 /\ get_ccoord [5; 4; 3] [1; 1; 1] 59 = Ok [5; 4; 3].
Proof. vm_compute. split; reflexivity. Qed.

(** The claim for every layout the constructor accepts is false: a row-major
    grid with a middle extent of 1 ... *)
Theorem C01_row_major_inverse_refuted :
  exists n p i c, pixels_strided n [0; 0; 0] (row_major_strides n) = Ok p /\
    in_box n [0; 0; 0] c /\ px_get_index p c = Ok i /\ px_get_ccoord p i <> Ok c.
Proof.
  exists [3; 1; 2]. eexists. exists 3, [1; 0; 1]. split; [vm_compute; reflexivity|]. split.
  - split; [reflexivity|]. intros [|[|[|i]]] H; cbn in *; lia.
  - split; [vm_compute; reflexivity|]. vm_compute. discriminate.
Qed.
Print Assumptions C01_row_major_inverse_refuted.

(** ... and strides that give distinct indices but do not nest. *)
Theorem C01_injective_strides_inverse_refuted :
  exists n s p, pixels_strided n [0; 0] s = Ok p /\
    (forall c c' i, in_box n [0; 0] c -> in_box n [0; 0] c' ->
       px_get_index p c = Ok i -> px_get_index p c' = Ok i -> c = c') /\
    exists i c, in_box n [0; 0] c /\ px_get_index p c = Ok i /\ px_get_ccoord p i <> Ok c.
Proof.
  exists [3; 2], [2; 3]. eexists. split; [vm_compute; reflexivity|]. split.
  - intros c c' i [L H] [L' H'] E E'.
    destruct c as [|x [|y [|z c]]]; try discriminate. destruct c' as [|x' [|y' [|z' c']]]; try discriminate.
    unfold px_get_index, get_index_from_strides, stride_sum in E, E'.
    cbn [length Nat.eqb negb px_strides px_loc combine fold_left fst snd] in E, E'.
    assert (X : forall a b : Z, Ok a = Ok b -> a = b) by congruence. apply X in E. apply X in E'.
    pose proof (H 0%nat ltac:(cbn; lia)) as H0. pose proof (H 1%nat ltac:(cbn; lia)) as H1.
    pose proof (H' 0%nat ltac:(cbn; lia)) as H0'. pose proof (H' 1%nat ltac:(cbn; lia)) as H1'.
    unfold zn in H0, H1, H0', H1'. cbn [nth] in H0, H1, H0', H1'. assert (x = x' /\ y = y') as [-> ->] by lia. reflexivity.
  - exists 4, [2; 0]. split; [|split; [vm_compute; reflexivity|vm_compute; discriminate]].
    split; [reflexivity|]. intros [|[|i]] H; cbn in *; lia.
Qed.
Print Assumptions C01_injective_strides_inverse_refuted.

(** The default constructor is only right because the sort happens to be
    stable: the C++ standard allows a sort result that breaks it. *)
Theorem C01_default_unstable_sort_refuted :
  exists n axes p i c, sort_outcome n (col_major_strides n) axes /\
    pixels_default_with axes n [0; 0; 0] = Ok p /\
    in_box n [0; 0; 0] c /\ px_get_index p c = Ok i /\ px_get_ccoord p i <> Ok c.
Proof.
  exists [3; 1; 2], [0; 2; 1]%nat. eexists. exists 3, [0; 0; 1]. split; [|split; [vm_compute; reflexivity|split]].
  - split; [apply perm_skip, perm_swap|]. intros i j H.
    destruct i as [|[|i]], j as [|[|[|j]]]; cbn in H; try lia; reflexivity.
  - split; [reflexivity|]. intros [|[|[|i]]] H; cbn in *; lia.
  - split; [vm_compute; reflexivity|]. vm_compute. discriminate.
Qed.
Print Assumptions C01_default_unstable_sort_refuted.

(** * C02: enumeration visits every pixel exactly once *)

Theorem C02_default_pixels_enumeration :
  forall n loc p, pixels_default n loc = Ok p -> Forall (fun x => 0 < x) n ->
  exists cs, px_iterate p = Ok cs /\ NoDup cs /\ length cs = Z.to_nat (zprod (px_nb p)) /\
     (forall c, In c cs <-> in_box (px_nb p) (px_loc p) c) /\
     (forall k, (k < length cs)%nat -> px_get_index p (nth k cs []) = Ok (Z.of_nat k)) /\
     px_enumerate p = Ok (combine (zrange (length cs)) cs).
Proof. intros n loc p Hp Hn. exact (proj2 (proj2 (px_good_default n loc p Hp Hn))). Qed.
Print Assumptions C02_default_pixels_enumeration.

Theorem C02_contiguous_pixels_enumeration :
  forall axes n loc s p, sort_outcome n s axes -> pixels_strided_with axes n loc s = Ok p ->
  px_contiguous p = true -> Forall (fun x => 0 < x) n -> zprod n < 2 ^ 31 ->
  exists cs, px_iterate p = Ok cs /\ NoDup cs /\ length cs = Z.to_nat (zprod (px_nb p)) /\
     (forall c, In c cs <-> in_box (px_nb p) (px_loc p) c) /\
     (forall k, (k < length cs)%nat -> px_get_index p (nth k cs []) = Ok (Z.of_nat k)) /\
     px_enumerate p = Ok (combine (zrange (length cs)) cs).
Proof.
  intros axes n loc s p Ho Hp Hc Hn Hv. exact (proj2 (proj2 (px_good_strided axes n loc s p Ho Hp Hc Hn Hv))).
Qed.
Print Assumptions C02_contiguous_pixels_enumeration.

Example C02_case :
  exists p, pixels_strided [2; 3] [7; 9] [3; 1] = Ok p /\ px_contiguous p = true /\
    px_enumerate p = Ok [(0, [7; 9]); (1, [7; 10]); (2, [7; 11]); (3, [8; 9]); (4, [8; 10]); (5, [8; 11])].
Proof. eexists. vm_compute. repeat split. Qed.

(** Non-contiguous pixels refuse to be iterated. *)
Theorem C02_noncontiguous_refused :
  forall p, px_contiguous p = false -> px_iterate p = Err RuntimeError /\ px_enumerate p = Err RuntimeError.
Proof. intros p H. unfold px_enumerate, px_iterate. rewrite H. split; reflexivity. Qed.
Print Assumptions C02_noncontiguous_refused.

(** * C03: the contiguity verdict *)

(** Without extents of 1 the verdict is exactly "the offsets fill
    [0, volume) without gap or overlap". *)
Theorem C03_contiguous_iff_fills :
  forall n s axes, Forall (fun x => 2 <= x) n -> zprod n < 2 ^ 31 -> length s = length n ->
  sort_outcome n s axes ->
  (is_buffer_contiguous_ax n s axes = Ok true <-> fills_exactly n s).
Proof. exact contiguous_iff_fills. Qed.
Print Assumptions C03_contiguous_iff_fills.

(** Soundness needs only positive extents. *)
Theorem C03_contiguous_sound :
  forall n s axes, Forall (fun x => 0 < x) n -> zprod n < 2 ^ 31 -> sort_outcome n s axes -> n <> [] ->
  is_buffer_contiguous_ax n s axes = Ok true -> fills_exactly n s.
Proof. exact contiguous_sound. Qed.
Print Assumptions C03_contiguous_sound.

Example C03_sound_case :
  sort_outcome [2; 1; 3] [1; 2; 2] [0; 1; 2]%nat /\
  is_buffer_contiguous_ax [2; 1; 3] [1; 2; 2] [0; 1; 2]%nat = Ok true.
Proof. split; [exact (compute_axes_order_outcome [2; 1; 3] [1; 2; 2])|reflexivity]. Qed.

Example C03_iff_case :
  is_buffer_contiguous [4; 2; 3] [2; 1; 8] = Ok true /\ is_buffer_contiguous [4; 2; 3] [2; 1; 9] = Ok false.
Proof. split; reflexivity. Qed.

(** Column-major grids are recognised for all positive extents. *)
Theorem C03_col_major_recognised :
  forall n, Forall (fun x => 0 < x) n -> zprod n < 2 ^ 31 ->
  is_buffer_contiguous n (col_major_strides n) = Ok true.
Proof. exact col_major_recognised. Qed.
Print Assumptions C03_col_major_recognised.

(** Three-dimensional row-major grids: exactly these are not recognised. *)
Theorem C03_row_major_3d :
  forall a b c, 0 < a -> 0 < b -> 0 < c -> a * b * c < 2 ^ 31 ->
  is_buffer_contiguous [a; b; c] (row_major_strides [a; b; c]) =
  Ok (negb ((b =? 1) && (1 <? a) && (1 <? c))).
Proof. exact row_major3_recognised. Qed.
Print Assumptions C03_row_major_3d.

(** Completeness for all positive extents is false. *)
Theorem C03_complete_refuted :
  exists n s, Forall (fun x => 0 < x) n /\ fills_exactly n s /\ is_buffer_contiguous n s = Ok false.
Proof.
  exists [3; 1; 2], (row_major_strides [3; 1; 2]). split; [repeat constructor|]. split.
  - apply (dense_fills _ _ [2; 1; 0]%nat); [repeat constructor|reflexivity| |apply (row_major_dense [3; 1; 2])].
    symmetry. exact (Permutation_rev [0; 1; 2]%nat).
  - reflexivity.
Qed.
Print Assumptions C03_complete_refuted.

(** The verdict for the same layout depends on the sort implementation. *)
Theorem C03_verdict_depends_on_sort_refuted :
  exists n s axes axes', sort_outcome n s axes /\ sort_outcome n s axes' /\
    is_buffer_contiguous_ax n s axes = Ok true /\ is_buffer_contiguous_ax n s axes' = Ok false.
Proof.
  exists [3; 1; 2], [1; 3; 3], [0; 1; 2]%nat, [0; 2; 1]%nat.
  split; [|split; [|split; reflexivity]].
  - exact (compute_axes_order_outcome [3; 1; 2] [1; 3; 3]).
  - split; [apply perm_skip, perm_swap|]. intros i j H.
    destruct i as [|[|i]], j as [|[|[|j]]]; cbn in H; try lia; reflexivity.
Qed.
Print Assumptions C03_verdict_depends_on_sort_refuted.

(** Soundness fails beyond 2^31 pixels: the running stride wraps. *)
Theorem C03_sound_large_refuted :
  exists n s, Forall (fun x => 2 <= x) n /\ is_buffer_contiguous n s = Ok true /\ ~ fills_exactly n s.
Proof.
  exists [65537; 65537; 2], [1; 65537; 131073]. split; [repeat constructor; lia|]. split; [vm_compute; reflexivity|].
  intros (_ & _ & F & _). specialize (F [65536; 1; 0] [0; 0; 1] 131073).
  assert (X : [65536; 1; 0] = [0; 0; 1]); [|discriminate X].
  apply F; try (vm_compute; reflexivity);
    (split; [reflexivity|intros [|[|[|i]]] H; cbn in *; lia]).
Qed.
Print Assumptions C03_sound_large_refuted.

(** * C04: the reported buffer size covers every pixel *)

Theorem C04_buffer_size_covers_nested :
  forall n s order v loc c i, nested n s order -> n <> [] -> Forall (fun x => 0 < x) n ->
  length loc = length n -> in_box n loc c ->
  get_buffer_size n s = Ok v -> get_index_from_strides s loc c = Ok i -> 0 <= i < v.
Proof. exact nested_buffer_size. Qed.
Print Assumptions C04_buffer_size_covers_nested.

Example C04_case :
  get_buffer_size [4; 2; 3] [1; 50; 10] = Ok 100 /\
  get_index_from_strides [1; 50; 10] [0; 0; 0] [3; 1; 2] = Ok 73.
Proof. split; reflexivity. Qed.

(** For contiguous layouts the size is exactly the number of pixels. *)
Theorem C04_buffer_size_contiguous :
  forall n s axes, Forall (fun x => 0 < x) n -> zprod n < 2 ^ 31 -> sort_outcome n s axes -> n <> [] ->
  length s = length n -> is_buffer_contiguous_ax n s axes = Ok true -> get_buffer_size n s = Ok (zprod n).
Proof.
  intros n s axes Hn Hv Ho Hne Hs H.
  exact (dense_buffer_size n s axes Hn Hne Hs (proj1 Ho)
           (proj1 (is_contiguous_ax_dense n s axes Hn Hv (proj1 Ho) Hs) H)).
Qed.
Print Assumptions C04_buffer_size_contiguous.

(** For strides that do not nest it is too small. *)
Theorem C04_buffer_size_refuted :
  exists n s v c i, Forall (fun x => 0 < x) n /\ in_box n [0; 0] c /\
    get_buffer_size n s = Ok v /\ get_index_from_strides s [0; 0] c = Ok i /\ v <= i.
Proof.
  exists [3; 2], [2; 3], 6, [2; 1], 7. split; [repeat constructor|]. split.
  - split; [reflexivity|]. intros [|[|i]] H; cbn in *; lia.
  - repeat split; vm_compute; discriminate.
Qed.
Print Assumptions C04_buffer_size_refuted.

(** * C05: periodic wrap-around of an index *)

Theorem C05_modulo_periodic :
  forall a b, 0 < b -> exists r, modulo a b = Ok r /\ 0 <= r < b /\ (b | a - r) /\
    (forall k, modulo (a + k * b) b = Ok r).
Proof. exact modulo_periodic. Qed.
Print Assumptions C05_modulo_periodic.

Theorem C05_modulo_idempotent_additive :
  forall a a' b, 0 < b -> exists r r' s, modulo a b = Ok r /\ modulo a' b = Ok r' /\ modulo (a + a') b = Ok s /\
    modulo r b = Ok r /\ modulo (r + r') b = Ok s.
Proof. exact modulo_idem_add. Qed.
Print Assumptions C05_modulo_idempotent_additive.

Example C05_case : modulo (-7) 5 = Ok 3 /\ modulo 0 5 = Ok 0 /\ modulo (-5) 5 = Ok 0.
Proof. repeat split; reflexivity. Qed.

(** * C06: element counts of a shape *)

(** The count is right exactly when the product fits 32 bits. *)
Theorem C06_count_exact_iff :
  forall shape, get_nb_from_shape shape = zprod shape <-> - 2 ^ 31 <= zprod shape < 2 ^ 31.
Proof. exact accumulate_mul_exact_iff. Qed.
Print Assumptions C06_count_exact_iff.

Theorem C06_count_refuted :
  exists shape, Forall (fun x => 0 < x) shape /\ zprod shape < 2 ^ 63 /\ get_nb_from_shape shape = 0.
Proof. exists [65536; 65536]. split; [repeat constructor|]. split; vm_compute; reflexivity. Qed.
Print Assumptions C06_count_refuted.

Example C06_case : get_nb_from_shape [46340; 46340] = 2147395600.
Proof. reflexivity. Qed.

(** * C47: what remains true beyond contiguous grids *)

(** Padded layouts: the inverse law holds for all nested strides and every
    sort outcome.  Missing for the full claim: layouts with extents of one and
    injective strides that do not nest, where the law is false (the [_refuted]
    theorems above). *)
Theorem C47_nested_strides_inverse_partial :
  forall n loc s order axes c, nested n s order -> sort_outcome n s axes ->
  length loc = length n -> in_box n loc c ->
  exists i, get_index_from_strides s loc c = Ok i /\ get_ccoord_from_axes_order n loc s axes i = Ok c.
Proof. exact nested_roundtrip. Qed.
Print Assumptions C47_nested_strides_inverse_partial.

Theorem C47_degenerate_row_major_refuted :
  forall a c, 1 < a -> 1 < c -> a * 1 * c < 2 ^ 31 ->
  is_buffer_contiguous [a; 1; c] (row_major_strides [a; 1; c]) = Ok false.
Proof. exact row_major3_degenerate. Qed.
Print Assumptions C47_degenerate_row_major_refuted.
