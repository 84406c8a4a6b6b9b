(** Properties of statically dimensioned pixels (C121, C122) and of volumes (C123,
    C124). *)
From Coq Require Import QArith.
From Verif Require Import Base CIntModel GridModel GridSpec GridProofs GridProofs2 GridProofs3 PixelsModel PixelsSpec PixelsProofs.
Local Open Scope Z_scope.
Local Open Scope list_scope.

(** ** C121: statically dimensioned pixels *)

(** Column-major: every pixel once, the one with index [k] in place [k]; the axes
    are those of a stable sort, as for dynamic pixels (C01). *)
Theorem C121_default n loc : length loc = length n -> Forall (fun x => 0 < x) n ->
  let p := static_default_with (compute_axes_order n (col_major_strides n)) n loc in
  exists cs, sp_iterate p = Ok cs /\ visits_once n loc cs /\
    forall k, (k < length cs)%nat -> px_get_index_static p (nth k cs []) = Ok (Z.of_nat k) /\ sp_get_ccoord p (Z.of_nat k) = Ok (nth k cs []).
Proof.
  intros L P p. assert (Ax : px_axes p = seq 0 (length n)) by (apply compute_axes_order_col_major; exact P).
  assert (Pm : Permutation (px_axes p) (seq 0 (length (px_nb p)))) by (rewrite Ax; apply Permutation_refl).
  assert (Ls : length (px_strides p) = length (px_nb p)) by apply col_major_strides_length.
  destruct (px_good_dense p L Ls Pm ltac:(rewrite Ax; apply col_major_dense) P eq_refl) as (_ & G2 & cs & I1 & I2 & I3 & I4 & I5 & _).
  exists cs. rewrite (same_iterate p Pm eq_refl). split; [exact I1|]. split; [split; [exact I2|split; [exact I3|exact I4]]|].
  intros k K. rewrite (same_index p _ L Ls). split; [now apply I5|]. unfold sp_get_ccoord. rewrite same_ccoord by exact Pm.
  destruct (G2 (Z.of_nat k)) as (c & C1 & C2 & C3); [rewrite I3 in K; lia|]. change (get_ccoord_from_axes_order (px_nb p) (px_loc p) (px_strides p) (px_axes p) (Z.of_nat k)) with (px_get_ccoord p (Z.of_nat k)).
  rewrite C1. f_equal. destruct (In_nth cs c [] (proj2 (I4 c) C2)) as (j & J1 & J2). rewrite <- J2 in C3 |- *. rewrite (I5 j J1) in C3.
  assert (X : Z.of_nat j = Z.of_nat k) by congruence. now apply Nat2Z.inj in X; subst.
Qed.
Print Assumptions C121_default.

(** With strides judged contiguous. *)
Theorem C121_contiguous axes n loc s p : sort_outcome n s axes -> length loc = length n -> length s = length n -> static_strided_with axes n loc s = Ok p ->
  px_contiguous p = true -> Forall (fun x => 0 < x) n -> zprod n < 2 ^ 31 ->
  exists cs, sp_iterate p = Ok cs /\ visits_once n loc cs /\ forall k, (k < length cs)%nat -> px_get_index_static p (nth k cs []) = Ok (Z.of_nat k).
Proof.
  intros So L S H C P V. unfold static_strided_with in H. destruct (is_buffer_contiguous_ax n s axes) as [b| |] eqn:E; try discriminate. cbn [bind] in H. injection H as <-.
  cbn [px_contiguous] in C. subst b. set (p := mk_pixels n loc s axes true).
  assert (D : dense n s axes 1) by (apply is_contiguous_ax_dense; try assumption; apply So).
  destruct (px_good_dense p L S (proj1 So) D P eq_refl) as (_ & _ & cs & I1 & I2 & I3 & I4 & I5 & _).
  exists cs. rewrite (same_iterate p (proj1 So) eq_refl). split; [exact I1|]. split; [split; [exact I2|split; [exact I3|exact I4]]|].
  intros k K. rewrite (same_index p _ L S). now apply I5.
Qed.
Print Assumptions C121_contiguous.

(** The static view on dynamic pixels: given for the right dimension only, with the
    coordinates and the iteration of the dynamic pixels. *)
Theorem C121_view_dimension dim p : (dim = length (px_nb p) -> get_dimensioned dim p = Ok p) /\ (dim <> length (px_nb p) -> get_dimensioned dim p = Err RuntimeError).
Proof. unfold get_dimensioned. destruct (Nat.eqb_spec dim (length (px_nb p))); cbn [negb]; split; congruence. Qed.
Print Assumptions C121_view_dimension.

Theorem C121_view axes n loc s p : sort_outcome n s axes -> pixels_strided_with axes n loc s = Ok p ->
  (forall i, sp_get_ccoord p i = px_get_ccoord p i) /\ (px_contiguous p = true -> sp_iterate p = px_iterate p) /\ (forall c, px_get_index_static p c = px_get_index p c).
Proof.
  intros So H. destruct (pixels_strided_fields axes n loc s p H) as (E1 & _ & E3 & E4 & E5 & E6 & _).
  assert (Pm : Permutation (px_axes p) (seq 0 (length (px_nb p)))) by (rewrite E1, E4; apply So).
  split; [intros i; unfold sp_get_ccoord; now rewrite same_ccoord|]. split; [now apply same_iterate|]. intros c. apply same_index; [now rewrite E1|now rewrite E1, E3].
Qed.
Print Assumptions C121_view.

(** Coordinates of another dimension are refused. *)
Theorem C121_index_dimension p c : length c <> length (px_nb p) -> px_get_index_static p c = Err RuntimeError.
Proof. intros H. unfold px_get_index_static. destruct (Nat.eqb_spec (length (px_nb p)) (length c)); [congruence|reflexivity]. Qed.
Print Assumptions C121_index_dimension.

Example C121_case : exists p, static_strided_with [1; 0]%nat [2; 3] [7; 9] [3; 1] = Ok p /\ px_contiguous p = true /\
  sp_iterate p = Ok [[7; 9]; [7; 10]; [7; 11]; [8; 9]; [8; 10]; [8; 11]] /\ px_get_index_static p [8; 10] = Ok 4 /\ get_dimensioned 3 p = Err RuntimeError.
Proof. eexists. split; [vm_compute; reflexivity|]. split; [reflexivity|]. split; [vm_compute; reflexivity|]. split; vm_compute; reflexivity. Qed.
Example C121_hypotheses : sort_outcome [2; 3] [3; 1] [1; 0]%nat.
Proof. exact (compute_axes_order_outcome [2; 3] [3; 1]). Qed.

(** ** C122: pixels with gaps between them *)

(** Refuted: iteration over statically dimensioned pixels is never refused ... *)
Theorem C122_never_refuses_refuted p e : sp_iterate p <> Err e.
Proof. exact (static_never_refuses p e). Qed.
Print Assumptions C122_never_refuses_refuted.

(** ... and with a gap it leaves the grid and misses pixels. *)
Theorem C122_static_refuted : exists n loc s p cs, static_strided_with (compute_axes_order n s) n loc s = Ok p /\ px_contiguous p = false /\
  sp_iterate p = Ok cs /\ (exists c, In c cs /\ ~ in_box n loc c) /\ exists c, in_box n loc c /\ ~ In c cs.
Proof.
  exists [2; 2], [0; 0], [1; 3]. eexists. eexists. split; [vm_compute; reflexivity|]. split; [reflexivity|]. split; [vm_compute; reflexivity|]. split.
  - exists [2; 0]. split; [cbn; auto|]. intros [_ H]. specialize (H 0%nat ltac:(cbn; lia)). cbn in H. lia.
  - exists [1; 1]. split; [split; [reflexivity|intros [|[|i]] H; cbn in *; lia]|]. cbn. intuition discriminate.
Qed.
Print Assumptions C122_static_refuted.

(** Missing: the static version.  Dynamic pixels refuse. *)
Theorem C122_dynamic_partial axes n loc s p : n <> [] -> sort_outcome n s axes -> Forall (fun x => 0 < x) n -> zprod n < 2 ^ 31 -> pixels_strided_with axes n loc s = Ok p ->
  ~ fills_exactly n s -> px_iterate p = Err RuntimeError /\ px_enumerate p = Err RuntimeError.
Proof.
  intros Nn So P V H F. assert (C : px_contiguous p = false).
  { destruct (px_contiguous p) eqn:C; [|reflexivity]. exfalso. apply F. destruct (pixels_strided_fields axes n loc s p H) as (_ & _ & _ & _ & _ & E6 & E7).
    apply (contiguous_sound n s axes); try assumption. now rewrite E7, C. }
  unfold px_enumerate, px_iterate. rewrite C. split; reflexivity.
Qed.
Print Assumptions C122_dynamic_partial.

Example C122_case : exists p, pixels_strided [2; 2] [0; 0] [1; 3] = Ok p /\ px_iterate p = Err RuntimeError /\ sp_iterate p = Ok [[0; 0]; [1; 0]; [2; 0]; [0; 1]].
Proof. eexists. split; [vm_compute; reflexivity|]. split; vm_compute; reflexivity. Qed.

(** ** C123: volumes and positions *)

(** The volumes of all pixels add up to the volume of the domain, exactly. *)
Theorem C123_volume n L : length L = length n -> Forall (fun x => 0 < x) n -> (inject_Z (zprod n) * compute_pixel_volume n L == fold_right Qmult 1 L)%Q.
Proof.
  intros E P. assert (Z1 : zprod n = get_size n).
  { unfold zprod, get_size. clear. induction n as [|x n IH]; [reflexivity|]. cbn [fold_left fold_right]. rewrite size_acc, IH. ring. }
  rewrite Z1, (pixel_volumes n L E P). unfold compute_volume_real. clear. induction L as [|x L IH]; [reflexivity|]. cbn [fold_left fold_right]. rewrite vol_acc, IH. ring.
Qed.
Print Assumptions C123_volume.

(** Every pixel lies inside the domain. *)
Theorem C123_positions n L c : length L = length n -> Forall (fun x => 0 < x) n -> Forall (fun l => 0 < l)%Q L -> in_box n (repeat 0 (length n)) c ->
  length (get_vector c (pixel_sizes n L)) = length n /\
  forall i, (i < length n)%nat -> (0 <= nth i (get_vector c (pixel_sizes n L)) 0 /\
    nth i (get_vector c (pixel_sizes n L)) 0 + nth i (pixel_sizes n L) 0 <= nth i L 0)%Q.
Proof. intros E P Q B. apply positions; try assumption; [exact (proj1 B)|exact (box_coords n c B)]. Qed.
Print Assumptions C123_positions.

(** Cubes: exactly for one to three dimensions. *)
Theorem C123_cube {T} dim (x : T) l : get_cube dim x = Ok l <-> 1 <= dim <= 3 /\ l = repeat x (Z.to_nat dim).
Proof. exact (cube_spec dim x l). Qed.
Print Assumptions C123_cube.

Example C123_case : (compute_pixel_volume [4; 3; 1]%Z [2; (3 # 2); 5] == 5 # 4)%Q /\ (compute_volume_real [2; (3 # 2); 5] == 15)%Q /\ get_cube 3 7 = Ok [7; 7; 7] /\ get_cube 4 7 = Err RuntimeError /\
  get_vector [3; 2; 0] (pixel_sizes [4; 3; 1] [2; (3 # 2); 5]%Q) = [(2 / 4) * 3; ((3 # 2) / 3) * 2; (5 / 1) * 0]%Q.
Proof. split; [reflexivity|]. split; [reflexivity|]. split; [reflexivity|]. split; reflexivity. Qed.

(** ** C124: lengths of another dimension *)

(** Refuted: further lengths are ignored, for all grids. *)
Theorem C124_ignored_refuted n L e : length L = length n -> compute_pixel_volume n (L ++ e) = compute_pixel_volume n L.
Proof. intros E. apply pixel_volume_prefix. lia. Qed.
Print Assumptions C124_ignored_refuted.
Example C124_case : (compute_pixel_volume [2; 2]%Z [1; 1; 3] == 1 # 4)%Q /\ (compute_pixel_volume [2; 2]%Z [1] == 1 # 2)%Q.
Proof. split; reflexivity. Qed.
