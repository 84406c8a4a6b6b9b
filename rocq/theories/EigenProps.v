(** C152, C153: matrix views of fields. *)
From Verif Require Import Base CIntModel GridModel GridSpec StridedModel LayoutModel LayoutSpec LayoutProofs LayoutProofs2.
From Verif Require Import FieldModel FieldSpec FieldProofs FieldProofs2 FieldProofs3 EigenModel EigenSpec EigenProofs.

(** ** C152 *)

(** The view by sub-points of a column-major field: one column per sub-point,
    one row per component. *)
Theorem C152_sub_pt {A} axes (f : field A) v : ready f -> l_order (f_lay f) = ColMajor -> eigen_sub_pt axes f = Ok v ->
  v_rows v = zprod (l_comp (f_lay f)) /\ v_cols v = l_nsub (f_lay f) * zprod (l_pix (f_lay f)) /\
  forall comp q p, entry_of f comp q p ->
    coeff v f (rank_of (l_comp (f_lay f)) comp) (q + l_nsub (f_lay f) * pixel_no f p) = value f (comp ++ [q] ++ p).
Proof.
  intros R O E. pose proof (sub_pt_shape axes f v R E) as [V _]. pose proof R as ((N & _) & _ & _ & _ & Np & _).
  split; [rewrite V; exact N|]. split; [rewrite V; cbn [v_cols]; now rewrite Np|].
  intros comp q p H. rewrite <- (entry_rank f comp q p H). destruct H as (H1 & H2 & H3). now apply (sub_pt_view axes).
Qed.
Print Assumptions C152_sub_pt.

(** The view by pixels: one column per pixel, which holds its sub-points one
    after the other. *)
Theorem C152_pixel {A} axes (f : field A) v : ready f -> l_order (f_lay f) = ColMajor -> eigen_pixel axes f = Ok v ->
  v_rows v = zprod (l_comp (f_lay f)) * l_nsub (f_lay f) /\ v_cols v = zprod (l_pix (f_lay f)) /\
  forall comp q p, entry_of f comp q p ->
    coeff v f (rank_of (l_comp (f_lay f)) comp + zprod (l_comp (f_lay f)) * q) (pixel_no f p) = value f (comp ++ [q] ++ p).
Proof.
  intros R O E. pose proof (pixel_shape axes f v R E) as [V _]. pose proof R as ((N & _) & _ & _ & _ & Np & _).
  split; [rewrite V; cbn [v_rows]; now rewrite N|]. split; [rewrite V; exact Np|].
  intros comp q p H. rewrite <- (entry_rank f comp q p H), <- N. destruct H as (H1 & H2 & H3). now apply (pixel_view axes).
Qed.
Print Assumptions C152_pixel.

(** All coefficients of the views belong to an entry of the field. *)
Theorem C152_nothing_else {A} axes (f : field A) v r c : ready f -> l_pix (f_lay f) <> [] ->
  Forall (fun x => 0 <= x) (l_pix (f_lay f)) -> zprod (l_pix (f_lay f)) < 2 ^ 31 ->
  sort_outcome (l_pix (f_lay f)) (l_pstr (f_lay f)) axes -> 0 <= r < v_rows v -> 0 <= c < v_cols v ->
  (eigen_sub_pt axes f = Ok v -> exists comp q p, entry_of f comp q p /\
     r = rank_of (l_comp (f_lay f)) comp /\ c = q + l_nsub (f_lay f) * pixel_no f p) /\
  (eigen_pixel axes f = Ok v -> exists comp q p, entry_of f comp q p /\
     r = rank_of (l_comp (f_lay f)) comp + zprod (l_comp (f_lay f)) * q /\ c = pixel_no f p).
Proof.
  intros R Ne P V S Hr Hc. pose proof R as ((N & _) & _ & _ & _ & Np & _). rewrite <- Np in V. split; intros E.
  - destruct (sub_pt_onto axes f v r c R Ne P V S E Hr Hc) as (comp & q & p & H1 & H2 & H3 & H4 & H5).
    assert (H : entry_of f comp q p) by exact (conj H1 (conj H2 H3)). exists comp, q, p. split; [exact H|]. now rewrite <- (entry_rank f comp q p H).
  - destruct (pixel_onto axes f v r c R Ne P V S E Hr Hc) as (comp & q & p & H1 & H2 & H3 & H4 & H5).
    assert (H : entry_of f comp q p) by exact (conj H1 (conj H2 H3)). exists comp, q, p. split; [exact H|]. now rewrite <- (entry_rank f comp q p H), <- N.
Qed.
Print Assumptions C152_nothing_else.

(** Writing a coefficient of a view changes that entry of the field and no other. *)
Theorem C152_write {A} axes (f : field A) v comp q p x : ready f -> l_order (f_lay f) = ColMajor -> entry_of f comp q p ->
  let written w := exists f', w = Ok f' /\ ready f' /\ f_lay f' = f_lay f /\ value f' (comp ++ [q] ++ p) = Ok x /\
    forall i, logical f i -> i <> comp ++ [q] ++ p -> value f' i = value f i in
  (eigen_sub_pt axes f = Ok v -> written (set_coeff v f (rank_of (l_comp (f_lay f)) comp) (q + l_nsub (f_lay f) * pixel_no f p) x)) /\
  (eigen_pixel axes f = Ok v -> written (set_coeff v f (rank_of (l_comp (f_lay f)) comp + zprod (l_comp (f_lay f)) * q) (pixel_no f p) x)).
Proof.
  intros R O H written. rewrite <- (entry_rank f comp q p H). destruct H as (H1 & H2 & H3). pose proof R as ((N & _) & _). rewrite <- N. split; intros E.
  - now apply (sub_pt_write axes).
  - now apply (pixel_write axes).
Qed.
Print Assumptions C152_write.

(** The views exist for pixels that fill their memory, in global collections ... *)
Theorem C152_exist {A} axes (f : field A) : ready f -> l_pix (f_lay f) <> [] ->
  Forall (fun x => 2 <= x) (l_pix (f_lay f)) -> zprod (l_pix (f_lay f)) < 2 ^ 31 ->
  sort_outcome (l_pix (f_lay f)) (l_pstr (f_lay f)) axes -> fills_exactly (l_pix (f_lay f)) (l_pstr (f_lay f)) ->
  (exists v, eigen_sub_pt axes f = Ok v) /\ (exists v, eigen_pixel axes f = Ok v).
Proof. intros R Ne P V S F. pose proof R as (_ & _ & _ & _ & Np & _). rewrite <- Np in V. now apply views_exist. Qed.
Print Assumptions C152_exist.
(** ... and in local ones. *)
Theorem C152_exist_local {A} axes (f : field A) n : ready f -> l_pix (f_lay f) = [n] -> l_pstr (f_lay f) = [1] ->
  sort_outcome (l_pix (f_lay f)) (l_pstr (f_lay f)) axes ->
  (exists v, eigen_sub_pt axes f = Ok v) /\ (exists v, eigen_pixel axes f = Ok v).
Proof. exact (local_views axes f n). Qed.
Print Assumptions C152_exist_local.

(** They are refused before the initialisation and for pixels with gaps. *)
Theorem C152_refused {A} axes (f : field A) :
  (f_init f = false -> l_nsub (f_lay f) <> 0 -> eigen_sub_pt axes f = Err FieldError /\ eigen_pixel axes f = Err FieldError) /\
  (ready f -> l_pix (f_lay f) <> [] -> Forall (fun x => 0 < x) (l_pix (f_lay f)) -> zprod (l_pix (f_lay f)) < 2 ^ 31 ->
   sort_outcome (l_pix (f_lay f)) (l_pstr (f_lay f)) axes -> ~ fills_exactly (l_pix (f_lay f)) (l_pstr (f_lay f)) ->
   eigen_sub_pt axes f = Err FieldError /\ eigen_pixel axes f = Err FieldError).
Proof.
  split; [exact (views_early axes f)|]. intros R Ne P V S F. pose proof R as (_ & _ & _ & _ & Np & _). rewrite <- Np in V. now apply views_gaps.
Qed.
Print Assumptions C152_refused.

(** Assigning a vector: the scalars in the order of the memory. *)
Theorem C152_assign {A} (f : field A) w : ready f -> unpadded f -> len w = zprod (get_shape (f_lay f) SubPt) ->
  exists f', assign_matrix f (len w) 1 w = Ok f' /\ ready f' /\ f_lay f' = f_lay f /\
    (forall c s, logical f c -> get_strides (f_lay f) SubPt 1 = Ok s -> value f' c = rd w (off s c)) /\
    (forall j, len w <= j -> rd (f_vals f') j = rd (f_vals f) j).
Proof. exact (assign_matrix_values f w). Qed.
Print Assumptions C152_assign.

(** Two components at two sub-points on two by two pixels. *)
Example C152_case : exists l v u f', global_layout_order ColMajor Automatic [2; 2] [] [2] 2 = Ok l /\
  let f := field_on 0 l true (zrange 16) in
  ready f /\ eigen_sub_pt [0; 1]%nat f = Ok v /\ eigen_pixel [0; 1]%nat f = Ok u /\
  v_rows v = 2 /\ v_cols v = 8 /\ v_rows u = 4 /\ v_cols u = 4 /\
  coeff v f 1 6 = Ok 13 /\ value f [1; 0; 1; 1] = Ok 13 /\ coeff u f 1 3 = Ok 13 /\
  set_coeff u f 1 3 100 = Ok f' /\ value f' [1; 0; 1; 1] = Ok 100.
Proof.
  do 4 eexists. split; [vm_compute; reflexivity|]. split.
  - apply (global_field_ready 0 ColMajor Automatic [2; 2] [] [2] 2 _ _ _ eq_refl); try (repeat constructor; fail); try (vm_compute; reflexivity); auto.
  - repeat (split; [vm_compute; reflexivity|]). vm_compute; reflexivity.
Qed.
Example C152_refused_case : exists l, global_layout ColMajor [2; 2] [1; 3] [] [2] 1 = Ok l /\
  eigen_sub_pt [0; 1]%nat (field_on 0 l true (zrange 10)) = Err FieldError.
Proof. eexists. split; [vm_compute; reflexivity|]. vm_compute. reflexivity. Qed.
Example C152_assign_case : exists l f', global_layout_order RowMajor Automatic [2] [] [2] 1 = Ok l /\
  assign_matrix (field_on 0 l true [0; 0; 0; 0]) 4 1 [10; 11; 12; 13] = Ok f' /\ value f' [1; 0; 0] = Ok 12.
Proof. do 2 eexists. split; [vm_compute; reflexivity|]. split; [vm_compute; reflexivity|]. vm_compute. reflexivity. Qed.

(** ** C153: row-major fields *)

(** Row-major fields are accepted as well, and their columns mix components and
    pixels. *)
Theorem C153_row_major_refuted : exists (f : field Z) v u,
  ready f /\ l_order (f_lay f) = RowMajor /\ eigen_sub_pt [0%nat] f = Ok v /\ eigen_pixel [0%nat] f = Ok u /\
  entry_of f [1] 0 [0] /\
  value f ([1] ++ [0] ++ [0]) = Ok 20 /\ coeff v f 1 0 = Ok 11 /\ coeff u f 1 0 = Ok 11.
Proof.
  set (r := layout_of_shape [2] 1 RowMajor [3] [1] 3 3).
  assert (E : global_layout_order RowMajor Automatic [3] [] [2] 1 = Ok r) by reflexivity.
  exists (field_on 0 r true [10; 11; 12; 20; 21; 22]). do 2 eexists.
  split; [apply (global_field_ready 0 _ _ _ _ _ _ _ _ _ E); try (repeat constructor; fail); try (vm_compute; reflexivity); auto|].
  split; [reflexivity|]. split; [vm_compute; reflexivity|]. split; [vm_compute; reflexivity|]. split.
  - split; [apply in_shape_b_ok; vm_compute; reflexivity|]. split; [vm_compute; split; [discriminate|reflexivity]|]. apply in_shape_b_ok. vm_compute. reflexivity.
  - repeat split; vm_compute; reflexivity.
Qed.
Print Assumptions C153_row_major_refuted.
