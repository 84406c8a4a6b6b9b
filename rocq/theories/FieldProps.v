(** Properties of fields with storage and of field maps (C11, C13, C14, C20,
    C24, C25 and the refuted extensions C50-C55). *)
From Verif Require Import Base CIntModel GridModel GridSpec StridedModel.
From Verif Require Import LayoutModel LayoutSpec LayoutProofs2 FieldModel FieldSpec FieldProofs FieldProofs2 FieldProofs3.

(** ** C13 *)

(** Assignment to a field of a global collection, any storage orders and
    paddings on both sides, any sort of the axes. *)
Theorem C13_assign_copies_logical_values {A} sort (f g : field A) s :
  ready f -> ready g -> f_glob f = true ->
  get_strides (f_lay f) SubPt 1 = Ok s -> sort_outcome (get_shape (f_lay f) SubPt) s sort ->
  get_shape (f_lay f) SubPt = get_shape (f_lay g) SubPt ->
  Forall (fun x => 0 < x) (l_pix (f_lay f)) -> zprod (get_shape (f_lay f) SubPt) < 2 ^ 31 ->
  exists f', assign_with sort f g = Ok f' /\ ready f' /\ f_lay f' = f_lay f /\
    (forall c, logical f c -> value f' c = value g c) /\
    (forall j, (forall c, logical f c -> off s c <> j) -> rd (f_vals f') j = rd (f_vals f) j).
Proof. exact (assign_global sort f g s). Qed.
Print Assumptions C13_assign_copies_logical_values.

(** A rank without pixels. *)
Theorem C13_assign_empty_rank {A} sort (f g : field A) : ready f -> ready g -> f_glob f = true ->
  get_shape (f_lay f) SubPt = get_shape (f_lay g) SubPt -> l_npix (f_lay f) = 0 ->
  exists f', assign_with sort f g = Ok f' /\ f_lay f' = f_lay f /\ f_vals f' = f_vals f.
Proof. exact (assign_global_empty sort f g). Qed.
Print Assumptions C13_assign_empty_rank.

(** A shape mismatch is rejected before anything is written. *)
Theorem C13_assign_mismatch_rejected {A} sort (f g : field A) : f_glob f = true ->
  get_shape (f_lay f) SubPt <> get_shape (f_lay g) SubPt -> assign_with sort f g = Err FieldError.
Proof. exact (assign_global_mismatch sort f g). Qed.
Print Assumptions C13_assign_mismatch_rejected.

(** Destination in a local collection, source with the same layout. *)
Theorem C13_assign_local {A} sort (f g : field A) : ready f -> ready g -> unpadded f -> f_glob f = false ->
  get_shape (f_lay f) SubPt = get_shape (f_lay g) SubPt ->
  get_strides (f_lay f) SubPt 1 = get_strides (f_lay g) SubPt 1 ->
  exists f', assign_with sort f g = Ok f' /\ ready f' /\ f_lay f' = f_lay f /\
    (forall c, logical f c -> value f' c = value g c) /\
    (forall j, buffer_scalars (f_lay f) <= j -> rd (f_vals f') j = rd (f_vals f) j).
Proof. exact (assign_local sort f g). Qed.
Print Assumptions C13_assign_local.

(** Two components on a 2x2 grid, from row-major to column-major storage. *)
Example C13_case : exists l r f', global_layout_order ColMajor Automatic [2; 2] [] [2] 1 = Ok l /\
  global_layout_order RowMajor Automatic [2; 2] [] [2] 1 = Ok r /\
  assign (field_on 0 l true (repeat 0 8)) (field_on 0 r true [10; 11; 12; 13; 20; 21; 22; 23]) = Ok f' /\
  f_vals f' = [10; 20; 12; 22; 11; 21; 13; 23].
Proof. do 3 eexists. split; [vm_compute; reflexivity|]. split; [vm_compute; reflexivity|]. split; vm_compute; reflexivity. Qed.

(** ** C50: assignment to fields of local collections *)

(** The values of the source are copied in buffer order: assigning a row-major
    field of a one-dimensional global collection with equal shape permutes
    the values. *)
Theorem C50_local_destination_refuted : exists (f g f' : field Z) (c : list Z),
  ready f /\ ready g /\ f_glob f = false /\ get_shape (f_lay f) SubPt = get_shape (f_lay g) SubPt /\
  logical f c /\ assign f g = Ok f' /\ value f' c <> value g c.
Proof.
  set (r := layout_of_shape [2] 1 RowMajor [3] [1] 3 3).
  assert (E : global_layout_order RowMajor Automatic [3] [] [2] 1 = Ok r) by reflexivity.
  set (g := field_on 0 r true [10; 11; 12; 20; 21; 22]). set (f := field_on 0 (local_layout 3 [2] 1) false (repeat 0 6)).
  exists f, g, (with_vals f [10; 11; 12; 20; 21; 22]), [0; 0; 1].
  split; [apply local_field_ready; try (repeat constructor; fail); vm_compute; reflexivity || discriminate|].
  split; [apply (global_field_ready 0 _ _ _ _ _ _ _ _ _ E); try (repeat constructor; fail); try (vm_compute; reflexivity); auto|].
  split; [reflexivity|]. split; [reflexivity|]. split; [|split; [vm_compute; reflexivity|vm_compute; discriminate]].
  apply in_shape_b_ok. vm_compute. reflexivity.
Qed.
Print Assumptions C50_local_destination_refuted.

(** A size mismatch is not rejected: undefined behaviour. *)
Theorem C50_local_mismatch_refuted : exists f g : field Z,
  f_glob f = false /\ get_shape (f_lay f) SubPt <> get_shape (f_lay g) SubPt /\ assign f g = UB.
Proof.
  exists (field_on 0 (local_layout 3 [2] 1) false (repeat 0 6)), (field_on 0 (local_layout 4 [2] 1) false (repeat 0 8)).
  split; [reflexivity|]. split; [discriminate|]. vm_compute. reflexivity.
Qed.
Print Assumptions C50_local_mismatch_refuted.

(** ** C14 *)

(** In-place addition (subtraction, assignment of the negative) acts on each
    logical value, given equal shapes and layouts and no padding. *)
Theorem C14_add_pointwise {A} (add : A -> A -> A) (f g : field A) : ready f -> ready g -> unpadded f ->
  get_shape (f_lay f) SubPt = get_shape (f_lay g) SubPt ->
  get_strides (f_lay f) SubPt 1 = get_strides (f_lay g) SubPt 1 ->
  exists f', add_assign add f g = Ok f' /\ ready f' /\ f_lay f' = f_lay f /\
    (forall c, logical f c -> exists a b, value f c = Ok a /\ value g c = Ok b /\ value f' c = Ok (add a b)) /\
    (forall j, buffer_scalars (f_lay f) <= j -> rd (f_vals f') j = rd (f_vals f) j).
Proof. exact (vec_update_pointwise add f g). Qed.
Print Assumptions C14_add_pointwise.

Theorem C14_sub_pointwise {A} (sub : A -> A -> A) (f g : field A) : ready f -> ready g -> unpadded f ->
  get_shape (f_lay f) SubPt = get_shape (f_lay g) SubPt ->
  get_strides (f_lay f) SubPt 1 = get_strides (f_lay g) SubPt 1 ->
  exists f', sub_assign sub f g = Ok f' /\ ready f' /\ f_lay f' = f_lay f /\
    (forall c, logical f c -> exists a b, value f c = Ok a /\ value g c = Ok b /\ value f' c = Ok (sub a b)) /\
    (forall j, buffer_scalars (f_lay f) <= j -> rd (f_vals f') j = rd (f_vals f) j).
Proof. exact (vec_update_pointwise sub f g). Qed.
Print Assumptions C14_sub_pointwise.

Theorem C14_neg_pointwise {A} (opp : A -> A) (f g : field A) : ready f -> ready g -> unpadded f ->
  get_shape (f_lay f) SubPt = get_shape (f_lay g) SubPt ->
  get_strides (f_lay f) SubPt 1 = get_strides (f_lay g) SubPt 1 ->
  exists f', assign_neg opp f g = Ok f' /\ ready f' /\ f_lay f' = f_lay f /\
    (forall c, logical f c -> exists b, value g c = Ok b /\ value f' c = Ok (opp b)) /\
    (forall j, buffer_scalars (f_lay f) <= j -> rd (f_vals f') j = rd (f_vals f) j).
Proof. exact (neg_pointwise opp f g). Qed.
Print Assumptions C14_neg_pointwise.

Example C14_case : exists l f', global_layout_order RowMajor Automatic [2; 2] [] [2] 1 = Ok l /\
  sub_assign Z.sub (field_on 0 l true [10; 11; 12; 13; 20; 21; 22; 23]) (field_on 0 l true [1; 2; 3; 4; 5; 6; 7; 8]) = Ok f' /\
  f_vals f' = [9; 9; 9; 9; 15; 15; 15; 15] /\ value f' [1; 0; 0; 1] = Ok 15.
Proof. do 2 eexists. split; [vm_compute; reflexivity|]. split; vm_compute; repeat split. Qed.

(** ** C51: fields of different storage order, padded collections *)

(** Equal shapes, different storage orders: values of different entries are
    added. *)
Theorem C51_storage_orders_refuted : exists (f g f' : field Z) (c : list Z) (a b v : Z),
  ready f /\ ready g /\ unpadded f /\ get_shape (f_lay f) SubPt = get_shape (f_lay g) SubPt /\ logical f c /\
  add_assign Z.add f g = Ok f' /\ value f c = Ok a /\ value g c = Ok b /\ value f' c = Ok v /\ v <> a + b.
Proof.
  set (l := layout_of_shape [2] 1 ColMajor [2] [1] 2 2). set (r := layout_of_shape [2] 1 RowMajor [2] [1] 2 2).
  assert (El : global_layout_order ColMajor Automatic [2] [] [2] 1 = Ok l) by reflexivity.
  assert (Er : global_layout_order RowMajor Automatic [2] [] [2] 1 = Ok r) by reflexivity.
  set (f := field_on 0 l true [0; 0; 0; 0]). set (g := field_on 0 r true [1; 2; 3; 4]).
  exists f, g, (with_vals f [1; 2; 3; 4]), [1; 0; 0], 0, 3, 2.
  split; [apply (global_field_ready 0 _ _ _ _ _ _ _ _ _ El); try (repeat constructor; fail); try (vm_compute; reflexivity); auto|].
  split; [apply (global_field_ready 0 _ _ _ _ _ _ _ _ _ Er); try (repeat constructor; fail); try (vm_compute; reflexivity); auto|].
  split; [reflexivity|]. split; [reflexivity|]. split; [apply in_shape_b_ok; vm_compute; reflexivity|].
  vm_compute. repeat split. discriminate.
Qed.
Print Assumptions C51_storage_orders_refuted.

(** Same layout, but pixel strides with padding: only the first
    nb_pixels*nb_sub_pts*nb_components scalars are touched, the last row of
    pixels lies beyond. *)
Theorem C51_padded_refuted : exists (f g f' : field Z) (c : list Z) (a b v : Z),
  ready f /\ ready g /\ get_shape (f_lay f) SubPt = get_shape (f_lay g) SubPt /\
  get_strides (f_lay f) SubPt 1 = get_strides (f_lay g) SubPt 1 /\ logical f c /\
  add_assign Z.add f g = Ok f' /\ value f c = Ok a /\ value g c = Ok b /\ value f' c = Ok v /\ v <> a + b.
Proof.
  assert (E : exists l, global_layout ColMajor [2; 2] [1; 3] [] [] 1 = Ok l /\ sane l /\ l_npix l = zprod (l_pix l) /\ 0 <= l_npix l <= l_nbuf l /\
     exists f, f = field_on 0 l true (repeat 5 (Z.to_nat (buffer_scalars l))) /\ exists f', add_assign Z.add f f = Ok f' /\ value f [0; 1; 1] = Ok 5 /\ value f' [0; 1; 1] = Ok 5 /\ logical f [0; 1; 1]).
  { eexists. split; [vm_compute; reflexivity|]. split.
    - apply (global_nested_sane ColMajor [2; 2] [1; 3] [0%nat; 1%nat] [] [] 1); try (repeat constructor; fail); try (vm_compute; reflexivity); auto; [|discriminate].
      split; [reflexivity|]. split; [apply Permutation.Permutation_refl|]. split.
      + intros j k H. cbn in H. assert (j = 0%nat /\ k = 1%nat) as [-> ->] by lia. vm_compute. reflexivity.
      + intros k H. cbn in H. destruct k as [|[|k]]; [vm_compute; reflexivity|vm_compute; reflexivity|lia].
    - split; [reflexivity|]. split; [vm_compute; split; discriminate|]. eexists; split; [reflexivity|]. eexists; split; [vm_compute; reflexivity|].
      split; [vm_compute; reflexivity|]. split; [vm_compute; reflexivity|]. apply in_shape_b_ok. vm_compute. reflexivity. }
  destruct E as (l & El & S & Np & Hn & f & Ef & f' & Ea & V1 & V2 & Lg).
  assert (R : ready f) by (subst f; apply field_on_ready; [exact S|exact Np|exact Hn|unfold len; rewrite repeat_length; vm_compute in El; injection El as <-; reflexivity]).
  exists f, f, f', [0; 1; 1], 5, 5, 5. repeat (split; [assumption || reflexivity|]). lia.
Qed.
Print Assumptions C51_padded_refuted.

(** ** C24 *)

(** The entries of a map, in order, are the consecutive blocks of the buffer:
    together they cover each stored scalar (without the pad) exactly once. *)
Theorem C24_map_partitions {A} (f : field A) u rows m : ready f -> unpadded f -> new_map f u rows = Ok m ->
  exists es, map_iterate m f = Ok es /\ Z.of_nat (length es) = entries_of f u /\ map_size m f = entries_of f u /\
    Forall (fun e => Z.of_nat (length e) = m_rows m * m_cols m) es /\
    concat es = firstn (Z.to_nat (buffer_scalars (f_lay f))) (f_vals f).
Proof. exact (map_partition f u rows m). Qed.
Print Assumptions C24_map_partitions.

(** The vector over all scalars of a field holds the entries one after the
    other, without what [set_pad_size] added. *)
Theorem C24_eigen_vec {A} (f : field A) u rows m : ready f -> unpadded f -> new_map f u rows = Ok m ->
  exists v es, eigen_vec f = Ok v /\ map_iterate m f = Ok es /\ v = concat es /\
    f_vals f = v ++ skipn (length v) (f_vals f) /\ len (f_vals f) = nb_buffer_entries f * l_nbc (f_lay f) + f_pad f.
Proof.
  intros R U N. destruct (map_partition f u rows m R U N) as (es & I & _ & _ & _ & C). pose proof R as (Sn & Fi & Pt & Pd & NP & B & Cu & L).
  pose proof (eigen_vec_size_ready f R) as Z0. assert (HN : has_nsub f = true). { unfold has_nsub. destruct Sn as (_ & _ & P & _). apply negb_true_iff, Z.eqb_neq. unfold unknown. lia. }
  assert (SZ : eigen_vec_size f = Ok (buffer_scalars (f_lay f))).
  { unfold eigen_vec_size, nb_entries. rewrite HN, Fi. cbn [negb]. destruct Sn as (_ & _ & P & _). unfold unpadded in U. unfold buffer_scalars. rewrite U.
    replace (l_nsub (f_lay f) * l_npix (f_lay f) =? unknown) with false by (symmetry; apply Z.eqb_neq; unfold unknown; nia). reflexivity. }
  assert (BS : 0 <= buffer_scalars (f_lay f)) by (unfold buffer_scalars; destruct Sn as (C1 & C2 & P & _); rewrite C1; pose proof (zprod_pos _ C2); apply Z.mul_nonneg_nonneg; [apply Z.mul_nonneg_nonneg; lia|lia]).
  exists (concat es), es. split; [|split; [exact I|]; split; [reflexivity|]; split].
  - unfold eigen_vec. rewrite SZ. cbn [bind]. unfold span. rewrite C. destruct (Z.leb_spec (buffer_scalars (f_lay f)) 0) as [H|H].
    + replace (buffer_scalars (f_lay f)) with 0 by lia. reflexivity.
    + rewrite Pt, Z.eqb_refl. cbn [andb Z.leb Z.compare]. replace (0 + buffer_scalars (f_lay f) <=? len (f_vals f)) with true by (symmetry; apply Z.leb_le; lia). reflexivity.
  - rewrite C. rewrite firstn_length_le by (unfold len in L; lia). symmetry. apply firstn_skipn.
  - unfold nb_buffer_entries. rewrite HN, L. reflexivity.
Qed.
Print Assumptions C24_eigen_vec.

(** Which logical values an entry holds, in per-sub-point and per-pixel maps. *)
Theorem C24_sub_pt_entry {A} (f : field A) rows m c q p : ready f -> unpadded f -> new_map f SubPt rows = Ok m ->
  in_shape (l_comp (f_lay f)) c -> 0 <= q < l_nsub (f_lay f) -> in_shape (l_pix (f_lay f)) p ->
  let i := q + l_nsub (f_lay f) * off (l_pstr (f_lay f)) p in
  0 <= i < map_size m f /\
  exists e, map_entry m f i = Ok e /\ rd e (off (running 1 (l_comp (f_lay f))) c) = value f (c ++ [q] ++ p).
Proof. exact (sub_pt_entry_value f rows m c q p). Qed.
Print Assumptions C24_sub_pt_entry.

Theorem C24_pixel_entry {A} (f : field A) rows m c q p : ready f -> unpadded f -> new_map f Pixel rows = Ok m ->
  in_shape (l_comp (f_lay f)) c -> 0 <= q < l_nsub (f_lay f) -> in_shape (l_pix (f_lay f)) p ->
  let i := off (l_pstr (f_lay f)) p in
  0 <= i < map_size m f /\
  exists e, map_entry m f i = Ok e /\
    rd e (off (running 1 (l_comp (f_lay f))) c + l_nbc (f_lay f) * q) = value f (c ++ [q] ++ p).
Proof. exact (pixel_entry_value f rows m c q p). Qed.
Print Assumptions C24_pixel_entry.

(** A row count is accepted exactly when it divides the scalars per entry. *)
Theorem C24_row_count {A} (f : field A) u r : l_order (f_lay f) = ColMajor -> (u = Pixel -> has_nsub f = true) -> r <> 0 ->
  ((r | scalars_per_entry f u) ->
     exists m, new_map f u (Some r) = Ok m /\ m_rows m = r /\ r * m_cols m = scalars_per_entry f u) /\
  (~ (r | scalars_per_entry f u) -> new_map f u (Some r) = Err FieldMapError).
Proof. exact (new_map_rows_iff f u r). Qed.
Print Assumptions C24_row_count.

Theorem C24_default_rows {A} (f : field A) u : l_order (f_lay f) = ColMajor -> (u = Pixel -> has_nsub f = true) ->
  exists m, new_map f u None = Ok m /\ m_rows m = l_nbc (f_lay f) /\
            m_cols m = match u with Pixel => l_nsub (f_lay f) | SubPt => 1 end.
Proof. exact (new_map_default f u). Qed.
Print Assumptions C24_default_rows.

(** Maps of row-major fields are refused. *)
Theorem C24_row_major_rejected {A} (f : field A) u rows : l_order (f_lay f) = RowMajor -> (u = Pixel -> has_nsub f = true) ->
  rows <> Some 0 -> new_map f u rows = Err RuntimeError.
Proof. exact (new_map_row_major f u rows). Qed.
Print Assumptions C24_row_major_rejected.

(** Created early and initialised by the collection, or created late: same map. *)
Theorem C24_early_map {A} (f0 f : field A) u rows m0 : f_init f0 = false -> f_init f = true ->
  l_nbc (f_lay f) = l_nbc (f_lay f0) -> l_order (f_lay f) = l_order (f_lay f0) ->
  (u = Pixel -> l_nsub (f_lay f) = l_nsub (f_lay f0)) -> new_map f0 u rows = Ok m0 ->
  m_init m0 = false /\ map_iterate m0 f = Err FieldMapError /\
  exists m, initialise_map m0 f = Ok m /\ new_map f u rows = Ok m.
Proof. exact (early_map f0 f u rows m0). Qed.
Print Assumptions C24_early_map.

(** Writing one matrix to (combining it with) every entry. *)
Theorem C24_map_update {A} (op : A -> A -> A) (f : field A) u rows m r c val : ready f -> unpadded f -> new_map f u rows = Ok m ->
  r = m_rows m -> c = m_cols m -> Z.of_nat (length val) = r * c ->
  exists f' es, map_update op m r c val f = Ok f' /\ ready f' /\ f_lay f' = f_lay f /\
    map_iterate m f = Ok es /\ map_iterate m f' = Ok (map (fun e => zip_with op e val) es) /\
    (forall j, buffer_scalars (f_lay f) <= j -> rd (f_vals f') j = rd (f_vals f) j).
Proof. exact (map_update_spec op f u rows m r c val). Qed.
Print Assumptions C24_map_update.

Theorem C24_map_update_mismatch {A} (op : A -> A -> A) (f : field A) m r c val :
  r <> m_rows m \/ c <> m_cols m -> map_update op m r c val f = Err FieldMapError.
Proof. exact (map_update_mismatch op f m r c val). Qed.
Print Assumptions C24_map_update_mismatch.

Example C24_case : exists l m p f', global_layout_order ColMajor Automatic [2] [] [2] 2 = Ok l /\
  new_map (field_on 0 l true [1; 2; 3; 4; 5; 6; 7; 8]) SubPt None = Ok m /\
  map_iterate m (field_on 0 l true [1; 2; 3; 4; 5; 6; 7; 8]) = Ok [[1; 2]; [3; 4]; [5; 6]; [7; 8]] /\
  new_map (field_on 0 l true [1; 2; 3; 4; 5; 6; 7; 8]) Pixel (Some 1) = Ok p /\
  map_iterate p (field_on 0 l true [1; 2; 3; 4; 5; 6; 7; 8]) = Ok [[1; 2; 3; 4]; [5; 6; 7; 8]] /\
  map_update Z.add m 2 1 [10; 20] (field_on 0 l true [1; 2; 3; 4; 5; 6; 7; 8]) = Ok f' /\
  f_vals f' = [11; 22; 13; 24; 15; 26; 17; 28].
Proof. do 4 eexists. split; [vm_compute; reflexivity|]. split; [vm_compute; reflexivity|]. split; [vm_compute; reflexivity|].
  split; [vm_compute; reflexivity|]. split; [vm_compute; reflexivity|]. split; vm_compute; reflexivity. Qed.

Example C24_eigen_vec_case : exists l f, global_layout_order ColMajor Automatic [2] [] [2] 2 = Ok l /\
  f = fst (set_pad_size 0 (field_on 0 l true [1; 2; 3; 4; 5; 6; 7; 8]) 3) /\ eigen_vec f = Ok [1; 2; 3; 4; 5; 6; 7; 8] /\ len (f_vals f) = 11.
Proof. do 2 eexists. split; [vm_compute; reflexivity|]. split; [reflexivity|]. split; vm_compute; reflexivity. Qed.

(** ** C52: maps of padded collections *)

(** A per-pixel map of a collection with padded pixel strides visits the
    first nb_pixels blocks of the buffer, not the pixels: here the last entry
    is the padding block of a 2x2 grid and pixel (1,1) is not visited. *)
Theorem C52_padded_map_refuted : exists (f : field Z) m es, ready f /\ new_map f Pixel None = Ok m /\
  map_iterate m f = Ok es /\ l_pix (f_lay f) = [2; 2] /\ value f [0; 1; 1] = Ok 4 /\ ~ In [4] es /\ In [99] es.
Proof.
  destruct (global_layout ColMajor [2; 2] [1; 3] [] [] 1) as [l| |] eqn:El; [|vm_compute in El; discriminate|vm_compute in El; discriminate].
  assert (S : sane l).
  { apply (global_nested_sane ColMajor [2; 2] [1; 3] [0%nat; 1%nat] [] [] 1 l El); try (repeat constructor; fail); try (vm_compute; reflexivity); auto; [|discriminate].
    split; [reflexivity|]. split; [apply Permutation.Permutation_refl|]. split.
    - intros j k H. cbn in H. assert (j = 0%nat /\ k = 1%nat) as [-> ->] by lia. vm_compute. reflexivity.
    - intros k H. cbn in H. destruct k as [|[|k]]; [vm_compute; reflexivity|vm_compute; reflexivity|lia]. }
  vm_compute in El. injection El as El. 
  exists (field_on 0 l true [1; 2; 99; 3; 4; 99]).
  assert (R : ready (field_on 0 l true [1; 2; 99; 3; 4; 99])).
  { apply field_on_ready; [exact S|subst l; reflexivity|subst l; cbn; lia|subst l; reflexivity]. }
  clear S. subst l. do 2 eexists. split; [exact R|]. split; [vm_compute; reflexivity|]. split; [vm_compute; reflexivity|]. split; [reflexivity|].
  split; [vm_compute; reflexivity|]. split; [|cbn; auto]. cbn. intros H. intuition discriminate.
Qed.
Print Assumptions C52_padded_map_refuted.

(** ** C53: row counts *)

(** Negative row counts are accepted, a zero count is undefined behaviour. *)
Theorem C53_negative_rows_refuted : exists (f : field Z) m, ready f /\ new_map f SubPt (Some (-2)) = Ok m /\
  m_rows m = -2 /\ m_cols m = -2.
Proof.
  assert (E : global_layout_order ColMajor Automatic [2] [] [4] 1 = Ok (layout_of_shape [4] 1 ColMajor [2] [1] 2 2)) by reflexivity.
  exists (field_on 0 (layout_of_shape [4] 1 ColMajor [2] [1] 2 2) true (repeat 0 8)). eexists.
  split; [apply (global_field_ready 0 _ _ _ _ _ _ _ _ _ E); try (repeat constructor; fail); try (vm_compute; reflexivity); auto|].
  split; [vm_compute; reflexivity|]. split; reflexivity.
Qed.
Print Assumptions C53_negative_rows_refuted.

Theorem C53_zero_rows_refuted {A} (f : field A) : new_map f SubPt (Some 0) = UB.
Proof. reflexivity. Qed.
Print Assumptions C53_zero_rows_refuted.

(** ** C54: maps across changes of their field *)

(** A reshape within the same sub-division keeps the field usable by maps. *)
Theorem C54_reshape_keeps_field_partial {A} (f : field A) shape f' :
  ready f -> Forall (fun x => 0 < x) shape -> zprod shape < 2 ^ 31 ->
  field_reshape f shape None = Ok f' -> ready f' /\ f_vals f' = f_vals f /\ (unpadded f -> unpadded f').
Proof. exact (reshape_ready f shape f'). Qed.
Print Assumptions C54_reshape_keeps_field_partial.

(** A reshape that changes the number of sub-points: every sub-point map
    created afterwards iterates over the former number of sub-points, reading
    beyond the buffer whenever there are now fewer. *)
Theorem C54_reshape_sub_division_refuted {A} (f : field A) shape k f' rows m :
  ready f -> unpadded f -> f_pad f = 0 -> 0 < l_npix (f_lay f) ->
  Forall (fun x => 0 < x) shape -> zprod shape < 2 ^ 31 -> 0 < k -> k <> l_nsub (f_lay f) ->
  field_reshape f shape (Some k) = Ok f' -> new_map f' SubPt rows = Ok m ->
  nb_entries f' = k * l_npix (f_lay f) /\ map_size m f' = l_nsub (f_lay f) * l_npix (f_lay f) /\
  map_size m f' <> nb_entries f' /\ (k < l_nsub (f_lay f) -> map_iterate m f' = UB).
Proof. exact (reshape_stale f shape k f' rows m). Qed.
Print Assumptions C54_reshape_sub_division_refuted.

Example C54_case : exists l f' m, global_layout_order ColMajor Automatic [3] [] [2] 2 = Ok l /\
  field_reshape (field_on 0 l true (repeat 7 12)) [4] (Some 1) = Ok f' /\ new_map f' SubPt None = Ok m /\ map_iterate m f' = UB.
Proof. do 3 eexists. split; [vm_compute; reflexivity|]. split; [vm_compute; reflexivity|]. split; vm_compute; reflexivity. Qed.

(** Changing the pad size keeps the logical values; maps made before dangle
    when the storage has to grow. *)
Theorem C54_pad_keeps_values_partial {A} (zero : A) (f : field A) p : ready f -> 0 <= p ->
  exists f', set_pad_size zero f p = (f', Ok tt) /\ ready f' /\ f_lay f' = f_lay f /\ f_pad f' = p /\
  (forall c, logical f c -> value f' c = value f c).
Proof. exact (set_pad_ready zero f p). Qed.
Print Assumptions C54_pad_keeps_values_partial.

Theorem C54_map_after_pad_refuted {A} (zero : A) (f : field A) u rows m p f' i :
  ready f -> unpadded f -> new_map f u rows = Ok m -> 0 < l_npix (f_lay f) ->
  f_cap f < buffer_scalars (f_lay f) + p -> 0 <= p -> p <> f_pad f -> set_pad_size zero f p = (f', Ok tt) -> map_entry m f' i = UB.
Proof. exact (stale_after_pad zero f u rows m p f' i). Qed.
Print Assumptions C54_map_after_pad_refuted.

Example C54_pad_case : exists l m f', global_layout_order ColMajor Automatic [3] [] [2] 2 = Ok l /\
  new_map (field_on 0 l true (repeat 7 12)) SubPt None = Ok m /\
  set_pad_size 0 (field_on 0 l true (repeat 7 12)) 1 = (f', Ok tt) /\ map_iterate m f' = UB /\ value f' [1; 1; 2] = Ok 7.
Proof. do 3 eexists. split; [vm_compute; reflexivity|]. split; [vm_compute; reflexivity|]. split; [vm_compute; reflexivity|]. split; vm_compute; reflexivity. Qed.

(** ** C25 *)

(** Entry [k] of the sum is the sum of scalar [k] of all blocks, in order. *)
Theorem C25_map_sum {A} (zero : A) (add : A -> A -> A) (f : field A) u rows m : ready f -> unpadded f -> new_map f u rows = Ok m ->
  exists s, map_sum zero add m f = Ok s /\ Z.of_nat (length s) = m_rows m * m_cols m /\
  forall k, 0 <= k < m_rows m * m_cols m ->
    nth (Z.to_nat k) s zero =
    fold_left add (map (fun i => nth (Z.to_nat (Z.of_nat i * m_stride m + k)) (f_vals f) zero) (seq 0 (Z.to_nat (entries_of f u)))) zero.
Proof. exact (map_sum_spec zero add f u rows m). Qed.
Print Assumptions C25_map_sum.

Theorem C25_map_mean {A} (zero : A) (add : A -> A -> A) div (f : field A) u rows m : ready f -> unpadded f -> new_map f u rows = Ok m ->
  exists s, map_sum zero add m f = Ok s /\
    map_mean zero add div m f =
    Ok (if entries_of f u =? 0 then repeat zero (Z.to_nat (m_rows m * m_cols m)) else map (fun x => div x (entries_of f u)) s).
Proof. exact (map_mean_spec zero add div f u rows m). Qed.
Print Assumptions C25_map_mean.

Example C25_case : exists l m, global_layout_order ColMajor Automatic [2] [] [2] 2 = Ok l /\
  new_map (field_on 0 l true [1; 2; 3; 4; 5; 6; 7; 12]) SubPt None = Ok m /\
  map_sum 0 Z.add m (field_on 0 l true [1; 2; 3; 4; 5; 6; 7; 12]) = Ok [16; 24] /\
  map_mean 0 Z.add Z.div m (field_on 0 l true [1; 2; 3; 4; 5; 6; 7; 12]) = Ok [4; 6].
Proof. do 2 eexists. split; [vm_compute; reflexivity|]. split; [vm_compute; reflexivity|]. split; vm_compute; reflexivity. Qed.

(** A local collection without pixels has zero sum and mean. *)
Example C25_empty_case : exists m, new_map (field_on 0 (local_layout 0 [2] 2) false []) SubPt None = Ok m /\
  map_sum 0 Z.add m (field_on 0 (local_layout 0 [2] 2) false []) = Ok [0; 0] /\
  map_mean 0 Z.add Z.div m (field_on 0 (local_layout 0 [2] 2) false []) = Ok [0; 0].
Proof. eexists. split; [vm_compute; reflexivity|]. split; vm_compute; reflexivity. Qed.

(** ** C20, field part: pushed values end up at their pixel and sub-point *)
Theorem C20_push_back_fill {A} (zero : A) comp nsub npix0 (vs : list (list A)) :
  Forall (fun x => 0 < x) comp -> zprod comp < 2 ^ 31 -> 0 < nsub -> Forall (fun v => len v = zprod comp) vs ->
  exists f f', pushes (new_field (local_layout npix0 comp nsub) false false) vs = Ok f /\
    resize zero (initialised_local f (Z.of_nat (length vs))) = (f', Ok tt) /\ ready f' /\
    forall c q i, in_shape comp c -> 0 <= q < nsub -> (i < length vs)%nat ->
      value f' (c ++ [q] ++ [Z.of_nat i]) = rd (nth i vs []) (off (running 1 comp) c).
Proof. exact (push_fill zero comp nsub npix0 vs). Qed.
Print Assumptions C20_push_back_fill.

Theorem C20_push_back_single_fill {A} (zero : A) comp nsub npix0 n (vs : list (list A)) :
  Forall (fun x => 0 < x) comp -> zprod comp < 2 ^ 31 -> 0 < nsub -> 0 <= n -> Forall (fun v => len v = zprod comp) vs ->
  Z.of_nat (length vs) = nsub * n ->
  exists f f', pushes_single (new_field (local_layout npix0 comp nsub) false false) vs = Ok f /\
    resize zero (initialised_local f n) = (f', Ok tt) /\ ready f' /\
    forall c q i, in_shape comp c -> 0 <= q < nsub -> 0 <= i < n ->
      value f' (c ++ [q] ++ [i]) = rd (nth (Z.to_nat (q + nsub * i)) vs []) (off (running 1 comp) c).
Proof. exact (push_single_fill zero comp nsub npix0 n vs). Qed.
Print Assumptions C20_push_back_single_fill.

(** Pushes to global fields, before the number of sub-points is known, or of
    the wrong size are rejected. *)
Theorem C20_push_rejected {A} (f : field A) v : f_glob f = true \/ l_nsub (f_lay f) = unknown \/ len v <> l_nbc (f_lay f) ->
  push_back f v = Err FieldError /\ push_back_single f v = Err FieldError.
Proof. exact (push_rejected f v). Qed.
Print Assumptions C20_push_rejected.

Example C20_push_case : exists f f', pushes (new_field (local_layout (-1) [2] 2) false false) [[1; 2]; [3; 4]; [5; 6]] = Ok f /\
  resize 0 (initialised_local f 3) = (f', Ok tt) /\ f_vals f' = [1; 2; 1; 2; 3; 4; 3; 4; 5; 6; 5; 6] /\ value f' [1; 0; 2] = Ok 6.
Proof. do 2 eexists. split; [vm_compute; reflexivity|]. split; [vm_compute; reflexivity|]. split; vm_compute; reflexivity. Qed.

(** ** C55: pushing a block of a larger array *)

(** Coefficient (i,j) of the referenced expression. *)
Definition coefficient {A} (r : eref) (d : A) (i j : Z) : A := nth (Z.to_nat (i + r_outer r * j)) (r_mem r) d.

(** Contiguous expressions are pushed coefficient by coefficient in
    column-major order. *)
Theorem C55_contiguous_partial {A} (f : field A) r d : r_outer r = r_rows r -> 0 < r_rows r -> 0 <= r_cols r ->
  r_rows r * r_cols r <= len (r_mem r) ->
  push_back_ref f r =
  push_back f (map (fun k => coefficient r d (Z.modulo (Z.of_nat k) (r_rows r)) (Z.div (Z.of_nat k) (r_rows r)))
                   (seq 0 (Z.to_nat (r_rows r * r_cols r)))).
Proof.
  intros O Hr Hc Hl. unfold push_back_ref. f_equal. unfold ref_data, len in *. remember (Z.to_nat (r_rows r * r_cols r)) as n.
  assert (N : (n <= length (r_mem r))%nat) by lia. apply (nth_ext _ _ d d); [rewrite firstn_length_le, map_length, seq_length; lia|].
  intros k Hk. rewrite firstn_length_le in Hk by lia. rewrite nth_firstn' by lia. symmetry.
  rewrite (nth_indep _ d (coefficient r d (Z.modulo (Z.of_nat 0) (r_rows r)) (Z.div (Z.of_nat 0) (r_rows r)))) by (rewrite map_length, seq_length; lia).
  rewrite (map_nth (fun k => coefficient r d (Z.modulo (Z.of_nat k) (r_rows r)) (Z.div (Z.of_nat k) (r_rows r)))), seq_nth by lia.
  unfold coefficient. rewrite O. f_equal. pose proof (Z.div_mod (Z.of_nat k) (r_rows r) ltac:(lia)). lia.
Qed.
Print Assumptions C55_contiguous_partial.

(** A 2x2 block of a 3x2 array: the third scalar stored is not a coefficient
    of the block. *)
Theorem C55_block_refuted : exists (f f' : field Z) r, f_lay f = local_layout (-1) [4] 1 /\ r_rows r = 2 /\ r_cols r = 2 /\
  push_back_ref f r = Ok f' /\ (forall i j, 0 <= i < 2 -> 0 <= j < 2 -> coefficient r 0 i j <> 3) /\ In 3 (f_vals f').
Proof.
  exists (new_field (local_layout (-1) [4] 1) false false). eexists. exists (mk_eref [1; 2; 3; 4; 5; 6] 2 2 3).
  split; [reflexivity|]. split; [reflexivity|]. split; [reflexivity|]. split; [vm_compute; reflexivity|]. split; [|cbn; auto].
  intros i j Hi Hj. assert (i = 0 \/ i = 1) as [-> | ->] by lia; assert (j = 0 \/ j = 1) as [-> | ->] by lia; vm_compute; discriminate.
Qed.
Print Assumptions C55_block_refuted.
