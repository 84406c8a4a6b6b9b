(** * Iteration with 64-bit integers (C158) *)
From Coq Require Import String.
From Verif Require Import Base CIntModel GridModel GridSpec StridedModel LayoutModel LayoutSpec FieldModel FieldSpec FieldProofs FieldProofs2 FieldProofs3 RegistryModel RegistrySpec MachModel MachIterModel.
Local Open Scope Z_scope.
Local Open Scope list_scope.

Lemma us_small z : 0 <= z < 2 ^ 64 -> us z = z.
Proof. intros H. unfold us. now apply Z.mod_small. Qed.
Lemma to_index_small z : 0 <= z < 2 ^ 63 -> to_index z = z.
Proof. intros H. unfold to_index. rewrite Z.mod_small; lia. Qed.
Lemma map_loop_exact stride size : 0 <= stride -> (forall i, 0 <= i < size -> i * stride < 2 ^ 64) -> stride < 2 ^ 64 -> size < 2 ^ 64 -> forall k fuel i, (k <= fuel)%nat -> 0 <= i -> i + Z.of_nat k = size ->
  m_map_loop fuel i size stride = Some (map (fun j => (i + Z.of_nat j) * stride) (seq 0 k)).
Proof.
  intros S B Bs Bz. induction k as [|k IH]; intros fuel i F P E.
  - assert (i = size) by lia. subst i. destruct fuel; cbn [m_map_loop]; rewrite Z.eqb_refl; reflexivity.
  - destruct fuel as [|fuel]; [lia|]. cbn [m_map_loop]. destruct (Z.eqb_spec i size); [lia|]. rewrite (us_small (i + 1)) by lia. rewrite (IH fuel (i + 1)) by lia.
    cbn [option_map seq map]. rewrite <- seq_shift, map_map. pose proof (B i ltac:(lia)). assert (0 <= i * stride) by (apply Z.mul_nonneg_nonneg; lia).
    rewrite (us_small stride) by lia. rewrite (us_small (i * stride)) by lia. f_equal. f_equal; [now rewrite Z.add_0_r|]. apply map_ext. intros j. f_equal. lia.
Qed.

(** C158: a map over a field whose buffer has fewer than 2^63 scalars has the stride of
    unbounded integers, and its loop visits the positions of the entries, each once. *)
Theorem C158_map {A} (f : field A) u rows m fuel : ready f -> unpadded f -> new_map f u rows = Ok m -> len (f_vals f) < 2 ^ 63 -> (Z.to_nat (map_size m f) <= fuel)%nat ->
  (0 < l_npix (f_lay f) -> m_get_stride (f_lay f) true u = Ok (m_stride m)) /\
  m_map_positions fuel m f = Some (map (fun j => Z.of_nat j * m_stride m) (seq 0 (Z.to_nat (entries_of f u)))).
Proof.
  intros R U H B F. rewrite (map_size_ready f u rows m R U H) in F. destruct (m_stride_per _ _ _ _ H) as [E _]. pose proof (per_pos f u R) as P. pose proof (count_per f u R U) as C. pose proof (count_nonneg f u R) as N.
  assert (L : len (f_vals f) = buffer_scalars (f_lay f) + f_pad f) by apply R. assert (0 <= f_pad f) by apply R. split.
  - intros Np. rewrite E. assert (X : 1 <= entries_of f u). { pose proof R as ((_ & _ & Hs & _) & _). unfold entries_of. destruct u; [lia|]. assert (0 < l_nsub (f_lay f) * l_npix (f_lay f)) by now apply Z.mul_pos_pos. lia. }
    assert (scalars_per_entry f u < 2 ^ 63) by (assert (1 * scalars_per_entry f u <= entries_of f u * scalars_per_entry f u) by (apply Z.mul_le_mono_nonneg_r; lia); lia).
    unfold m_get_stride, scalars_per_entry in *. destruct u; [|reflexivity]. unfold ix, fits64.
    destruct (Z.leb_spec (- 2 ^ 63) (l_nbc (f_lay f) * l_nsub (f_lay f))); [|lia]. destruct (Z.ltb_spec (l_nbc (f_lay f) * l_nsub (f_lay f)) (2 ^ 63)); [reflexivity|lia].
  - unfold m_map_positions. rewrite (map_size_ready f u rows m R U H), E. destruct (Z.eq_dec (entries_of f u) 0) as [Z0|Z0].
    { rewrite Z0. destruct fuel; reflexivity. }
    assert (Q : entries_of f u * 1 <= entries_of f u * scalars_per_entry f u) by (apply Z.mul_le_mono_nonneg_l; lia).
    assert (Q' : 1 * scalars_per_entry f u <= entries_of f u * scalars_per_entry f u) by (apply Z.mul_le_mono_nonneg_r; lia).
    rewrite us_small by lia. rewrite (map_loop_exact (scalars_per_entry f u) (entries_of f u) ltac:(lia)) with (k := Z.to_nat (entries_of f u)); try lia; [reflexivity|].
    intros i Hi. assert (i * scalars_per_entry f u <= entries_of f u * scalars_per_entry f u) by (apply Z.mul_le_mono_nonneg_r; lia). lia.
Qed.
Print Assumptions C158_map.

Lemma index_next_exact s k o : 0 < s < 2 ^ 63 -> 0 <= o < s -> m_index_next s (k, o) = index_next s (k, o).
Proof.
  intros S O. unfold m_index_next, index_next. destruct (Z.eqb_spec s 0); [reflexivity|]. unfold ix, fits64.
  destruct (Z.leb_spec (- 2 ^ 63) (o + 1)); [|lia]. destruct (Z.ltb_spec (o + 1) (2 ^ 63)); [|lia]. cbn [andb bind].
  rewrite us_small by lia. pose proof (Z.mod_pos_bound (o + 1) s ltac:(lia)). rewrite to_index_small by lia. rewrite Z.rem_mod_nonneg by lia. reflexivity.
Qed.
Lemma index_next_range s k o k' o' : 0 < s -> 0 <= o < s -> index_next s (k, o) = Ok (k', o') -> 0 <= o' < s.
Proof. intros S O. unfold index_next. destruct (Z.eqb_spec s 0); [discriminate|]. intros E. injection E as _ <-. rewrite Z.rem_mod_nonneg by lia. apply Z.mod_pos_bound. lia. Qed.
Lemma index_loop_exact pix s : 0 < s < 2 ^ 63 -> Forall (fun p => 0 <= p < 2 ^ 63 /\ (p + 1) * s <= 2 ^ 64) pix -> forall fuel k o, 0 <= o < s -> m_index_loop fuel pix s (k, o) = index_loop fuel pix s (k, o).
Proof.
  intros S P. induction fuel as [|n IH]; intros k o O; [reflexivity|]. cbn [m_index_loop index_loop]. destruct (_ && _); [reflexivity|].
  assert (D : m_index_deref pix s (k, o) = index_deref pix s (k, o)).
  { unfold m_index_deref, index_deref. destruct (nth_error pix k) as [p|] eqn:E; [|reflexivity]. apply nth_error_In in E. rewrite Forall_forall in P. destruct (P p E) as [Pp Q].
    assert (0 <= p * s) by (apply Z.mul_nonneg_nonneg; lia). rewrite (us_small p) by lia. rewrite (us_small (p * s)) by lia. rewrite (us_small o) by lia. now rewrite us_small by lia. }
  rewrite D, (index_next_exact s k o S O). destruct (index_deref pix s (k, o)); [|reflexivity|reflexivity]. cbn [bind].
  destruct (index_next s (k, o)) as [[k' o']| |] eqn:E; [|reflexivity|reflexivity]. cbn [bind]. rewrite IH; [reflexivity|]. exact (index_next_range s k o k' o' (proj1 S) O E).
Qed.

(** C158: the indices of sub-points are those of unbounded integers, provided the indices
    after those of each pixel fit [size_t]. *)
Theorem C158_sub_points {A} (c : coll A) tag s fuel : tag_number c tag = Some s -> 0 < s < 2 ^ 63 -> Forall (fun p => 0 <= p < 2 ^ 63 /\ (p + 1) * s <= 2 ^ 64) (c_index c) ->
  m_index_iterate c tag fuel = index_iterate c tag fuel.
Proof.
  intros T S P. unfold m_index_iterate, index_iterate, index_stride. rewrite T. cbn [bind]. rewrite us_small by lia. now apply index_loop_exact; [| |lia].
Qed.
Print Assumptions C158_sub_points.

(** Beyond this the indices wrap: sub-points of different pixels get the same indices. *)
Theorem C158_sub_points_wrap : exists c : coll Z, reachable 0 c /\ c_init c = true /\ c_index c = [0; 2 ^ 62] /\ tag_number c "quad" = Some 4 /\
  index_iterate c "quad" 8 = Ok [0; 1; 2; 3; 2 ^ 64; 2 ^ 64 + 1; 2 ^ 64 + 2; 2 ^ 64 + 3] /\ m_index_iterate c "quad" 8 = Ok [0; 1; 2; 3; 0; 1; 2; 3].
Proof.
  set (c0 := match new_coll false ColMajor [("quad"%string, 4)] with Ok c => c | _ => mk_coll false ColMajor [] false 0 0 [] [] [] [] end : coll Z).
  exists (run 0 c0 [OAddPixel 0; OAddPixel (2 ^ 62); OInitLocal]). split; [|repeat split; vm_compute; reflexivity].
  exists false, ColMajor, [("quad"%string, 4)], c0, [OAddPixel 0; OAddPixel (2 ^ 62); OInitLocal]. split; reflexivity.
Qed.
Print Assumptions C158_sub_points_wrap.

(** Two pixels with two points each and two components. *)
Example C158_map_case : exists l m p, global_layout_order ColMajor Automatic [2] [] [2] 2 = Ok l /\ let f := field_on 0 l true [1; 2; 3; 4; 5; 6; 7; 8] in
  new_map f SubPt None = Ok m /\ m_map_positions 4 m f = Some [0; 2; 4; 6] /\ m_map_positions 3 m f = None /\
  new_map f Pixel None = Ok p /\ m_get_stride l true Pixel = Ok 4 /\ m_map_positions 2 p f = Some [0; 4].
Proof. do 3 eexists. split; [vm_compute; reflexivity|]. cbn zeta. repeat (split; [vm_compute; reflexivity|]). vm_compute. reflexivity. Qed.
