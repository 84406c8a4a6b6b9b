(** C177: subscripts of field maps in builds with assertions. *)
From Verif Require Import Base CIntModel GridModel GridSpec StridedModel.
From Verif Require Import LayoutModel LayoutSpec LayoutProofs2 FieldModel FieldSpec FieldProofs FieldProofs2 FieldProofs3 MapModel MapDebugModel.
Local Open Scope Z_scope.
Local Open Scope list_scope.

(** The number of points of the field, in pixels or not. *)
Lemma allowed_ready {A} (f : field A) u rows m i : ready f -> new_map f u rows = Ok m -> entries_of f SubPt < 2 ^ 64 ->
  subscript_allowed m f i = (i <=? entries_of f SubPt).
Proof.
  intros R H B. destruct (new_map_shape _ _ _ _ H) as (_ & _ & _ & _ & I & _). assert (I' : f_init f = true) by apply R.
  unfold subscript_allowed, nb_entries. rewrite I, I', (nsub_known f R). cbn [andb]. pose proof (count_nonneg f SubPt R). unfold entries_of in *. now rewrite Z.mod_small by lia.
Qed.

(** Positions of a map are given as without assertions, and positions larger than the
    number of points of the field end the program. *)
Theorem C177_subscript_partial {A} (f : field A) u rows m i : ready f -> unpadded f -> new_map f u rows = Ok m -> entries_of f SubPt < 2 ^ 64 ->
  (0 <= i < map_size m f -> exists e, checked_entry m f i = Some (Ok e) /\ map_entry m f i = Ok e) /\
  (entries_of f SubPt < i -> checked_entry m f i = None).
Proof.
  intros R U H B. unfold checked_entry. rewrite (allowed_ready f u rows m i R H B), (map_size_ready f u rows m R U H). split.
  - intros I. rewrite (entry_block f u rows m i R U H I). assert (L : i <= entries_of f SubPt).
    { pose proof R as ((_ & _ & Hs & _) & _). pose proof (count_nonneg f Pixel R). unfold entries_of in *. destruct u; nia. }
    apply Z.leb_le in L. rewrite L. eauto.
  - intros L. apply Z.leb_gt in L. now rewrite L.
Qed.
Print Assumptions C177_subscript_partial.

(** The position after the last is let pass, and with maps over pixels all positions up to
    the number of points: these are read beyond the buffer. *)
Theorem C177_after_last_refuted {A} (f : field A) u rows m i : ready f -> unpadded f -> new_map f u rows = Ok m -> entries_of f SubPt < 2 ^ 64 -> f_pad f = 0 ->
  map_size m f <= i <= entries_of f SubPt -> checked_entry m f i = Some UB.
Proof.
  intros R U H B P. rewrite (map_size_ready f u rows m R U H). intros I. unfold checked_entry. rewrite (allowed_ready f u rows m i R H B).
  destruct (Z.leb_spec i (entries_of f SubPt)); [|lia]. f_equal. destruct (m_stride_per _ _ _ _ H) as [E1 E2]. destruct (new_map_shape _ _ _ _ H) as (_ & _ & _ & _ & _ & Pt).
  assert (Ini : f_init f = true) by apply R. assert (Q : f_ptr f = Some (f_gen f)) by apply R. rewrite Ini, Q in Pt.
  assert (N : len (f_vals f) = buffer_scalars (f_lay f) + f_pad f) by apply R. pose proof (per_pos f u R). pose proof (count_per f u R U).
  unfold map_entry, span. rewrite E1, E2, Pt, N, P. destruct (Z.leb_spec (scalars_per_entry f u) 0); [lia|].
  assert (entries_of f u * scalars_per_entry f u <= i * scalars_per_entry f u) by (apply Z.mul_le_mono_nonneg_r; lia).
  destruct (Z.leb_spec (i * scalars_per_entry f u + scalars_per_entry f u) (buffer_scalars (f_lay f) + 0)); [lia|]. now rewrite andb_false_r.
Qed.
Print Assumptions C177_after_last_refuted.

(** If the buffer is larger than the pixels, entries of maps over points that iterations
    visit end the program. *)
Theorem C177_padded_refuted {A} (f : field A) rows m i : ready f -> new_map f SubPt rows = Ok m -> entries_of f SubPt < 2 ^ 64 -> l_npix (f_lay f) < l_nbuf (f_lay f) -> 0 < l_npix (f_lay f) ->
  map_size m f = l_nsub (f_lay f) * l_nbuf (f_lay f) /\ entries_of f SubPt < map_size m f /\
  (entries_of f SubPt < i < map_size m f -> checked_entry m f i = None).
Proof.
  intros R H B L Np. pose proof R as ((_ & _ & Hs & _) & _ & _ & _ & _ & _ & C & _). apply and_assoc. split.
  - destruct (new_map_shape _ _ _ _ H) as (_ & M & _). unfold map_size, nb_entries. rewrite (nsub_known f R), M, C.
    destruct (Z.eqb_spec (l_nsub (f_lay f) * l_npix (f_lay f)) 0) as [E|E]; [nia|]. split; [reflexivity|]. unfold entries_of. now apply Z.mul_lt_mono_pos_l.
  - intros I. unfold checked_entry. rewrite (allowed_ready f SubPt rows m i R H B). destruct (Z.leb_spec i (entries_of f SubPt)); [lia|reflexivity].
Qed.
Print Assumptions C177_padded_refuted.

(** Maps with static iterates behave in the same way. *)
Theorem C177_static {A} (f : field A) u t m i : new_static f u t = Ok m -> checked_static t m f i = checked_entry m f i.
Proof.
  intros H. unfold new_static in H. destruct (new_map f u (Some (it_rows t))) as [m0| |] eqn:E; try discriminate. cbn [bind] in H. destruct (Z.eqb_spec (m_stride m0) (it_stride t)) as [S|]; cbn [negb] in H; [|discriminate].
  injection H as ->. destruct (m_stride_per _ _ _ _ E) as [E1 E2]. unfold checked_static, checked_entry, static_entry, map_entry. now rewrite E2, <- S, E1.
Qed.
Print Assumptions C177_static.
(** So do mapped fields. *)
Theorem C177_mapped {A} (f : field A) u t m i : new_static f u t = Ok m -> checked_mapped t m f i = checked_entry m f i.
Proof.
  intros H. rewrite <- (C177_static f u t m i H). unfold new_static in H. destruct (new_map f u (Some (it_rows t))) as [m0| |] eqn:E; try discriminate. cbn [bind] in H. destruct (_ =? _); cbn [negb] in H; [|discriminate].
  injection H as ->. destruct (new_map_shape _ _ _ _ E) as (_ & _ & _ & _ & I & _). unfold checked_mapped, checked_static, subscript_allowed. rewrite I. destruct (f_init f && _); reflexivity.
Qed.
Print Assumptions C177_mapped.

(** Two pixels with two points each: maps over points have four entries, maps over pixels
    two; both let position 4 pass. *)
Example C177_case : exists l m p, global_layout_order ColMajor Automatic [2] [] [2] 2 = Ok l /\ let f := field_on 0 l true [1; 2; 3; 4; 5; 6; 7; 8] in
  new_map f SubPt None = Ok m /\ checked_entry m f 3 = Some (Ok [7; 8]) /\ checked_entry m f 4 = Some UB /\ checked_entry m f 5 = None /\
  new_map f Pixel None = Ok p /\ checked_entry p f 1 = Some (Ok [5; 6; 7; 8]) /\ checked_entry p f 2 = Some UB /\ checked_entry p f 4 = Some UB /\ checked_entry p f 5 = None /\
  new_static f SubPt (mk_iterate 2 1) = Ok m /\ checked_static (mk_iterate 2 1) m f 3 = Some (Ok [7; 8]) /\ checked_mapped (mk_iterate 2 1) m f 4 = Some UB.
Proof. do 3 eexists. split; [vm_compute; reflexivity|]. cbn zeta. repeat (split; [vm_compute; reflexivity|]). vm_compute. reflexivity. Qed.
(** Rows of two pixels, four places apart: eight places are visited, those from 5 on cannot be reached. *)
Example C177_padded_case : exists l m, global_layout ColMajor [2; 2] [1; 4] [] [] 1 = Ok l /\ let f := field_on 0 l true (repeat 5 (Z.to_nat (buffer_scalars l))) in
  ready f /\ new_map f SubPt None = Ok m /\ entries_of f SubPt = 4 /\ map_size m f = 8 /\ map_entry m f 5 = Ok [5] /\ checked_entry m f 5 = None.
Proof.
  do 2 eexists. split; [vm_compute; reflexivity|]. cbn zeta. split; [|repeat (split; [vm_compute; reflexivity|]); vm_compute; reflexivity].
  apply field_on_ready; [|reflexivity|vm_compute; split; discriminate|reflexivity].
  apply (global_nested_sane ColMajor [2; 2] [1; 4] [0%nat; 1%nat] [] [] 1); try (repeat constructor; fail); try (vm_compute; reflexivity); auto; [|discriminate].
  split; [reflexivity|]. split; [apply Permutation.Permutation_refl|]. split.
  - intros j k H. cbn in H. assert (j = 0%nat /\ k = 1%nat) as [-> ->] by lia. vm_compute. reflexivity.
  - intros k H. cbn in H. destruct k as [|[|k]]; [vm_compute; reflexivity|vm_compute; reflexivity|lia].
Qed.
