(** Lemmas about reading and writing local fields. *)
From Coq Require Import String Ascii.
From Verif Require Import Base CIntModel GridModel GridSpec GridProofs StridedModel StridedProofs LayoutModel LayoutSpec LayoutProofs LayoutProofs2 CommModel FrameModel RegistryModel.
From Verif Require Import NetCDFModel NetCDFSpec NetCDFProofs NetCDFProofs2 NetCDFProofs3 NetCDFProofs4 NetCDFProofs5 NetCDFProofs6 NetCDFProofs7 NetCDFProofs8.
Local Open Scope Z_scope.
Local Open Scope list_scope.

Definition one_pixel (l : layout) : layout := local_layout 1 (l_comp l) (l_nsub l).
Definition dof (l : layout) : Z := zprod (l_comp l) * l_nsub l.

Section Vectors.
Context {A : Type}.
Variables (total : Z) (hist : option Z) (name : string) (f : nfield) (v : ncvar) (n : Z).
Hypothesis l_as : local_as total hist name f v.
Hypothesis scalar_single : l_nbc (nf_lay f) = 1 -> l_nsub (nf_lay f) = 1.
Hypothesis LF : exists m : list A, local_field f n m.
Hypothesis T : 0 < total.
Hypothesis LC : Z.of_nat (length (l_comp (nf_lay f))) <= 2 ^ 31.

Lemma lf_facts : nf_lay f = local_layout n (l_comp (nf_lay f)) (l_nsub (nf_lay f)) /\ 0 <= n /\
  Forall (fun c => 0 < c) (l_comp (nf_lay f)) /\ 0 < l_nsub (nf_lay f) /\ dof (nf_lay f) < 2 ^ 31.
Proof. destruct LF as (m & E & H & P & S & D & _); auto. Qed.
Lemma comp_small : 0 < zprod (l_comp (nf_lay f)) < 2 ^ 31.
Proof.
  destruct lf_facts as (_ & _ & P & S & D). pose proof (zprod_pos _ P) as Z. unfold dof in D. split; [exact Z|].
  apply Z.le_lt_trans with (2 := D). rewrite <- (Z.mul_1_r (zprod _)) at 1. apply Z.mul_le_mono_nonneg_l; lia.
Qed.
Lemma lf_sane : sane (nf_lay f).
Proof. destruct lf_facts as (E & H & P & S & D). rewrite E. apply local_layout_dense; try assumption. apply comp_small. Qed.
Lemma one_sane : sane (one_pixel (nf_lay f)).
Proof. destruct lf_facts as (E & H & P & S & D). apply local_layout_dense; try assumption; [lia|apply comp_small]. Qed.
Lemma lf_nbc : l_nbc (nf_lay f) = zprod (l_comp (nf_lay f)).
Proof. apply lf_sane. Qed.
Lemma one_nbc : l_nbc (one_pixel (nf_lay f)) = l_nbc (nf_lay f).
Proof. destruct one_sane as (E & _). rewrite E. symmetry. apply lf_nbc. Qed.
Lemma one_single : single (one_pixel (nf_lay f)) = single (nf_lay f).
Proof. unfold single. now rewrite one_nbc. Qed.
Lemma local_name_vec : v_name v = name.
Proof. now destruct l_as as (-> & _). Qed.
Lemma local_stride_vec : get_nc_stride v =
  Ok (header false hist 1 (hist_nb hist) ++ repeat 1 (length (l_comp (nf_lay f)) + length (sub_part (nf_lay f) 0) + 1)).
Proof.
  destruct l_as as (-> & TK & SB & HB & PB). specialize (PB ltac:(lia)). unfold get_nc_stride. cbn [v_dims].
  destruct (Z.eqb_spec total 0); [lia|]. cbn [negb].
  rewrite !mapm_app, tensor_strides by exact TK. rewrite subpt_dims_eq. unfold header, sub_part.
  set (v0 := mk_ncvar _ _ _).
  replace (mapm (stride1 v0) [frame_dim]) with (Ok [1]) by reflexivity. cbn [bind].
  assert (H1 : mapm (stride1 v0) (hist_part hist) = Ok (match hist with Some _ => [hist_nb hist] | None => [] end)).
  { destruct hist as [nb|] eqn:EH; [|reflexivity]. cbn [hist_part mapm]. specialize (HB nb eq_refl). unfold based in HB.
    unfold stride1, base_is. rewrite HB. subst v0. cbn [v_hist hist_nb]. reflexivity. }
  rewrite H1. cbn [bind].
  assert (H3 : mapm (stride1 v0) [mk_ncdim (compute_dim_name "pts" name) total] = Ok [1]).
  { cbn [mapm]. unfold based in PB. unfold stride1, base_is. rewrite PB. reflexivity. }
  rewrite H3. cbn [bind].
  rewrite !repeat_app, <- !app_assoc.
  destruct (single (nf_lay f)) eqn:ES; [reflexivity|]. specialize (SB eq_refl). unfold based in SB.
  cbn [mapm]. unfold stride1 at 1, base_is. rewrite SB. reflexivity.
Qed.
Lemma local_start_vec fr h o : mapm (start_local1 v fr h o) (v_dims v) =
  Ok (header false hist fr h ++ repeat 0 (length (l_comp (nf_lay f))) ++ sub_part (nf_lay f) 0 ++ [o]).
Proof.
  destruct l_as as (-> & TK & SB & HB & PB). specialize (PB ltac:(lia)). cbn [v_dims].
  destruct (Z.eqb_spec total 0); [lia|]. cbn [negb].
  rewrite !mapm_app, tensor_starts_local by exact TK. rewrite subpt_dims_eq. unfold header, sub_part.
  set (v0 := mk_ncvar _ _ _).
  replace (mapm (start_local1 v0 fr h o) [frame_dim]) with (Ok [fr]) by reflexivity. cbn [bind].
  assert (H1 : mapm (start_local1 v0 fr h o) (hist_part hist) = Ok (match hist with Some _ => [h] | None => [] end)).
  { destruct hist as [nb|] eqn:EH; [|reflexivity]. cbn [hist_part mapm]. specialize (HB nb eq_refl). unfold based in HB.
    unfold start_local1, base_is. rewrite HB. reflexivity. }
  rewrite H1. cbn [bind].
  assert (H3 : mapm (start_local1 v0 fr h o) [mk_ncdim (compute_dim_name "pts" name) total] = Ok [o]).
  { cbn [mapm]. unfold based in PB. unfold start_local1, base_is. rewrite PB. reflexivity. }
  rewrite H3. cbn [bind]. rewrite <- !app_assoc.
  destruct (single (nf_lay f)) eqn:ES; [reflexivity|]. specialize (SB eq_refl). unfold based in SB.
  cbn [mapm]. unfold start_local1 at 1, base_is. rewrite SB. reflexivity.
Qed.
Lemma local_count_vec : mapm (count_local1 f) (v_dims v) = Ok (header false hist 1 1 ++ body_shape (one_pixel (nf_lay f))).
Proof.
  unfold body_shape, sub_part. rewrite one_single. cbn [one_pixel local_layout layout_of_shape l_comp l_pix l_nsub].
  destruct l_as as (-> & TK & SB & HB & PB). specialize (PB ltac:(lia)). cbn [v_dims].
  destruct (Z.eqb_spec total 0); [lia|]. cbn [negb].
  rewrite !mapm_app, tensor_counts_local by assumption. rewrite subpt_dims_eq. unfold header.
  replace (mapm (count_local1 f) [frame_dim]) with (Ok [1]) by reflexivity. cbn [bind].
  assert (H1 : mapm (count_local1 f) (hist_part hist) = Ok (match hist with Some _ => [1] | None => [] end)).
  { destruct hist as [nb|] eqn:EH; [|reflexivity]. cbn [hist_part mapm]. specialize (HB nb eq_refl). unfold based in HB.
    unfold count_local1, base_is. rewrite HB. reflexivity. }
  rewrite H1. cbn [bind].
  assert (H3 : mapm (count_local1 f) [mk_ncdim (compute_dim_name "pts" name) total] = Ok [1]).
  { cbn [mapm]. unfold based in PB. unfold count_local1, base_is. rewrite PB. reflexivity. }
  rewrite H3. cbn [bind]. rewrite <- !app_assoc.
  destruct (single (nf_lay f)) eqn:ES; [reflexivity|]. specialize (SB eq_refl). unfold based in SB.
  cbn [mapm]. unfold count_local1 at 1, base_is. rewrite SB. reflexivity.
Qed.
Lemma count_product : get_nb_from_shape (header false hist 1 1 ++ body_shape (one_pixel (nf_lay f))) = dof (nf_lay f).
Proof.
  destruct lf_facts as (E & H & P & S & D).
  assert (Q : zprod (header false hist 1 1 ++ body_shape (one_pixel (nf_lay f))) = dof (nf_lay f)).
  { rewrite header_ones. rewrite zprod_app. replace (zprod (repeat 1 _)) with 1.
    - rewrite Z.mul_1_l. unfold body_shape, sub_part. rewrite one_single. cbn [one_pixel local_layout layout_of_shape l_comp l_pix l_nsub].
      rewrite !zprod_app. unfold dof. destruct (single (nf_lay f)) eqn:ES; cbn [zprod fold_right]; [|cbn; lia].
      unfold single in ES. apply andb_true_iff in ES. destruct ES as [_ ES]. apply Z.eqb_eq in ES. rewrite ES. cbn. lia.
    - generalize (length (header false hist 0 0)). induction n0 as [|k IH]; [reflexivity|]. cbn [repeat]. change (zprod (1 :: repeat 1 k)) with (1 * zprod (repeat 1 k)). rewrite <- IH. reflexivity. }
  rewrite nb_from_shape_exact; [exact Q| |].
  - rewrite header_ones. apply Forall_app. split; [apply Forall_forall; intros y Hy; apply repeat_spec in Hy; lia|].
    unfold body_shape, sub_part. rewrite one_single. cbn [one_pixel local_layout layout_of_shape l_comp l_pix l_nsub].
    apply Forall_app. split; [exact P|]. destruct (single (nf_lay f)); repeat constructor; lia.
  - rewrite Q. exact D.
Qed.
Lemma local_imap_vec : exists a b s, get_nc_imap v f = Ok (header false hist a b ++ s) /\
  embeds (body_shape (one_pixel (nf_lay f))) s (dof (nf_lay f)) /\
  forall c q i t, in_shape (l_comp (nf_lay f)) c -> 0 <= q < l_nsub (nf_lay f) -> get_strides (nf_lay f) SubPt 1 = Ok t ->
    off t (c ++ q :: [i]) = i * dof (nf_lay f) + off s (c ++ sub_part (nf_lay f) q ++ [0]).
Proof.
  destruct lf_facts as (E & H & P & S & D). pose proof one_sane as S1. pose proof scalar_single as N1.
  set (l1 := one_pixel (nf_lay f)) in *.
  assert (GS : forall u, get_strides (nf_lay f) u 1 = get_strides l1 u 1) by (intros u; rewrite E; reflexivity).
  assert (BS : buffer_scalars l1 = dof (nf_lay f)).
  { unfold buffer_scalars, dof. subst l1. rewrite one_nbc, lf_nbc. cbn [one_pixel local_layout layout_of_shape l_nsub l_nbuf]. lia. }
  assert (ES : single (nf_lay f) = (l_nbc (nf_lay f) =? 1)).
  { unfold single. destruct (Z.eqb_spec (l_nbc (nf_lay f)) 1) as [Q|Q]; [|reflexivity]. rewrite N1 by exact Q. reflexivity. }
  assert (SS : exists s, get_strides (nf_lay f) (if single (nf_lay f) then Pixel else SubPt) 1 = Ok s /\ embeds (body_shape l1) s (dof (nf_lay f))).
  { rewrite <- BS, GS. unfold body_shape, sub_part. unfold l1 at 3. rewrite one_single. fold l1. destruct (single (nf_lay f)) eqn:Q.
    - assert (K : l_nsub (nf_lay f) = 1) by (apply N1; unfold single in Q; apply andb_true_iff in Q; now apply Z.eqb_eq).
      destruct (pixel_view_col l1 S1 ltac:(reflexivity) (or_intror K)) as (s & P1 & P2). exists s. split; [exact P1|].
      unfold get_shape, get_sub_pt_shape in P2. change (l_nsub l1) with (l_nsub (nf_lay f)) in P2. rewrite K in P2. cbn [Z.ltb Z.compare] in P2. exact P2.
    - destruct (sub_pt_embeds l1 S1) as (s & P1 & P2). exists s. split; [exact P1|]. unfold get_shape, get_sub_pt_shape in P2. now rewrite <- app_assoc in P2. }
  destruct SS as (s & E1 & E2). unfold get_nc_imap. rewrite <- ES, E1. cbn [bind].
  assert (FR : existsb (fun d => String.eqb (d_name d) "frame") (v_dims v) = true) by (now destruct l_as as (-> & _)).
  assert (VH : v_hist v = hist) by (now destruct l_as as (-> & _)).
  rewrite FR, VH. set (all := l_npix _ * _).
  exists (match hist with None => all | Some nb => all * nb end), all, s. split; [unfold header; destruct hist; reflexivity|]. split; [exact E2|].
  intros c q i t Hc Hq Ht.
  assert (O0 : off t (c ++ q :: [0]) = off s (c ++ sub_part (nf_lay f) q ++ [0])).
  { unfold sub_part. destruct (single (nf_lay f)) eqn:Q.
    - assert (K : l_nsub (nf_lay f) = 1) by (apply N1; unfold single in Q; apply andb_true_iff in Q; now apply Z.eqb_eq).
      assert (q = 0) as -> by lia. cbn [app]. rewrite GS in E1, Ht.
      assert (I0 : in_shape (l_pix l1) [0]) by (apply in_shape_cons; exists 0, []; split; [reflexivity|]; split; [cbn; lia|now apply in_shape_nil]).
      destruct (pixel_view_single l1 s t c [0] S1 K E1 Ht Hc I0) as (_ & _ & X). symmetry. exact X.
    - rewrite E1 in Ht. apply Ok_inj in Ht. subst t. reflexivity. }
  rewrite <- O0. clear O0. rewrite E in Ht. unfold get_strides, get_sub_pt_strides, get_components_strides, get_pixels_strides in Ht.
  cbn [local_layout layout_of_shape l_order l_comp l_nbc l_pstr bind map] in Ht. apply Ok_inj in Ht. subst t.
  apply in_shape_length in Hc.
  change (c ++ q :: [i]) with (c ++ [q] ++ [i]). change (c ++ q :: [0]) with (c ++ [q] ++ [0]). rewrite !app_assoc.
  rewrite !(off_app (running 1 (l_comp (nf_lay f)) ++ _) _ (c ++ [q])) by (rewrite !app_length, running_length; cbn; lia).
  rewrite !off_cons, !off_nil. unfold nb_dof_per_pixel. cbn [local_layout layout_of_shape l_nbc l_nsub].
  unfold dof. replace (get_nb_from_shape (l_comp (nf_lay f))) with (zprod (l_comp (nf_lay f))); [lia|].
  symmetry. apply nb_from_shape_exact; [exact P|apply comp_small].
Qed.

End Vectors.

Section Local.
Context {A : Type}.
Variables (total : Z) (hist : option Z) (name : string) (f : nfield) (v : ncvar) (n : Z).
Hypothesis R : registered_local total hist name f v.
Hypothesis LF : exists m : list A, local_field f n m.
Hypothesis T : 0 < total.
Hypothesis LC : Z.of_nat (length (l_comp (nf_lay f))) <= 2 ^ 31.
Lemma l_as : local_as total hist name f v.
Proof. destruct R as [px E]. now apply register_local_inv in E. Qed.
Lemma scalar_single : l_nbc (nf_lay f) = 1 -> l_nsub (nf_lay f) = 1.
Proof.
  destruct R as [px E]. destruct (refused_local _ _ _ _ _ _ E (lf_sane _ _ LF)) as [[_ H]|[H _]]; [|exact H|lia].
  destruct (lf_facts _ _ LF) as (-> & _). reflexivity.
Qed.
Lemma local_name : v_name v = name.
Proof. eapply local_name_vec; eauto using l_as, scalar_single. Qed.
Lemma local_stride : get_nc_stride v =
  Ok (header false hist 1 (hist_nb hist) ++ repeat 1 (length (l_comp (nf_lay f)) + length (sub_part (nf_lay f) 0) + 1)).
Proof. eapply local_stride_vec; eauto using l_as, scalar_single. Qed.
Lemma local_start fr h o : mapm (start_local1 v fr h o) (v_dims v) =
  Ok (header false hist fr h ++ repeat 0 (length (l_comp (nf_lay f))) ++ sub_part (nf_lay f) 0 ++ [o]).
Proof. eapply local_start_vec; eauto using l_as, scalar_single. Qed.
Lemma local_count : mapm (count_local1 f) (v_dims v) = Ok (header false hist 1 1 ++ body_shape (one_pixel (nf_lay f))).
Proof. eapply local_count_vec; eauto using l_as, scalar_single. Qed.
Lemma local_imap : exists a b s, get_nc_imap v f = Ok (header false hist a b ++ s) /\
  embeds (body_shape (one_pixel (nf_lay f))) s (dof (nf_lay f)) /\
  forall c q i t, in_shape (l_comp (nf_lay f)) c -> 0 <= q < l_nsub (nf_lay f) -> get_strides (nf_lay f) SubPt 1 = Ok t ->
    off t (c ++ q :: [i]) = i * dof (nf_lay f) + off s (c ++ sub_part (nf_lay f) q ++ [0]).
Proof. eapply local_imap_vec; eauto using l_as, scalar_single. Qed.

(** ** One request *)
Variable h : Z.
Hypothesis HR : entry hist h.

Definition spot (fr : Z) (c : list Z) (q o : Z) : list Z := cell false hist (nf_lay f) fr h c q [o].
Definition slot (o : Z) : nfield := mk_nfield (nf_name f) (nf_tag f) (one_pixel (nf_lay f)) [total] [o].

Lemma local_place fr o c q : in_shape (l_comp (nf_lay f)) c -> 0 <= q < l_nsub (nf_lay f) ->
  place_of (header false hist fr h ++ repeat 0 (length (l_comp (nf_lay f))) ++ sub_part (nf_lay f) 0 ++ [o])
    (header false hist 1 (hist_nb hist) ++ repeat 1 (length (l_comp (nf_lay f)) + length (sub_part (nf_lay f) 0) + 1))
    (repeat 0 (length (header false hist 0 0)) ++ c ++ sub_part (nf_lay f) q ++ [0]) = spot fr c q o.
Proof.
  intros Hc Hq. assert (I : indexes (one_pixel (nf_lay f)) c q [0]).
  { split; [exact Hc|]. split; [exact Hq|]. apply in_shape_cons. exists 0, []. split; [reflexivity|]. split; [lia|now apply in_shape_nil]. }
  pose proof (place_cell false hist (slot o) fr h (hist_nb hist) c q [0] eq_refl I) as P.
  cbn [slot nf_lay nf_loc length] in P. unfold sub_part in P. rewrite (one_single f n LF) in P.
  change (l_comp (one_pixel (nf_lay f))) with (l_comp (nf_lay f)) in P.
  unfold sub_part. rewrite P. unfold spot. rewrite !cell_header. unfold sub_part. rewrite (one_single f n LF). cbn [plus combine map fst snd].
  now rewrite Z.add_0_r.
Qed.
Lemma one_index i : in_shape (header false hist 1 1 ++ body_shape (one_pixel (nf_lay f))) i <->
  exists c q, in_shape (l_comp (nf_lay f)) c /\ 0 <= q < l_nsub (nf_lay f) /\
    i = repeat 0 (length (header false hist 0 0)) ++ c ++ sub_part (nf_lay f) q ++ [0].
Proof.
  rewrite (box_index false hist _ i (one_sane f n LF)). split.
  - intros (c & q & x & (Hc & Hq & Hx) & ->). apply in_shape_cons in Hx. destruct Hx as (y & r & -> & Hy & Hr). apply in_shape_nil in Hr. subst r.
    assert (y = 0) as -> by lia. exists c, q. split; [exact Hc|]. split; [exact Hq|]. unfold sub_part. now rewrite (one_single f n LF).
  - intros (c & q & Hc & Hq & ->). exists c, q, [0]. split; [|unfold sub_part; now rewrite (one_single f n LF)]. split; [exact Hc|]. split; [exact Hq|].
    apply in_shape_cons. exists 0, []. split; [reflexivity|]. split; [lia|now apply in_shape_nil].
Qed.
Lemma local_within limit fr o : 0 <= fr -> (forall k, limit = Some k -> fr < k) -> 0 <= o < total ->
  all_within limit (v_dims v)
    (header false hist fr h ++ repeat 0 (length (l_comp (nf_lay f))) ++ sub_part (nf_lay f) 0 ++ [o])
    (header false hist 1 1 ++ body_shape (one_pixel (nf_lay f)))
    (header false hist 1 (hist_nb hist) ++ repeat 1 (length (l_comp (nf_lay f)) + length (sub_part (nf_lay f) 0) + 1)) = true.
Proof.
  intros F LM B. destruct l_as as (-> & TK & SB & HB & PB). specialize (PB ltac:(lia)). cbn [v_dims].
  destruct (Z.eqb_spec total 0); [lia|]. cbn [negb]. destruct (lf_facts f n LF) as (_ & _ & P & S & _).
  unfold header, body_shape. rewrite <- !app_assoc, !repeat_app, <- !app_assoc.
  rewrite all_within_app by reflexivity. pose proof (within_frame limit false fr F LM) as W1. cbn [frame_part] in W1. rewrite W1. cbn [andb].
  rewrite all_within_app by (destruct hist; reflexivity).
  rewrite within_hist by (intros nb En; split; [now apply HB|now apply HR]). cbn [andb].
  rewrite all_within_app by (rewrite ?repeat_length, tensor_dims_length; reflexivity).
  change (l_comp (one_pixel (nf_lay f))) with (l_comp (nf_lay f)).
  rewrite within_tensor by assumption. cbn [andb].
  replace (sub_part (one_pixel (nf_lay f)) (l_nsub (one_pixel (nf_lay f)))) with (sub_part (nf_lay f) (l_nsub (nf_lay f))) by (unfold sub_part; now rewrite (one_single f n LF)).
  rewrite all_within_app.
  - rewrite within_subpt by assumption. cbn [andb length repeat one_pixel local_layout layout_of_shape l_pix all_within].
    rewrite within_axis; [reflexivity| |lia..]. unfold base_is. unfold based in PB. cbn [d_name] in PB |- *. rewrite PB. reflexivity.
  - rewrite subpt_dims_eq. unfold sub_part. now destruct (single (nf_lay f)).
  - rewrite subpt_dims_eq. unfold sub_part. now destruct (single (nf_lay f)).
  - rewrite subpt_dims_eq. unfold sub_part. now destruct (single (nf_lay f)).
Qed.
Lemma local_lengths (a b : Z) (s : list Z) fr o : length s = length (body_shape (one_pixel (nf_lay f))) ->
  length (header false hist fr h ++ repeat 0 (length (l_comp (nf_lay f))) ++ sub_part (nf_lay f) 0 ++ [o]) = length (v_dims v) /\
  length (header false hist 1 1 ++ body_shape (one_pixel (nf_lay f))) = length (v_dims v) /\
  length (header false hist 1 (hist_nb hist) ++ repeat 1 (length (l_comp (nf_lay f)) + length (sub_part (nf_lay f) 0) + 1)) = length (v_dims v) /\
  length (header false hist a b ++ s) = length (v_dims v).
Proof.
  intros Ls. rewrite (local_dims_length total hist name f v l_as). destruct (Z.eqb_spec total 0); [lia|].
  rewrite !app_length, Ls, !repeat_length.
  assert (LB : length (body_shape (one_pixel (nf_lay f))) = (length (l_comp (nf_lay f)) + (if single (nf_lay f) then 0 else 1) + 1)%nat).
  { unfold body_shape, sub_part. rewrite (one_single f n LF), !app_length. cbn [one_pixel local_layout layout_of_shape l_comp l_pix]. destruct (single (nf_lay f)); cbn; lia. }
  assert (LH : forall x y, length (header false hist x y) = (1 + length (hist_part hist))%nat) by (intros; unfold header; rewrite app_length; destruct hist; reflexivity).
  assert (LQ : length (sub_part (nf_lay f) 0) = (if single (nf_lay f) then 0 else 1)%nat) by (unfold sub_part; destruct (single (nf_lay f)); reflexivity).
  rewrite LB, !LH, LQ. cbn [length]. repeat split; lia.
Qed.

Lemma put_one fr o i a b s (buf : list A) file : 0 <= fr -> 0 <= o < total -> 0 <= i -> (i + 1) * dof (nf_lay f) <= Z.of_nat (length buf) ->
  embeds (body_shape (one_pixel (nf_lay f))) s (dof (nf_lay f)) ->
  (forall c q i t, in_shape (l_comp (nf_lay f)) c -> 0 <= q < l_nsub (nf_lay f) -> get_strides (nf_lay f) SubPt 1 = Ok t ->
    off t (c ++ q :: [i]) = i * dof (nf_lay f) + off s (c ++ sub_part (nf_lay f) q ++ [0])) ->
  exists g, put_varm v (header false hist fr h ++ repeat 0 (length (l_comp (nf_lay f))) ++ sub_part (nf_lay f) 0 ++ [o])
      (header false hist 1 1 ++ body_shape (one_pixel (nf_lay f)))
      (header false hist 1 (hist_nb hist) ++ repeat 1 (length (l_comp (nf_lay f)) + length (sub_part (nf_lay f) 0) + 1))
      (header false hist a b ++ s) (i * dof (nf_lay f)) buf file = Ok g /\
    recs file <= recs g /\ fr < recs g /\
    (forall k at_, (k <> name \/ forall c q, in_shape (l_comp (nf_lay f)) c -> 0 <= q < l_nsub (nf_lay f) -> at_ <> spot fr c q o) -> cells g k at_ = cells file k at_) /\
    (forall c q, in_shape (l_comp (nf_lay f)) c -> 0 <= q < l_nsub (nf_lay f) -> holds (nf_lay f) buf c q [i] (cells g name (spot fr c q o))).
Proof.
  intros F B I M EM OE. destruct (lf_facts f n LF) as (_ & _ & P & S & _). pose proof (local_lengths a b s fr o (proj1 EM)) as (L1 & L2 & L3 & L4).
  assert (OI : forall c q, in_shape (l_comp (nf_lay f)) c -> 0 <= q < l_nsub (nf_lay f) ->
    off (header false hist a b ++ s) (repeat 0 (length (header false hist 0 0)) ++ c ++ sub_part (nf_lay f) q ++ [0]) = off s (c ++ sub_part (nf_lay f) q ++ [0])).
  { intros c q _ _. rewrite off_app by (rewrite repeat_length; apply header_length). rewrite (header_length false hist 0 0 a b), off_zeros. lia. }
  destruct (put_varm_spec v _ _ _ _ (i * dof (nf_lay f)) buf file L1 L2 L3 L4) as (g & E & O & V).
  - apply local_within; [exact F|discriminate|exact B].
  - apply Forall_app. split.
    + unfold header. cbn [app]. constructor; [lia|]. destruct hist as [k|] eqn:EH; [|constructor].
      constructor; [|constructor]. specialize (HR k eq_refl). cbn [hist_nb]. lia.
    + apply Forall_forall. intros y Hy. apply repeat_spec in Hy. lia.
  - intros j Hj. pose proof Hj as Hj2. apply one_index in Hj. destruct Hj as (c & q & Hc & Hq & ->). rewrite OI by assumption.
    destruct EM as (_ & W & _).
    assert (Wi : 0 <= off s (c ++ sub_part (nf_lay f) q ++ [0]) < dof (nf_lay f)).
    { apply W. pose proof (proj2 (box_index true None _ (c ++ sub_part (nf_lay f) q ++ [0]) (one_sane f n LF))) as Q. apply Q.
      exists c, q, [0]. split; [|unfold sub_part; rewrite (one_single f n LF); reflexivity]. split; [exact Hc|]. split; [exact Hq|].
      apply in_shape_cons. exists 0, []. split; [reflexivity|]. split; [lia|now apply in_shape_nil]. }
    rewrite Z.mul_add_distr_r in M. pose proof (Z.mul_nonneg_nonneg i (dof (nf_lay f)) I) as MN. lia.
  - rewrite E. eexists. split; [reflexivity|]. cbn [recs cells]. rewrite local_name in O, V. split; [apply grown_le|]. split; [|split].
    + unfold grown. destruct l_as as (-> & _). cbn [v_dims app header]. change (base_is frame_dim "frame") with true. cbn iota. lia.
    + intros k at_ [H|H]; apply O; [now left|right]. intros j Hj. apply one_index in Hj. destruct Hj as (c & q & Hc & Hq & ->).
      rewrite local_place by assumption. now apply H.
    + intros c q Hc Hq. destruct (sub_pt_embeds _ (lf_sane f n LF)) as (t & Et & _). exists t. split; [exact Et|].
      rewrite (OE c q i t Hc Hq Et). rewrite <- OI by assumption. rewrite <- (local_place fr o c q Hc Hq). apply V. apply one_index. exists c, q. auto.
Qed.

Lemma get_one fr o i a b s (buf : list A) file : 0 <= fr < recs file -> 0 <= o < total -> 0 <= i -> (i + 1) * dof (nf_lay f) <= Z.of_nat (length buf) ->
  embeds (body_shape (one_pixel (nf_lay f))) s (dof (nf_lay f)) ->
  (forall c q i t, in_shape (l_comp (nf_lay f)) c -> 0 <= q < l_nsub (nf_lay f) -> get_strides (nf_lay f) SubPt 1 = Ok t ->
    off t (c ++ q :: [i]) = i * dof (nf_lay f) + off s (c ++ sub_part (nf_lay f) q ++ [0])) ->
  exists g, get_varm v (header false hist fr h ++ repeat 0 (length (l_comp (nf_lay f))) ++ sub_part (nf_lay f) 0 ++ [o])
      (header false hist 1 1 ++ body_shape (one_pixel (nf_lay f)))
      (header false hist 1 (hist_nb hist) ++ repeat 1 (length (l_comp (nf_lay f)) + length (sub_part (nf_lay f) 0) + 1))
      (header false hist a b ++ s) file (i * dof (nf_lay f)) buf = Ok g /\ length g = length buf /\
    (forall j, j < i * dof (nf_lay f) \/ (i + 1) * dof (nf_lay f) <= j -> rd g j = rd buf j) /\
    (forall c q, in_shape (l_comp (nf_lay f)) c -> 0 <= q < l_nsub (nf_lay f) -> holds (nf_lay f) g c q [i] (cells file name (spot fr c q o))).
Proof.
  intros F B I M EM OE. destruct (lf_facts f n LF) as (_ & _ & P & S & _). pose proof (local_lengths a b s fr o (proj1 EM)) as (L1 & L2 & L3 & L4).
  assert (OI : forall c q, in_shape (l_comp (nf_lay f)) c -> 0 <= q < l_nsub (nf_lay f) ->
    off (header false hist a b ++ s) (repeat 0 (length (header false hist 0 0)) ++ c ++ sub_part (nf_lay f) q ++ [0]) = off s (c ++ sub_part (nf_lay f) q ++ [0])).
  { intros c q _ _. rewrite off_app by (rewrite repeat_length; apply header_length). rewrite (header_length false hist 0 0 a b), off_zeros. lia. }
  assert (SH : forall c q, in_shape (l_comp (nf_lay f)) c -> 0 <= q < l_nsub (nf_lay f) -> in_shape (body_shape (one_pixel (nf_lay f))) (c ++ sub_part (nf_lay f) q ++ [0])).
  { intros c q Hc Hq. pose proof (proj2 (box_index true None _ (c ++ sub_part (nf_lay f) q ++ [0]) (one_sane f n LF))) as Q. apply Q.
    exists c, q, [0]. split; [|unfold sub_part; rewrite (one_single f n LF); reflexivity]. split; [exact Hc|]. split; [exact Hq|].
    apply in_shape_cons. exists 0, []. split; [reflexivity|]. split; [lia|now apply in_shape_nil]. }
  destruct EM as (LS & W & J).
  assert (WI : forall c q, in_shape (l_comp (nf_lay f)) c -> 0 <= q < l_nsub (nf_lay f) -> 0 <= off s (c ++ sub_part (nf_lay f) q ++ [0]) < dof (nf_lay f)) by (intros; apply W; now apply SH).
  destruct (get_varm_spec v _ _ _ _ (i * dof (nf_lay f)) buf file L1 L2 L3 L4) as (g & E & LG & O & V).
  - apply local_within; [lia|intros k K; injection K as <-; lia|exact B].
  - intros j Hj. apply one_index in Hj. destruct Hj as (c & q & Hc & Hq & ->). rewrite OI by assumption. specialize (WI c q Hc Hq).
    rewrite Z.mul_add_distr_r in M. pose proof (Z.mul_nonneg_nonneg i (dof (nf_lay f)) I) as MN. lia.
  - intros j j' Hj Hj' EJ. apply one_index in Hj, Hj'. destruct Hj as (c & q & Hc & Hq & ->), Hj' as (c' & q' & Hc' & Hq' & ->).
    rewrite !OI in EJ by assumption. f_equal. apply J; [now apply SH..|exact EJ].
  - rewrite E. exists g. split; [reflexivity|]. split; [exact LG|]. rewrite local_name in V. split.
    + intros j Hj. apply O. intros y Hy. apply one_index in Hy. destruct Hy as (c & q & Hc & Hq & ->). rewrite OI by assumption. specialize (WI c q Hc Hq).
      rewrite Z.mul_add_distr_r in Hj. lia.
    + intros c q Hc Hq. destruct (sub_pt_embeds _ (lf_sane f n LF)) as (t & Et & _). exists t. split; [exact Et|].
      rewrite (OE c q i t Hc Hq Et). rewrite <- OI by assumption. rewrite <- (local_place fr o c q Hc Hq). apply V. apply one_index. exists c, q. auto.
Qed.

(** ** All requests of a process *)
Lemma spot_inj fr c q o fr' c' q' o' : in_shape (l_comp (nf_lay f)) c -> in_shape (l_comp (nf_lay f)) c' -> spot fr c q o = spot fr' c' q' o' -> o = o'.
Proof.
  intros Hc Hc' E. apply in_shape_length in Hc, Hc'. apply cell_inj in E; [|congruence|reflexivity]. destruct E as (_ & _ & _ & _ & E). now injection E.
Qed.
Lemma put_requests_spec fr a b s (buf : list A) : 0 <= fr ->
  embeds (body_shape (one_pixel (nf_lay f))) s (dof (nf_lay f)) ->
  (forall c q i t, in_shape (l_comp (nf_lay f)) c -> 0 <= q < l_nsub (nf_lay f) -> get_strides (nf_lay f) SubPt 1 = Ok t ->
    off t (c ++ q :: [i]) = i * dof (nf_lay f) + off s (c ++ sub_part (nf_lay f) q ++ [0])) ->
  forall os i file, Forall (fun o => 0 <= o < total) os -> NoDup os -> 0 <= i -> (i + Z.of_nat (length os)) * dof (nf_lay f) <= Z.of_nat (length buf) ->
  exists g, put_requests v f fr h (header false hist 1 (hist_nb hist) ++ repeat 1 (length (l_comp (nf_lay f)) + length (sub_part (nf_lay f) 0) + 1))
      (header false hist a b ++ s) os (i * dof (nf_lay f)) buf file = Ok g /\
    recs file <= recs g /\ (os <> [] -> fr < recs g) /\
    (forall k at_, (k <> name \/ forall c q o, in_shape (l_comp (nf_lay f)) c -> 0 <= q < l_nsub (nf_lay f) -> In o os -> at_ <> spot fr c q o) -> cells g k at_ = cells file k at_) /\
    (forall c q j o, in_shape (l_comp (nf_lay f)) c -> 0 <= q < l_nsub (nf_lay f) -> nth_error os j = Some o -> holds (nf_lay f) buf c q [i + Z.of_nat j] (cells g name (spot fr c q o))).
Proof.
  intros F EM OE. destruct (lf_facts f n LF) as (_ & _ & P & SP & _).
  assert (DP : 0 < dof (nf_lay f)) by (unfold dof; apply Z.mul_pos_pos; [now apply zprod_pos|exact SP]).
  induction os as [|o os IH]; intros i file B ND I M.
  - exists file. split; [reflexivity|]. split; [lia|]. split; [easy|]. split; [easy|]. intros c q [|j] o _ _ E; discriminate.
  - apply Forall_cons_iff in B. destruct B as [B1 B2]. apply NoDup_cons_iff in ND. destruct ND as [N1 N2]. cbn [length] in M.
    assert (M1 : (i + 1) * dof (nf_lay f) <= Z.of_nat (length buf)).
    { eapply Z.le_trans; [|exact M]. apply Z.mul_le_mono_nonneg_r; lia. }
    destruct (put_one fr o i a b s buf file F B1 I M1 EM OE) as (g1 & E1 & G1 & G2 & O1 & V1).
    destruct (IH (i + 1) g1 B2 N2 ltac:(lia)) as (g & E & R1 & R2 & O & V).
    { replace (i + 1 + Z.of_nat (length os)) with (i + Z.of_nat (S (length os))) by lia. exact M. }
    exists g. split; [|split; [lia|split; [intros _; lia|split]]].
    + cbn [put_requests]. rewrite local_start. cbn [bind]. rewrite local_count. cbn [bind]. rewrite E1. cbn [bind]. rewrite (count_product hist f n LF).
      replace (i * dof (nf_lay f) + dof (nf_lay f)) with ((i + 1) * dof (nf_lay f)) by (rewrite Z.mul_add_distr_r; lia). exact E.
    + intros k at_ H. rewrite O, O1; [reflexivity| |].
      * destruct H as [H|H]; [now left|right]. intros c q Hc Hq. apply H; [assumption..|now left].
      * destruct H as [H|H]; [now left|right]. intros c q o' Hc Hq Ho'. apply H; [assumption..|now right].
    + intros c q [|j] o' Hc Hq Hn.
      * cbn in Hn. injection Hn as <-. rewrite Z.add_0_r. rewrite O; [now apply V1|]. right. intros c' q' o' Hc' Hq' Ho' E'.
        apply spot_inj in E'; [|assumption..]. subst o'. contradiction.
      * replace (i + Z.of_nat (S j)) with (i + 1 + Z.of_nat j) by lia. now apply V.
Qed.
Lemma get_requests_spec fr a b s file : 0 <= fr < recs file ->
  embeds (body_shape (one_pixel (nf_lay f))) s (dof (nf_lay f)) ->
  (forall c q i t, in_shape (l_comp (nf_lay f)) c -> 0 <= q < l_nsub (nf_lay f) -> get_strides (nf_lay f) SubPt 1 = Ok t ->
    off t (c ++ q :: [i]) = i * dof (nf_lay f) + off s (c ++ sub_part (nf_lay f) q ++ [0])) ->
  forall os i (buf : list A), Forall (fun o => 0 <= o < total) os -> 0 <= i -> (i + Z.of_nat (length os)) * dof (nf_lay f) <= Z.of_nat (length buf) ->
  exists g, get_requests v f fr h (header false hist 1 (hist_nb hist) ++ repeat 1 (length (l_comp (nf_lay f)) + length (sub_part (nf_lay f) 0) + 1))
      (header false hist a b ++ s) os file (i * dof (nf_lay f)) buf = Ok g /\ length g = length buf /\
    (forall j, j < i * dof (nf_lay f) -> rd g j = rd buf j) /\
    (forall c q j o, in_shape (l_comp (nf_lay f)) c -> 0 <= q < l_nsub (nf_lay f) -> nth_error os j = Some o -> holds (nf_lay f) g c q [i + Z.of_nat j] (cells file name (spot fr c q o))).
Proof.
  intros F EM OE. destruct (lf_facts f n LF) as (_ & _ & P & SP & _).
  assert (DP : 0 < dof (nf_lay f)) by (unfold dof; apply Z.mul_pos_pos; [now apply zprod_pos|exact SP]).
  induction os as [|o os IH]; intros i buf B I M.
  - exists buf. split; [reflexivity|]. split; [reflexivity|]. split; [easy|]. intros c q [|j] o _ _ E; discriminate.
  - apply Forall_cons_iff in B. destruct B as [B1 B2]. cbn [length] in M.
    assert (M1 : (i + 1) * dof (nf_lay f) <= Z.of_nat (length buf)).
    { eapply Z.le_trans; [|exact M]. apply Z.mul_le_mono_nonneg_r; lia. }
    destruct (get_one fr o i a b s buf file F B1 I M1 EM OE) as (g1 & E1 & L1 & O1 & V1).
    destruct (IH (i + 1) g1 B2 ltac:(lia)) as (g & E & LG & O & V).
    { rewrite L1. replace (i + 1 + Z.of_nat (length os)) with (i + Z.of_nat (S (length os))) by lia. exact M. }
    exists g. split; [|split; [congruence|split]].
    + cbn [get_requests]. rewrite local_start. cbn [bind]. rewrite local_count. cbn [bind]. rewrite E1. cbn [bind]. rewrite (count_product hist f n LF).
      replace (i * dof (nf_lay f) + dof (nf_lay f)) with ((i + 1) * dof (nf_lay f)) by (rewrite Z.mul_add_distr_r; lia). exact E.
    + intros j Hj. rewrite O, O1; [reflexivity|now left|]. rewrite Z.mul_add_distr_r. lia.
    + intros c q [|j] o' Hc Hq Hn.
      * cbn in Hn. injection Hn as <-. rewrite Z.add_0_r. destruct (V1 c q Hc Hq) as (t & Et & Er). exists t. split; [exact Et|]. rewrite O; [exact Er|].
        rewrite (OE c q i t Hc Hq Et). destruct EM as (_ & W & _).
        assert (Wi : 0 <= off s (c ++ sub_part (nf_lay f) q ++ [0]) < dof (nf_lay f)).
        { apply W. pose proof (proj2 (box_index true None _ (c ++ sub_part (nf_lay f) q ++ [0]) (one_sane f n LF))) as Q. apply Q.
          exists c, q, [0]. split; [|unfold sub_part; rewrite (one_single f n LF); reflexivity]. split; [exact Hc|]. split; [exact Hq|].
          apply in_shape_cons. exists 0, []. split; [reflexivity|]. split; [lia|now apply in_shape_nil]. }
        rewrite Z.mul_add_distr_r. lia.
      * replace (i + Z.of_nat (S j)) with (i + 1 + Z.of_nat j) by lia. now apply V.
Qed.

Lemma write_local_spec nb k fr pixels (mem : list A) file : accessed k nb = Ok fr -> local_field f n mem -> Z.of_nat (length (requests pixels)) <= n ->
  Forall (fun o => 0 <= o < total) (requests pixels) -> NoDup (requests pixels) ->
  exists g, write_local nb k v h f pixels mem file = Ok g /\ recs file <= recs g /\ (requests pixels <> [] -> fr < recs g) /\
    (forall k at_, (k <> name \/ forall c q o, in_shape (l_comp (nf_lay f)) c -> 0 <= q < l_nsub (nf_lay f) -> In o (requests pixels) -> at_ <> spot fr c q o) -> cells g k at_ = cells file k at_) /\
    (forall c q j o, in_shape (l_comp (nf_lay f)) c -> 0 <= q < l_nsub (nf_lay f) -> nth_error (requests pixels) j = Some o -> holds (nf_lay f) mem c q [Z.of_nat j] (cells g name (spot fr c q o))).
Proof.
  intros AC (_ & Hn & P & SP & _ & M) LE B ND. apply accessed_inv in AC. destruct AC as [HF F]. unfold write_local. rewrite HF. cbn [bind].
  destruct (Z.ltb_spec fr 0); [lia|]. rewrite local_stride. cbn [bind]. destruct local_imap as (a & b & s & EI & EM & OE). rewrite EI. cbn [bind].
  destruct (put_requests_spec fr a b s mem F EM OE (requests pixels) 0 file B ND ltac:(lia)) as (g & E & R1 & R2 & O & V).
  { rewrite Z.add_0_l. eapply Z.le_trans; [|exact M]. apply Z.mul_le_mono_nonneg_r; [|exact LE]. apply Z.mul_nonneg_nonneg; [|lia]. pose proof (zprod_pos _ P). lia. }
  rewrite Z.mul_0_l in E. exists g. auto.
Qed.
Lemma read_local_spec nb k fr pixels (mem : list A) file : accessed k nb = Ok fr -> (requests pixels <> [] -> fr < recs file) -> local_field f n mem -> Z.of_nat (length (requests pixels)) <= n ->
  Forall (fun o => 0 <= o < total) (requests pixels) ->
  exists g, read_local nb k v h f pixels file mem = Ok g /\ length g = length mem /\
    (forall c q j o, in_shape (l_comp (nf_lay f)) c -> 0 <= q < l_nsub (nf_lay f) -> nth_error (requests pixels) j = Some o -> holds (nf_lay f) g c q [Z.of_nat j] (cells file name (spot fr c q o))).
Proof.
  intros AC FR (_ & Hn & P & SP & _ & M) LE B. apply accessed_inv in AC. destruct AC as [HF F]. unfold read_local. rewrite HF. cbn [bind].
  destruct (Z.ltb_spec fr 0); [lia|]. rewrite local_stride. cbn [bind]. destruct local_imap as (a & b & s & EI & EM & OE). rewrite EI. cbn [bind].
  destruct (requests pixels) as [|o os] eqn:ER.
  - cbn [get_requests]. exists mem. split; [reflexivity|]. split; [reflexivity|]. intros c q [|j] o _ _ E; discriminate.
  - specialize (FR ltac:(discriminate)).
    destruct (get_requests_spec fr a b s file ltac:(lia) EM OE (o :: os) 0 mem B ltac:(lia)) as (g & E & LG & O & V).
    { rewrite Z.add_0_l. eapply Z.le_trans; [|exact M]. apply Z.mul_le_mono_nonneg_r; [|exact LE]. apply Z.mul_nonneg_nonneg; [|lia]. pose proof (zprod_pos _ P). lia. }
    rewrite Z.mul_0_l in E. exists g. auto.
Qed.
End Local.
