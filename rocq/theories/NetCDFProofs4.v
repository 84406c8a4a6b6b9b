(** Lemmas about reading and writing global fields. *)
From Coq Require Import String Ascii.
From Verif Require Import Base CIntModel GridModel GridSpec GridProofs StridedModel StridedProofs LayoutModel LayoutSpec LayoutProofs LayoutProofs2 CommModel FrameModel RegistryModel.
From Verif Require Import NetCDFModel NetCDFSpec NetCDFProofs NetCDFProofs2 NetCDFProofs3.
Local Open Scope Z_scope.
Local Open Scope list_scope.

Definition grid_part (dom : list Z) : list ncdim := map (fun p => mk_ncdim (fst p) (snd p)) (combine grid_names dom).
Definition subpt_dim (f : layout) (tag : string) : ncdim :=
  mk_ncdim ("subpt" ++ "__" ++ (tag ++ "-" ++ to_string (l_nsub f)))%string (l_nsub f).
Definition hist_part (hist : option Z) : list ncdim := match hist with Some nb => [hist_dim nb] | None => [] end.
Definition frame_part (hidden : bool) : list ncdim := if hidden then [] else [frame_dim].

Lemma subpt_dims_eq f tag : subpt_dims f tag = if single f then [] else [subpt_dim f tag].
Proof.
  unfold subpt_dims, single, subpt_dim. rewrite dim_name_dash.
  destruct (l_nsub f =? 1), (l_nbc f =? 1); reflexivity.
Qed.

Lemma grid_dims_eq names : forall seen dom s g, grid_dims names seen dom = (s, Ok g) ->
  g = map (fun p => mk_ncdim (fst p) (snd p)) (combine names dom) /\ (length dom <= length names)%nat.
Proof.
  induction names as [|n names IH]; intros seen [|d dom] s g; cbn [grid_dims].
  - intros E. injection E as _ <-. split; [reflexivity|cbn; lia].
  - discriminate.
  - intros E. injection E as _ <-. split; [reflexivity|cbn; lia].
  - destruct seen as [|old seen]; [discriminate|]. destruct (negb (old =? 0) && negb (old =? d)); [discriminate|].
    destruct (grid_dims names seen dom) as [s' r] eqn:E'. destruct r as [l|e|]; cbn [bind]; [|discriminate ..].
    intros E. injection E as _ <-. destruct (IH _ _ _ _ E') as [-> L]. split; [reflexivity|cbn; lia].
Qed.

(** What a successful registration tells. *)
Definition registered_as (hidden : bool) (hist : option Z) (name : string) (f : nfield) (v : ncvar) : Prop :=
  v = mk_ncvar name (frame_part hidden ++ hist_part hist ++ tensor_dims name 0 (l_comp (nf_lay f)) ++
                     subpt_dims (nf_lay f) (nf_tag f) ++ grid_part (nf_dom f)) hist /\
  (length (nf_dom f) <= 3)%nat /\ tensors_known name (l_comp (nf_lay f)) /\
  (single (nf_lay f) = false -> based (subpt_dim (nf_lay f) (nf_tag f)) "subpt") /\
  (forall nb, hist = Some nb -> based (hist_dim nb) "history_index") /\
  Z.of_nat (length (l_comp (nf_lay f))) <= 2 ^ 31.

Lemma bind_ok {A B} (r : res A) (k : A -> res B) b : bind r k = Ok b -> exists a, r = Ok a /\ k a = Ok b.
Proof. destruct r; cbn; [eauto|discriminate ..]. Qed.

Lemma register_global_inv seen hidden hist name f s v :
  register_global seen hidden hist name f = (s, Ok v) ->
  registered_as hidden hist name f v /\ consistency_check_global v f = Ok tt.
Proof.
  unfold register_global, add_field_dims_global.
  destruct (grid_dims grid_names seen (nf_dom f)) as [s1 r1] eqn:EG. intros E. injection E as _ E.
  apply bind_ok in E. destruct E as (ds & ED & E). apply bind_ok in ED. destruct ED as (g & -> & ED). injection ED as <-.
  apply bind_ok in E. destruct E as ([] & EC & E). injection E as <-.
  destruct (grid_dims_eq _ _ _ _ _ EG) as [-> L3]. split; [|exact EC].
  set (v := mk_ncvar _ _ _) in *. unfold registered_as. split; [reflexivity|]. split; [exact L3|].
  unfold consistency_check_global in EC.
  apply bind_ok in EC. destruct EC as (a & Ea & EC). apply bind_ok in EC. destruct EC as (b & Eb & EC).
  apply bind_ok in EC. destruct EC as (c & Ec & EC).
  unfold get_nc_stride in Ec. unfold get_count_global in Eb. subst v. cbn [v_dims] in *.
  rewrite !mapm_app in Ec. apply bind_ok in Ec. destruct Ec as (c1 & E1 & Ec). apply bind_ok in Ec. destruct Ec as (c2 & Ec & _).
  apply bind_ok in Ec. destruct Ec as (c3 & E3 & Ec). apply bind_ok in Ec. destruct Ec as (c4 & Ec & _).
  apply bind_ok in Ec. destruct Ec as (c5 & E5 & Ec). apply bind_ok in Ec. destruct Ec as (c6 & Ec & _).
  apply bind_ok in Ec. destruct Ec as (c7 & E7 & Ec).
  assert (TK : tensors_known name (l_comp (nf_lay f))) by (eapply tensors_from_stride; exact E5).
  split; [exact TK|]. split; [|split].
  - intros S. rewrite subpt_dims_eq, S in E7. destruct (mapm_ok _ _ _ E7 _ (or_introl eq_refl)) as [y Y].
    destruct (base_extends "subpt" (nf_tag f ++ "-" ++ to_string (l_nsub (nf_lay f)))) as [t T].
    eapply stride_subpt; [|exact Y]. exact T.
  - intros nb ->. destruct (mapm_ok _ _ _ E3 _ (or_introl eq_refl)) as [y Y].
    destruct (base_extends "history_index" (to_string nb)) as [t T]. eapply stride_hist; [|exact Y]. exact T.
  - rewrite !mapm_app in Eb. apply bind_ok in Eb. destruct Eb as (b1 & _ & Eb). apply bind_ok in Eb. destruct Eb as (b2 & Eb & _).
    apply bind_ok in Eb. destruct Eb as (b3 & _ & Eb). apply bind_ok in Eb. destruct Eb as (b4 & Eb & _).
    apply bind_ok in Eb. destruct Eb as (b5 & E & _). eapply tensor_counts_bound; [exact TK|exact E].
Qed.

(** ** The four vectors *)
Definition header (hidden : bool) (hist : option Z) (a b : Z) : list Z :=
  (if hidden then [] else [a]) ++ (match hist with Some _ => [b] | None => [] end).
Definition hist_nb (hist : option Z) : Z := match hist with Some nb => nb | None => 1 end.
Definition sub_part (f : layout) (q : Z) : list Z := if single f then [] else [q].
Definition body_shape (f : layout) : list Z := l_comp f ++ sub_part f (l_nsub f) ++ l_pix f.

Lemma base_frame : compute_base_name "frame" = "frame"%string.
Proof. reflexivity. Qed.

Lemma grid_case dom (P : list Z -> Prop) : (length dom <= 3)%nat ->
  P [] -> (forall a, P [a]) -> (forall a b, P [a; b]) -> (forall a b c, P [a; b; c]) -> P dom.
Proof. intros L. destruct dom as [|a [|b [|c [|d r]]]]; cbn in L; try lia; auto. Qed.

Ltac three l L := destruct l as [|? [|? [|? [|? ?]]]]; cbn in L; try lia.

Section Vectors.
Variables (hidden : bool) (hist : option Z) (name : string) (f : nfield) (v : ncvar).
Hypothesis R : registered_as hidden hist name f v.

Lemma start_vector fr h : 0 <= fr -> length (nf_loc f) = length (nf_dom f) ->
  get_start_global v f fr h = Ok (header hidden hist fr h ++ repeat 0 (length (l_comp (nf_lay f))) ++ sub_part (nf_lay f) 0 ++ nf_loc f).
Proof.
  destruct R as (-> & L3 & TK & SB & HB & _). intros F LL. unfold get_start_global. destruct (Z.ltb_spec fr 0); [lia|]. cbn [v_dims].
  rewrite !mapm_app, tensor_starts by exact TK. rewrite subpt_dims_eq. unfold header, sub_part.
  replace (mapm _ (frame_part hidden)) with (Ok (if hidden then [] else [fr])) by now destruct hidden. cbn [bind].
  set (v := mk_ncvar _ _ _).
  assert (H1 : mapm (start1 v f fr h) (hist_part hist) = Ok (match hist with Some _ => [h] | None => [] end)).
  { destruct hist as [nb|] eqn:EH; [|reflexivity]. cbn [hist_part mapm]. unfold start1, base_is. pose proof (HB nb eq_refl) as B; unfold based in B; rewrite !B; reflexivity. }
  rewrite H1. cbn [bind].
  assert (S1 : mapm (start1 v f fr h) (if single (nf_lay f) then [] else [subpt_dim (nf_lay f) (nf_tag f)]) = Ok (if single (nf_lay f) then [] else [0])).
  { destruct (single (nf_lay f)) eqn:ES; [reflexivity|]. cbn [mapm]. unfold start1, grid_axis, base_is. pose proof (SB eq_refl) as B; unfold based in B; rewrite !B; reflexivity. }
  rewrite S1. cbn [bind].
  assert (G1 : mapm (start1 v f fr h) (grid_part (nf_dom f)) = Ok (nf_loc f)).
  { unfold grid_part, start1, grid_axis, base_is. set (dom := nf_dom f) in *. destruct (nf_loc f) as [|a [|b [|c [|d r]]]], dom as [|a' [|b' [|c' [|d' r']]]]; cbn in L3, LL; try lia; reflexivity. }
  rewrite G1. cbn [bind]. now rewrite <- !app_assoc.
Qed.

Lemma count_vector : length (l_pix (nf_lay f)) = length (nf_dom f) ->
  get_count_global v f = Ok (header hidden hist 1 1 ++ body_shape (nf_lay f)).
Proof.
  destruct R as (-> & L3 & TK & SB & HB & TB). intros LL. unfold get_count_global. cbn [v_dims].
  rewrite !mapm_app, tensor_counts by assumption. rewrite subpt_dims_eq. unfold header, sub_part, body_shape.
  replace (mapm _ (frame_part hidden)) with (Ok (if hidden then [] else [1])) by now destruct hidden. cbn [bind].
  assert (H1 : mapm (count1 f) (hist_part hist) = Ok (match hist with Some _ => [1] | None => [] end)).
  { destruct hist as [nb|] eqn:EH; [|reflexivity]. cbn [hist_part mapm]. unfold count1, base_is. pose proof (HB nb eq_refl) as B; unfold based in B; rewrite !B; reflexivity. }
  rewrite H1. cbn [bind].
  assert (S1 : mapm (count1 f) (if single (nf_lay f) then [] else [subpt_dim (nf_lay f) (nf_tag f)]) = Ok (sub_part (nf_lay f) (l_nsub (nf_lay f)))).
  { unfold sub_part. destruct (single (nf_lay f)) eqn:ES; [reflexivity|]. cbn [mapm]. unfold count1, grid_axis, base_is. pose proof (SB eq_refl) as B; unfold based in B; rewrite !B; reflexivity. }
  rewrite S1. cbn [bind].
  assert (G1 : mapm (count1 f) (grid_part (nf_dom f)) = Ok (l_pix (nf_lay f))).
  { unfold grid_part, count1, grid_axis, base_is. set (dom := nf_dom f) in *. destruct (l_pix (nf_lay f)) as [|a [|b [|c [|d r]]]], dom as [|a' [|b' [|c' [|d' r']]]]; cbn in L3, LL; try lia; reflexivity. }
  rewrite G1. cbn [bind]. unfold sub_part. now rewrite <- !app_assoc.
Qed.

Lemma stride_vector : get_nc_stride v =
  Ok (header hidden hist 1 (hist_nb hist) ++ repeat 1 (length (l_comp (nf_lay f)) + length (sub_part (nf_lay f) 0) + length (nf_dom f))).
Proof.
  destruct R as (-> & L3 & TK & SB & HB & TB). unfold get_nc_stride. cbn [v_dims].
  set (v := mk_ncvar _ _ _).
  rewrite !mapm_app, tensor_strides by assumption. rewrite subpt_dims_eq. unfold header, sub_part.
  replace (mapm _ (frame_part hidden)) with (Ok (if hidden then [] else [1])) by now destruct hidden. cbn [bind].
  assert (H1 : mapm (stride1 v) (hist_part hist) = Ok (match hist with Some _ => [hist_nb hist] | None => [] end)).
  { destruct hist as [nb|] eqn:EH; [|reflexivity]. cbn [hist_part mapm]. unfold stride1, base_is. pose proof (HB nb eq_refl) as B; unfold based in B; rewrite !B; reflexivity. }
  rewrite H1. cbn [bind].
  assert (S1 : mapm (stride1 v) (if single (nf_lay f) then [] else [subpt_dim (nf_lay f) (nf_tag f)]) = Ok (repeat 1 (length (sub_part (nf_lay f) 0)))).
  { unfold sub_part. destruct (single (nf_lay f)) eqn:ES; [reflexivity|]. cbn [mapm]. unfold stride1, grid_axis, base_is. pose proof (SB eq_refl) as B; unfold based in B; rewrite !B; reflexivity. }
  rewrite S1. cbn [bind].
  assert (G1 : mapm (stride1 v) (grid_part (nf_dom f)) = Ok (repeat 1 (length (nf_dom f)))).
  { unfold grid_part, stride1, grid_axis, base_is. set (dom := nf_dom f) in *. destruct dom as [|a' [|b' [|c' [|d' r']]]]; cbn in L3; try lia; reflexivity. }
  rewrite G1. cbn [bind]. unfold sub_part. rewrite !repeat_app. now rewrite <- !app_assoc.
Qed.

Lemma dims_length : length (v_dims v) = (length (header hidden hist 0 0) + (length (l_comp (nf_lay f)) + (length (sub_part (nf_lay f) 0) + length (nf_dom f))))%nat.
Proof.
  destruct R as (-> & L3 & _). cbn [v_dims]. rewrite subpt_dims_eq, !app_length, tensor_dims_length.
  unfold header, sub_part, grid_part. rewrite app_length, map_length, combine_length.
  replace (Nat.min (length grid_names) (length (nf_dom f))) with (length (nf_dom f)) by (cbn [grid_names length]; lia).
  destruct hidden, hist, (single (nf_lay f)); cbn; lia.
Qed.

Lemma v_hist_eq : v_hist v = hist.
Proof. now destruct R as (-> & _). Qed.
Lemma v_name_eq : v_name v = name.
Proof. now destruct R as (-> & _). Qed.

Lemma frame_found : existsb (fun d => String.eqb (d_name d) "frame") (v_dims v) = negb hidden.
Proof.
  destruct R as (-> & L3 & TK & SB & HB & TB). cbn [v_dims]. rewrite subpt_dims_eq, !existsb_app.
  assert (E1 : existsb (fun d => String.eqb (d_name d) "frame") (hist_part hist) = false) by now destruct hist.
  assert (E2 : existsb (fun d => String.eqb (d_name d) "frame") (tensor_dims name 0 (l_comp (nf_lay f))) = false).
  { apply not_true_is_false. intros E. apply existsb_exists in E. destruct E as (d & I & E). apply String.eqb_eq in E.
    destruct (tensor_dims_in _ _ _ _ I) as (j & _ & ->). discriminate E. }
  assert (E3 : existsb (fun d => String.eqb (d_name d) "frame") (if single (nf_lay f) then [] else [subpt_dim (nf_lay f) (nf_tag f)]) = false) by now destruct (single _).
  assert (E4 : existsb (fun d => String.eqb (d_name d) "frame") (grid_part (nf_dom f)) = false).
  { unfold grid_part. set (dom := nf_dom f) in *. destruct dom as [|a' [|b' [|c' [|d' r']]]]; cbn in L3; try lia; reflexivity. }
  rewrite E1, E2, E3, E4. now destruct hidden.
Qed.

(** Strides in memory along the axes of the file. *)
Definition body_strides (s : list Z) : Prop := get_strides (nf_lay f) (if single (nf_lay f) then Pixel else SubPt) 1 = Ok s.

Lemma imap_vector : (hidden = true -> single (nf_lay f) = true /\ hist = None) -> sane (nf_lay f) ->
  length (l_pix (nf_lay f)) = length (nf_dom f) -> (l_nbc (nf_lay f) = 1 -> l_nsub (nf_lay f) = 1) ->
  exists a b s, get_nc_imap v f = Ok (header hidden hist a b ++ s) /\ body_strides s /\
    embeds (body_shape (nf_lay f)) s (buffer_scalars (nf_lay f)) /\
    (forall c q x t, indexes (nf_lay f) c q x -> get_strides (nf_lay f) SubPt 1 = Ok t ->
       off s (c ++ sub_part (nf_lay f) q ++ x) = off t (c ++ q :: x)).
Proof.
  intros HH Sn LP N1. unfold get_nc_imap. set (l := nf_lay f) in *.
  assert (ES : single l = (l_nbc l =? 1)).
  { unfold single. destruct (Z.eqb_spec (l_nbc l) 1) as [E|E]; [|reflexivity]. rewrite N1 by exact E. reflexivity. }
  rewrite <- ES. unfold body_strides. fold l.
  assert (S : exists s, get_strides l (if single l then Pixel else SubPt) 1 = Ok s /\ embeds (body_shape l) s (buffer_scalars l)).
  { unfold body_shape, sub_part. destruct (single l) eqn:E.
    - assert (K : l_nsub l = 1) by (apply N1; unfold single in E; apply andb_true_iff in E; now apply Z.eqb_eq).
      assert (P : exists s, get_strides l Pixel 1 = Ok s /\ embeds (get_shape l Pixel) s (buffer_scalars l)).
      { pose proof Sn as (_ & _ & _ & [O|O] & _); [apply pixel_view_col|apply pixel_view_row_single]; auto. }
      destruct P as (s & P1 & P2). exists s. split; [exact P1|]. unfold get_shape, get_sub_pt_shape in P2. rewrite K in P2. cbn [Z.ltb Z.compare] in P2. exact P2.
    - destruct (sub_pt_embeds l Sn) as (s & P1 & P2). exists s. split; [exact P1|]. unfold get_shape, get_sub_pt_shape in P2. now rewrite <- app_assoc in P2. }
  destruct S as (s & S1 & S2). rewrite S1. cbn [bind]. rewrite v_hist_eq, frame_found.
  set (all := l_npix l * nb_dof_per_pixel l). pose proof dims_length as DL. fold l in DL.
  assert (Len : length s = (length (l_comp l) + (length (sub_part l 0) + length (nf_dom f)))%nat).
  { destruct S2 as (-> & _). unfold body_shape, sub_part. rewrite !app_length, LP. destruct (single l); reflexivity. }
  exists (match hist with None => all | Some nb => all * nb end), all, s. split; [|split; [reflexivity|split; [exact S2|]]].
  - destruct hidden; cbn [negb].
    + destruct (HH eq_refl) as [_ HN]. rewrite HN in *. rewrite DL. unfold header. cbn [app length].
      rewrite Len. rewrite (proj2 (Nat.ltb_ge _ _)) by lia.
      replace (S _ - _)%nat with 1%nat by lia. reflexivity.
    + unfold header. destruct hist; reflexivity.
  - intros c q x t (Hc & Hq & Hx) Ht. unfold sub_part. destruct (single l) eqn:E.
    + assert (K : l_nsub l = 1) by (apply N1; unfold single in E; apply andb_true_iff in E; now apply Z.eqb_eq).
      assert (q = 0) as -> by lia. cbn [app].
      destruct (pixel_view_single l s t c x Sn K S1 Ht Hc Hx) as (_ & _ & P). exact P.
    + rewrite S1 in Ht. apply Ok_inj in Ht. subst t. reflexivity.
Qed.
End Vectors.
