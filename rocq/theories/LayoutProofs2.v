(** Pixel view, layout comparison, reshape, and the layouts that collections
    produce. *)
From Verif Require Import Base CIntModel GridModel GridSpec GridProofs GridProofs2 GridProofs3 StridedProofs LayoutModel LayoutSpec LayoutProofs.

(** ** Pixel view, column-major *)
Lemma running_mul_last a l k : running a (mul_last l k) = running a l.
Proof.
  revert a; induction l as [|x r IH]; intros a; [reflexivity|]. destruct r as [|y r]; [reflexivity|].
  cbn [mul_last]. change (running a (x :: mul_last (y :: r) k) = running a (x :: y :: r)). cbn [running].
  rewrite IH. reflexivity.
Qed.

Lemma zprod_mul_last l k : l <> [] -> zprod (mul_last l k) = zprod l * k.
Proof.
  induction l as [|x r IH]; intros H; [congruence|]. destruct r as [|y r].
  - unfold zprod; cbn [mul_last fold_right]. ring.
  - change (mul_last (x :: y :: r) k) with (x :: mul_last (y :: r) k). rewrite !zprod_cons, IH by discriminate.
    rewrite zprod_cons. ring.
Qed.

Lemma mul_last_length l k : length (mul_last l k) = length l.
Proof. induction l as [|x r IH]; [reflexivity|]. destruct r; [reflexivity|]. cbn [mul_last length] in *. now rewrite IH. Qed.

Lemma mul_last_pos l k : 0 < k -> Forall (fun x => 0 < x) l -> Forall (fun x => 0 < x) (mul_last l k).
Proof.
  intros Hk. induction l as [|x r IH]; intros H; [constructor|]. apply Forall_cons_iff in H. destruct H as [Hx Hr].
  destruct r as [|y r]; [constructor; [now apply Z.mul_pos_pos|constructor]|].
  cbn [mul_last]. constructor; [exact Hx|]. now apply IH.
Qed.

Lemma mul_last_app l b k : mul_last (l ++ [b]) k = l ++ [b * k].
Proof.
  induction l as [|x r IH]; [reflexivity|]. cbn [app]. destruct (r ++ [b]) eqn:E.
  - destruct r; discriminate.
  - cbn [mul_last]. change (x :: mul_last (z :: l) k = x :: r ++ [b * k]). now rewrite IH.
Qed.

(** Component part of the pixel shape. *)
Definition pixel_comp (f : layout) : list Z := get_sub_pt_shape f Pixel.

Lemma pixel_strides_col f : l_order f = ColMajor -> get_strides f Pixel 1 =
  Ok (running 1 (l_comp f) ++ map (fun x => x * (l_nbc f * l_nsub f)) (l_pstr f)).
Proof.
  intros H. unfold get_strides, get_sub_pt_strides, get_components_strides, get_pixels_strides, nb_dof_per_pixel.
  rewrite H. cbn [bind]. now rewrite map_mul_1.
Qed.
Lemma pixel_strides_row f : l_order f = RowMajor -> get_strides f Pixel 1 =
  Ok (map (fun x => x * l_nbuf f) (rev (running 1 (rev (l_comp f)))) ++ l_pstr f).
Proof.
  intros H. unfold get_strides, get_sub_pt_strides, get_components_strides, get_pixels_strides.
  rewrite H. cbn [bind]. now rewrite map_mul_1.
Qed.

Lemma pixel_comp_col f : 0 < l_nsub f -> Forall (fun x => 0 < x) (l_comp f) -> l_comp f <> [] \/ l_nsub f = 1 ->
  bijective_on (pixel_comp f) (running 1 (l_comp f)) (zprod (l_comp f) * l_nsub f).
Proof.
  intros Hs Hp H. unfold pixel_comp, get_sub_pt_shape. destruct (Z.ltb_spec 1 (l_nsub f)).
  - destruct (l_comp f) as [|x r] eqn:E; [destruct H as [H|H]; [congruence|lia]|]. rewrite <- E in *.
    rewrite <- zprod_mul_last by congruence. rewrite <- (running_mul_last 1 (l_comp f) (l_nsub f)).
    apply bij_running. now apply mul_last_pos.
  - replace (l_nsub f) with 1 by lia. rewrite Z.mul_1_r. now apply bij_running.
Qed.

Lemma pixel_view_col f : sane f -> l_order f = ColMajor -> l_comp f <> [] \/ l_nsub f = 1 ->
  exists s, get_strides f Pixel 1 = Ok s /\ embeds (get_shape f Pixel) s (buffer_scalars f).
Proof.
  intros (Hc & Hp & Hs & _ & He) Ho H. rewrite pixel_strides_col by assumption. eexists; split; [reflexivity|].
  unfold get_shape, buffer_scalars. replace (l_nsub f * l_nbuf f * l_nbc f) with (l_nbc f * l_nsub f * l_nbuf f) by ring.
  apply embeds_inner_first; [|assumption]. rewrite Hc. apply (proj1 (bij_split _ _ _)). now apply pixel_comp_col.
Qed.

Lemma comp_onto f : 0 < l_nsub f -> Forall (fun x => 0 < x) (l_comp f) ->
  bijective_on (l_comp f ++ [l_nsub f]) (running 1 (l_comp f) ++ map (fun x => x * zprod (l_comp f)) [1]) (zprod (l_comp f) * l_nsub f).
Proof.
  intros Hs Hp. apply bij_inner_first; [now apply zprod_pos|now apply bij_running|apply bij_single].
Qed.

(** Two views built over component parts that are bijective onto the same block
    reach the same cells. *)
Lemma same_cells n s n' s' k np sp m :
  bijective_on n s k -> bijective_on n' s' k -> length sp = length np ->
  forall c, in_shape (n ++ np) c -> exists c', in_shape (n' ++ np) c' /\
    off (s' ++ map (fun x => x * m) sp) c' = off (s ++ map (fun x => x * m) sp) c.
Proof.
  intros (L & W & _) (L' & _ & _ & O') Lp c Hc. apply in_shape_app in Hc. destruct Hc as (c1 & c2 & -> & H1 & H2).
  destruct (O' (off s c1) (W c1 H1)) as (c1' & H1' & E). exists (c1' ++ c2). split; [apply in_shape_app; eauto|].
  rewrite !off_app by (rewrite ?L, ?L'; now apply in_shape_length). now rewrite E.
Qed.

Lemma pixel_view_same_cells f : sane f -> l_order f = ColMajor -> l_comp f <> [] \/ l_nsub f = 1 ->
  exists sp ss, get_strides f Pixel 1 = Ok sp /\ get_strides f SubPt 1 = Ok ss /\
    (forall c, in_shape (get_shape f Pixel) c -> exists c', in_shape (get_shape f SubPt) c' /\ off ss c' = off sp c) /\
    (forall c, in_shape (get_shape f SubPt) c -> exists c', in_shape (get_shape f Pixel) c' /\ off sp c' = off ss c).
Proof.
  intros (Hc & Hp & Hs & _ & (Lp & _)) Ho H. rewrite pixel_strides_col, strides_col by assumption.
  eexists; eexists. split; [reflexivity|]. split; [reflexivity|]. unfold get_shape. rewrite Hc.
  pose proof (pixel_comp_col f Hs Hp H) as B1. pose proof (comp_onto f Hs Hp) as B2. unfold pixel_comp in B1.
  split; intros c; eapply same_cells; eassumption.
Qed.

(** Explicit correspondence: sub-point [q] of the last component index [x]. *)
Lemma pixel_view_formula f lead b sp ss c x q p :
  sane f -> l_order f = ColMajor -> l_comp f = lead ++ [b] -> 1 < l_nsub f ->
  get_strides f Pixel 1 = Ok sp -> get_strides f SubPt 1 = Ok ss ->
  in_shape lead c -> in_shape (l_pix f) p ->
  get_shape f Pixel = lead ++ [b * l_nsub f] ++ l_pix f /\
  off sp (c ++ [x + b * q] ++ p) = off ss (c ++ [x] ++ [q] ++ p).
Proof.
  intros (Hc & Hp & Hs & _ & (Lp & _)) Ho E Hq H1 H2 Hl Hpix. split.
  { unfold get_shape, get_sub_pt_shape. replace (1 <? l_nsub f) with true by lia. rewrite E, mul_last_app.
    destruct lead; cbn [app]; rewrite <- ?app_assoc; reflexivity. }
  rewrite pixel_strides_col in H1 by assumption. rewrite strides_col in H2 by assumption.
  apply Ok_inj in H1, H2. subst sp ss. apply in_shape_length in Hl, Hpix.
  rewrite Hc, E, running_app, zprod_app, Z.mul_1_l. cbn [running].
  rewrite <- !app_assoc. rewrite !(off_app (running 1 lead)) by (now rewrite running_length). cbn [app map]. rewrite !off_cons.
  rewrite !off_scale by congruence. rewrite zprod_cons. unfold zprod; cbn [fold_right]. ring.
Qed.

(** One sub-point: both views coincide, in both storage orders. *)
Lemma pixel_view_single f sp ss c p :
  sane f -> l_nsub f = 1 -> get_strides f Pixel 1 = Ok sp -> get_strides f SubPt 1 = Ok ss ->
  in_shape (l_comp f) c -> in_shape (l_pix f) p ->
  get_shape f Pixel = l_comp f ++ l_pix f /\ get_shape f SubPt = l_comp f ++ [1] ++ l_pix f /\
  off sp (c ++ p) = off ss (c ++ [0] ++ p).
Proof.
  intros (Hc & Hp & Hs & Ho & (Lp & _)) H1 H2 H3 Hl Hpix. split; [|split].
  - unfold get_shape, get_sub_pt_shape. rewrite H1. reflexivity.
  - unfold get_shape, get_sub_pt_shape. rewrite H1, <- app_assoc. reflexivity.
  - apply in_shape_length in Hl, Hpix. destruct Ho as [Ho|Ho].
    + rewrite pixel_strides_col in H2 by assumption. rewrite strides_col in H3 by assumption.
      apply Ok_inj in H2, H3. subst sp ss. rewrite <- !app_assoc. rewrite !(off_app (running 1 (l_comp f))) by (now rewrite running_length).
      cbn [app map]. rewrite !off_cons, !off_scale by congruence. ring.
    + rewrite pixel_strides_row in H2 by assumption. rewrite strides_row in H3 by assumption.
      apply Ok_inj in H2, H3. subst sp ss. rewrite map_app, <- !app_assoc.
      rewrite !off_app by (now rewrite ?map_length, rev_length, running_length, rev_length).
      cbn [app map]. rewrite !off_cons, !off_scale by (now rewrite ?map_length, rev_length, running_length, rev_length).
      rewrite H1. ring.
Qed.

Lemma pixel_view_row_single f : sane f -> l_order f = RowMajor -> l_nsub f = 1 ->
  exists s, get_strides f Pixel 1 = Ok s /\ embeds (get_shape f Pixel) s (buffer_scalars f).
Proof.
  intros (Hc & Hp & Hs & _ & He) Ho H. rewrite pixel_strides_row by assumption. eexists; split; [reflexivity|].
  unfold get_shape, get_sub_pt_shape, buffer_scalars. rewrite H. cbn [Z.ltb Z.compare].
  replace (1 * l_nbuf f * l_nbc f) with (l_nbuf f * l_nbc f) by ring. change (1 <? 1) with false. cbv iota.
  apply embeds_inner_last; [|assumption]. rewrite Hc. apply (proj1 (bij_split _ _ _)). now apply bij_rowmajor.
Qed.

(** ** Row-major pixel view aliases *)
Lemma last_big l : Forall (fun x => 0 < x) l -> 1 < zprod l -> exists l1 a l2, l = l1 ++ a :: l2 /\ 1 < a /\ zprod l2 = 1.
Proof.
  induction l as [|x r IH]; intros Hp H.
  - unfold zprod in H; cbn in H. lia.
  - apply Forall_cons_iff in Hp. destruct Hp as [Hx Hr].
    destruct (Z.eq_dec (zprod r) 1) as [E|E].
    + exists [], x, r. split; [reflexivity|]. rewrite zprod_cons, E in H. split; [lia|exact E].
    + pose proof (zprod_pos r Hr). destruct IH as (l1 & a & l2 & -> & Ha & H2); [assumption|lia|].
      exists (x :: l1), a, l2. auto.
Qed.

Lemma in_shape_zeros l : Forall (fun x => 0 < x) l -> in_shape l (repeat 0 (length l)).
Proof.
  induction l as [|x r IH]; intros H; [now apply in_shape_nil|]. apply Forall_cons_iff in H. destruct H as [Hx Hr].
  apply in_shape_cons. exists 0, (repeat 0 (length r)). split; [reflexivity|]. split; [lia|]. now apply IH.
Qed.

Lemma off_zeros s : off s (repeat 0 (length s)) = 0.
Proof. induction s as [|x r IH]; [reflexivity|]. cbn [length repeat]. rewrite off_cons, IH. lia. Qed.

Lemma rowmajor_app l m : rev (running 1 (rev (l ++ m))) = map (fun x => x * zprod m) (rev (running 1 (rev l))) ++ rev (running 1 (rev m)).
Proof.
  rewrite rev_app_distr, running_app, rev_app_distr. f_equal. rewrite Z.mul_1_l, running_scale, map_rev.
  f_equal. apply map_ext. intros x. f_equal. apply zprod_perm, Permutation_sym, Permutation_rev.
Qed.

Lemma pixel_view_row_alias f lead b :
  sane f -> l_order f = RowMajor -> l_comp f = lead ++ [b] -> 1 < zprod lead -> 1 < l_nsub f ->
  Forall (fun x => 0 < x) (l_pix f) ->
  exists s c c', get_strides f Pixel 1 = Ok s /\ in_shape (get_shape f Pixel) c /\ in_shape (get_shape f Pixel) c' /\
    c <> c' /\ off s c = off s c'.
Proof.
  intros (Hc & Hp & Hs & _ & (Lp & _)) Ho E Hl Hq Hpix. rewrite E in Hp. apply Forall_app in Hp. destruct Hp as [Hlead Hb].
  apply Forall_inv in Hb.
  destruct (last_big lead Hlead Hl) as (l1 & a & l2 & -> & Ha & H2).
  assert (P1 : Forall (fun x => 0 < x) l1) by (apply Forall_app in Hlead; tauto).
  assert (P2 : Forall (fun x => 0 < x) l2) by (apply Forall_app in Hlead; destruct Hlead as [_ X]; now apply Forall_inv_tail in X).
  set (z1 := repeat 0 (length l1)). set (z2 := repeat 0 (length l2)). set (zp := repeat 0 (length (l_pix f))).
  rewrite pixel_strides_row by assumption. eexists. exists (z1 ++ [1] ++ z2 ++ [0] ++ zp), (z1 ++ [0] ++ z2 ++ [b] ++ zp).
  split; [reflexivity|].
  assert (S : get_shape f Pixel = l1 ++ [a] ++ l2 ++ [b * l_nsub f] ++ l_pix f).
  { unfold get_shape, get_sub_pt_shape. replace (1 <? l_nsub f) with true by lia.
    rewrite E, mul_last_app. destruct l1; cbn [app]; rewrite <- ?app_assoc; cbn [app]; rewrite <- ?app_assoc; reflexivity. }
  assert (G : forall x y, 0 <= x < a -> 0 <= y < b * l_nsub f -> in_shape (get_shape f Pixel) (z1 ++ [x] ++ z2 ++ [y] ++ zp)).
  { intros x y Hx Hy. rewrite S. apply in_shape_app. exists z1, ([x] ++ z2 ++ [y] ++ zp). split; [reflexivity|].
    split; [now apply in_shape_zeros|]. apply in_shape_cons. exists x, (z2 ++ [y] ++ zp). split; [reflexivity|]. split; [exact Hx|].
    apply in_shape_app. exists z2, ([y] ++ zp). split; [reflexivity|]. split; [now apply in_shape_zeros|].
    apply in_shape_cons. exists y, zp. split; [reflexivity|]. split; [exact Hy|]. now apply in_shape_zeros. }
  split; [apply G; nia|]. split; [apply G; nia|]. split.
  - intros X. apply app_inv_head in X. discriminate.
  - rewrite E. rewrite <- app_assoc. cbn [app]. rewrite rowmajor_app, rowmajor_cons, rowmajor_app.
    rewrite zprod_app, H2. cbn [rev app running]. rewrite !map_app. cbn [map]. rewrite <- !app_assoc. cbn [map app].
    assert (O : forall x y R1 R2, length R1 = length l1 -> length R2 = length l2 ->
      forall t1 t2, off (R1 ++ t1 :: R2 ++ t2 :: l_pstr f) (z1 ++ x :: z2 ++ y :: zp) = t1 * x + t2 * y).
    { intros x y R1 R2 L1 L2 t1 t2. rewrite off_app by (unfold z1; now rewrite repeat_length).
      rewrite off_cons. rewrite off_app by (unfold z2; now rewrite repeat_length). rewrite off_cons.
      unfold z1, z2, zp. rewrite <- L1, <- L2, <- Lp, !off_zeros. lia. }
    rewrite (O 1 0), (O 0 b) by (now rewrite ?map_length, ?rev_length, ?running_length, ?rev_length).
    unfold zprod; cbn [fold_right]. ring.
Qed.

(** Empty component shape and several sub-points: the number of strides does
    not match the number of axes. *)
Lemma pixel_view_scalar_rank f s : l_comp f = [] -> 1 < l_nsub f -> length (l_pstr f) = length (l_pix f) ->
  get_strides f Pixel 1 = Ok s -> length (get_shape f Pixel) = S (length s).
Proof.
  intros E H L. unfold get_strides, get_sub_pt_strides, get_components_strides, get_pixels_strides, get_shape, get_sub_pt_shape.
  rewrite E. replace (1 <? l_nsub f) with true by lia.
  destruct (l_order f); cbn [bind rev running map app]; intros X; try discriminate; apply Ok_inj in X; subst s;
    cbn [app length]; rewrite !map_length; congruence.
Qed.

(** ** Comparing layouts *)
Lemma zlist_eqb_eq a : forall b, zlist_eqb a b = true <-> a = b.
Proof.
  induction a as [|x a IH]; intros [|y b]; cbn [zlist_eqb]; split; intros H; try discriminate; try reflexivity.
  - apply andb_true_iff in H. destruct H as [H1 H2]. apply IH in H2. f_equal; [lia|exact H2].
  - injection H as -> ->. rewrite Z.eqb_refl. now apply IH.
Qed.

Lemma running_inj a l : forall l', 0 < a -> Forall (fun x => 0 < x) l -> Forall (fun x => 0 < x) l' ->
  running a l = running a l' -> zprod l = zprod l' -> l = l'.
Proof.
  revert a; induction l as [|n r IH]; intros a [|n' r'] Ha Hl Hl' H E; cbn [running] in H; try discriminate; [reflexivity|].
  apply Forall_cons_iff in Hl, Hl'. destruct Hl as [Hn Hr], Hl' as [Hn' Hr'].
  assert (T : running (a * n) r = running (a * n') r') by congruence.
  assert (N : n = n').
  { destruct r as [|m r], r' as [|m' r']; cbn [running] in T; try discriminate.
    - unfold zprod in E; cbn [fold_right] in E. lia.
    - assert (a * n = a * n') by congruence. nia. }
  subst n'. f_equal. apply (IH (a * n)); try assumption; [now apply Z.mul_pos_pos|].
  rewrite !zprod_cons in E. apply Z.mul_reg_l in E; lia.
Qed.

Lemma storder_eqb_eq a b : storder_eqb a b = true <-> a = b.
Proof. destruct a, b; cbn; split; congruence. Qed.

Lemma same_layout_true f g : has_same_memory_layout f g = Ok true ->
  l_pix f = l_pix g /\ l_order f = l_order g /\ l_pstr f = l_pstr g /\ l_nsub f = l_nsub g /\
  exists s, get_components_strides f 1 = Ok s /\ get_components_strides g 1 = Ok s.
Proof.
  unfold has_same_memory_layout. destruct (collection_same_layout f g && (l_nsub f =? l_nsub g)) eqn:E; [|discriminate].
  unfold collection_same_layout in E. rewrite !andb_true_iff, !zlist_eqb_eq, storder_eqb_eq in E.
  destruct E as [[[E1 E2] E3] E4].
  destruct (get_components_strides f 1) as [s| |]; cbn [bind]; try discriminate.
  destruct (get_components_strides g 1) as [t| |]; cbn [bind]; try discriminate.
  intros H. apply Ok_inj in H. apply zlist_eqb_eq in H. subst t. repeat split; try assumption; try lia. eauto.
Qed.

Lemma same_layout_sound f g : sane f -> sane g -> l_nbc f = l_nbc g ->
  get_buffer_size (l_pix f) (l_pstr f) = Ok (l_nbuf f) -> get_buffer_size (l_pix g) (l_pstr g) = Ok (l_nbuf g) ->
  has_same_memory_layout f g = Ok true ->
  l_comp f = l_comp g /\ forall u, get_shape f u = get_shape g u /\ get_strides f u 1 = get_strides g u 1.
Proof.
  intros (Cf & Pf & _ & Of & _) (Cg & Pg & _ & Og & _) Hn Bf Bg H.
  destruct (same_layout_true f g H) as (E1 & E2 & E3 & E4 & s & S1 & S2).
  assert (EB : l_nbuf f = l_nbuf g) by (rewrite E1, E3, Bg in Bf; apply Ok_inj in Bf; congruence).
  assert (EC : l_comp f = l_comp g).
  { unfold get_components_strides in S1, S2. rewrite <- E2 in S2. destruct Of as [O|O]; rewrite O in S1, S2.
    - apply Ok_inj in S1, S2. apply (running_inj 1); try assumption; try lia; congruence.
    - apply Ok_inj in S1, S2. rewrite <- (rev_involutive (l_comp f)), <- (rev_involutive (l_comp g)). f_equal.
      apply (running_inj 1); try lia.
      + now apply Forall_rev.
      + now apply Forall_rev.
      + rewrite <- (rev_involutive (running 1 (rev (l_comp f)))), <- (rev_involutive (running 1 (rev (l_comp g)))). congruence.
      + rewrite <- (zprod_perm _ _ (Permutation_rev (l_comp f))), <- (zprod_perm _ _ (Permutation_rev (l_comp g))). congruence. }
  split; [exact EC|]. intros u. destruct f, g; cbn in *. subst. split; reflexivity.
Qed.

Lemma same_layout_complete f g : l_order f = ColMajor \/ l_order f = RowMajor ->
  l_pix f = l_pix g -> l_order f = l_order g -> l_pstr f = l_pstr g -> l_nsub f = l_nsub g -> l_comp f = l_comp g ->
  has_same_memory_layout f g = Ok true.
Proof.
  intros O E1 E2 E3 E4 E5. unfold has_same_memory_layout, collection_same_layout.
  rewrite E1, E2, E3, E4. rewrite !(proj2 (zlist_eqb_eq _ _) eq_refl), (proj2 (storder_eqb_eq _ _) eq_refl), Z.eqb_refl.
  cbn [andb]. unfold get_components_strides. rewrite E2, E5. destruct O as [O|O]; rewrite E2 in O; rewrite O; cbn [bind];
  now rewrite (proj2 (zlist_eqb_eq _ _) eq_refl).
Qed.

(** ** Reshape *)
Lemma nb_from_shape_exact s : Forall (fun x => 0 < x) s -> zprod s < 2 ^ 31 -> get_nb_from_shape s = zprod s.
Proof.
  intros H1 H2. unfold get_nb_from_shape. apply accumulate_mul_exact_iff. pose proof (zprod_pos s H1). lia.
Qed.

Lemma reshape_sub_iff f shape nsub : Forall (fun x => 0 < x) shape -> zprod shape < 2 ^ 31 ->
  ((exists g, reshape_sub f shape nsub = Ok g) <-> zprod shape * nsub = l_nbc f * l_nsub f) /\
  (zprod shape * nsub <> l_nbc f * l_nsub f -> reshape_sub f shape nsub = Err FieldError) /\
  (forall g, reshape_sub f shape nsub = Ok g -> l_comp g = shape /\ l_nbc g = zprod shape /\ l_nsub g = nsub /\
     l_order g = l_order f /\ l_pix g = l_pix f /\ l_pstr g = l_pstr f /\ l_npix g = l_npix f /\ l_nbuf g = l_nbuf f /\
     buffer_scalars g = buffer_scalars f /\ (sane f -> 0 < nsub -> sane g)).
Proof.
  intros Hp Hv. unfold reshape_sub, nb_dof_per_pixel. rewrite nb_from_shape_exact by assumption.
  destruct (Z.eqb_spec (zprod shape * nsub) (l_nbc f * l_nsub f)) as [E|E]; cbn [negb].
  - split; [split; [intros _; exact E|eauto]|]. split; [contradiction|].
    intros g H. apply Ok_inj in H. subst g. cbn. repeat (split; [reflexivity|]). split.
    + unfold buffer_scalars; cbn. transitivity (l_nbuf f * (zprod shape * nsub)); [ring|]. rewrite E. ring.
    + intros (Hc & _ & _ & Ho & He) Hn. unfold sane; cbn. split; [reflexivity|]. split; [assumption|]. split; [assumption|]. split; assumption.
  - split; [split; [intros (g & H); discriminate|contradiction]|]. split; [reflexivity|discriminate].
Qed.

Lemma reshape_iff f shape : Forall (fun x => 0 < x) shape -> zprod shape < 2 ^ 31 ->
  ((exists g, reshape f shape = Ok g) <-> zprod shape = l_nbc f) /\
  (zprod shape <> l_nbc f -> reshape f shape = Err FieldError) /\
  (forall g, reshape f shape = Ok g -> l_comp g = shape /\ l_nbc g = zprod shape /\ l_nsub g = l_nsub f /\
     l_order g = l_order f /\ l_pix g = l_pix f /\ l_pstr g = l_pstr f /\ l_npix g = l_npix f /\ l_nbuf g = l_nbuf f /\
     buffer_scalars g = buffer_scalars f /\ (sane f -> sane g)).
Proof.
  intros Hp Hv. unfold reshape. rewrite nb_from_shape_exact by assumption.
  destruct (Z.eqb_spec (zprod shape) (l_nbc f)) as [E|E]; cbn [negb].
  - split; [split; [intros _; exact E|eauto]|]. split; [contradiction|].
    intros g H. apply Ok_inj in H. subst g. cbn. repeat (split; [reflexivity|]). split.
    + unfold buffer_scalars; cbn. now rewrite E.
    + intros (Hc & _ & Hs & Ho & He). unfold sane; cbn. split; [reflexivity|]. split; [assumption|]. split; [assumption|]. split; assumption.
  - split; [split; [intros (g & H); discriminate|contradiction]|]. split; [reflexivity|discriminate].
Qed.

(** ** Layouts produced by collections *)
Lemma col_major_running n : col_major_strides n = running 1 n.
Proof.
  apply list_ext; [now rewrite col_major_strides_length, running_length|].
  intros i Hi. rewrite col_major_strides_length in Hi. rewrite zn_col_major by assumption. unfold zn.
  clear -Hi. assert (G : forall a, a * zprod (firstn i n) = nth i (running a n) 0); [|rewrite <- (Z.mul_1_l (zprod _)); apply G].
  revert i Hi; induction n as [|x r IH]; intros [|i] Hi a; simpl in Hi; try lia.
  - cbn [firstn running nth]. unfold zprod; cbn [fold_right]. lia.
  - cbn [firstn running nth]. rewrite zprod_cons, Z.mul_assoc. apply IH. lia.
Qed.

Lemma row_major_running n : row_major_strides n = rev (running 1 (rev n)).
Proof.
  apply list_ext; [now rewrite row_major_strides_length, rev_length, running_length, rev_length|].
  intros i Hi. rewrite row_major_strides_length in Hi. rewrite zn_row_major by assumption. unfold zn.
  revert i Hi; induction n as [|x r IH]; intros i Hi; simpl in Hi; try lia. rewrite rowmajor_cons. cbn [map app].
  destruct i as [|i].
  - cbn [skipn nth]. lia.
  - cbn [nth]. rewrite <- IH by lia. reflexivity.
Qed.

Lemma get_index_off s loc c i : get_index_from_strides s loc c = Ok i -> length loc = length c ->
  i = off s (map (fun p => fst p - snd p) (combine c loc)).
Proof.
  unfold get_index_from_strides. destruct (Nat.eqb_spec (length loc) (length s)); cbn [negb]; [|discriminate].
  destruct (Nat.eqb_spec (length c) (length s)); cbn [negb]; [|discriminate]. intros H _. apply Ok_inj in H. subst i.
  unfold stride_sum.
  assert (G : forall s loc c a, length loc = length s -> length c = length s ->
    fold_left (fun acc p => acc + fst p * (snd (snd p) - fst (snd p))) (combine s (combine loc c)) a =
    a + off s (map (fun p => fst p - snd p) (combine c loc))).
  { clear. intros s; induction s as [|x s IH]; intros [|l loc] [|y c] a H1 H2; simpl in H1, H2; try lia.
    - cbn. lia.
    - cbn [combine fold_left map fst snd]. rewrite IH by lia. rewrite off_cons. ring. }
  rewrite G by assumption. lia.
Qed.

Lemma in_box_zero n c : in_box n (repeat 0 (length n)) c <-> in_shape n c.
Proof.
  unfold in_box, in_shape. split; intros [L H]; (split; [exact L|]); intros i Hi; specialize (H i Hi); unfold zn in *.
  - rewrite nth_repeat in H. lia.
  - rewrite nth_repeat. lia.
Qed.

Lemma combine_zero c : map (fun p => fst p - snd p) (combine c (repeat 0 (length c))) = c.
Proof. induction c as [|x c IH]; [reflexivity|]. cbn [length repeat combine map fst snd]. rewrite IH. f_equal. lia. Qed.

Lemma nested_embeds n s order v : nested n s order -> n <> [] -> Forall (fun x => 0 < x) n ->
  get_buffer_size n s = Ok v -> embeds n s v.
Proof.
  intros Hn Hne Hp Hv. pose proof Hn as (Ls & _). split; [exact Ls|].
  assert (X : forall c, in_shape n c -> exists i, get_index_from_strides s (repeat 0 (length n)) c = Ok i /\ i = off s c /\
     get_ccoord_from_axes_order n (repeat 0 (length n)) s (compute_axes_order n s) i = Ok c).
  { intros c Hc. pose proof (in_shape_length _ _ Hc) as Lc. apply in_box_zero in Hc.
    destruct (nested_roundtrip n (repeat 0 (length n)) s order (compute_axes_order n s) c Hn
      (compute_axes_order_outcome n s) ltac:(now rewrite repeat_length) Hc) as (i & E1 & E2).
    exists i. split; [exact E1|]. split; [|exact E2].
    rewrite (get_index_off _ _ _ _ E1) by (rewrite repeat_length; congruence). now rewrite <- Lc, combine_zero. }
  split.
  - intros c Hc. destruct (X c Hc) as (i & E1 & -> & _).
    refine (nested_buffer_size n s order v (repeat 0 (length n)) c _ Hn Hne Hp _ _ Hv E1); [now rewrite repeat_length|now apply in_box_zero].
  - intros c c' Hc Hc' E. destruct (X c Hc) as (i & _ & -> & E2). destruct (X c' Hc') as (i' & _ & -> & E2').
    rewrite E in E2. rewrite E2 in E2'. apply Ok_inj in E2'. exact E2'.
Qed.

Lemma global_layout_fields order n pstr loc comp nsub f : global_layout order n pstr loc comp nsub = Ok f ->
  l_comp f = comp /\ l_nbc f = get_nb_from_shape comp /\ l_nsub f = nsub /\ l_order f = order /\
  l_pix f = n /\ l_pstr f = pstr /\ l_npix f = get_size n /\ get_buffer_size n pstr = Ok (l_nbuf f).
Proof.
  unfold global_layout, pixels_strided, pixels_strided_with. intros H.
  destruct (is_buffer_contiguous_ax n pstr (compute_axes_order n pstr)) as [b| |]; cbn [bind] in H; try discriminate.
  destruct (negb (length (default_loc n loc) =? length n)%nat); cbn [bind] in H; [discriminate|].
  destruct (negb (length pstr =? length n)%nat); cbn [bind] in H; [discriminate|].
  destruct (get_buffer_size n pstr) as [v| |]; cbn [bind] in H; try discriminate.
  apply Ok_inj in H. subst f. cbn. repeat split.
Qed.

Lemma global_nested_sane order n pstr ord loc comp nsub f :
  global_layout order n pstr loc comp nsub = Ok f -> nested n pstr ord -> n <> [] -> Forall (fun x => 0 < x) n ->
  Forall (fun x => 0 < x) comp -> zprod comp < 2 ^ 31 -> 0 < nsub -> order = ColMajor \/ order = RowMajor -> sane f.
Proof.
  intros H Hn Hne Hp Hc Hv Hs Ho. destruct (global_layout_fields _ _ _ _ _ _ _ H) as (E1 & E2 & E3 & E4 & E5 & E6 & _ & E7).
  unfold sane. rewrite E1, E2, E3, E4, E5, E6. rewrite nb_from_shape_exact by assumption.
  repeat (split; [assumption || reflexivity|]). now apply (nested_embeds n pstr ord).
Qed.

Lemma get_size_zprod n : get_size n = zprod n.
Proof. unfold get_size. rewrite fold_left_mul. lia. Qed.

Lemma global_order_dense order porder n loc comp nsub f :
  global_layout_order order porder n loc comp nsub = Ok f -> Forall (fun x => 0 < x) n ->
  Forall (fun x => 0 < x) comp -> zprod comp < 2 ^ 31 -> 0 < nsub -> order = ColMajor \/ order = RowMajor ->
  sane_dense f /\ l_nbuf f = zprod n /\ l_npix f = zprod n /\ l_pix f = n /\ l_comp f = comp /\ l_nsub f = nsub /\ l_order f = order.
Proof.
  intros H Hp Hc Hv Hs Ho. unfold global_layout_order in H.
  set (po := match porder with Automatic => order | _ => porder end) in H.
  destruct (pixel_strides_for po n) as [s| |] eqn:Es; cbn [bind] in H; try discriminate.
  destruct (global_layout_fields _ _ _ _ _ _ _ H) as (E1 & E2 & E3 & E4 & E5 & E6 & E8 & E7).
  assert (Hne : n <> []).
  { intros ->. unfold pixel_strides_for in Es. destruct po; cbn in Es; discriminate. }
  assert (HB : bijective_on n s (zprod n) /\ get_buffer_size n s = Ok (zprod n)).
  { unfold pixel_strides_for in Es. destruct po; cbv iota in Es;
    unfold get_col_major_strides, get_row_major_strides in Es; destruct (dyn_dim_ok n); try discriminate; apply Ok_inj in Es; subst s.
    - split; [rewrite col_major_running; now apply bij_running|].
      apply (dense_buffer_size n _ (seq 0 (length n))); [assumption|assumption|apply col_major_strides_length|reflexivity|apply col_major_dense].
    - split; [rewrite row_major_running; now apply bij_rowmajor|].
      apply (dense_buffer_size n _ (rev (seq 0 (length n)))); [assumption|assumption|apply row_major_strides_length|apply Permutation_sym, Permutation_rev|apply row_major_dense].
    - split; [rewrite row_major_running; now apply bij_rowmajor|].
      apply (dense_buffer_size n _ (rev (seq 0 (length n)))); [assumption|assumption|apply row_major_strides_length|apply Permutation_sym, Permutation_rev|apply row_major_dense].
    - split; [rewrite row_major_running; now apply bij_rowmajor|].
      apply (dense_buffer_size n _ (rev (seq 0 (length n)))); [assumption|assumption|apply row_major_strides_length|apply Permutation_sym, Permutation_rev|apply row_major_dense]. }
  destruct HB as [HB HZ]. rewrite HZ in E7. apply Ok_inj in E7.
  split; [|rewrite E8, get_size_zprod; repeat split; congruence].
  assert (B' : bijective_on (l_pix f) (l_pstr f) (l_nbuf f)) by (rewrite E5, E6, <- E7; exact HB).
  split; [|exact B']. unfold sane. rewrite E1, E2, E3, E4. rewrite nb_from_shape_exact by assumption.
  repeat (split; [assumption || reflexivity|]). now apply bij_split in B'.
Qed.

Lemma local_layout_dense npix comp nsub : 0 <= npix -> Forall (fun x => 0 < x) comp -> zprod comp < 2 ^ 31 -> 0 < nsub ->
  sane_dense (local_layout npix comp nsub).
Proof.
  intros Hn Hc Hv Hs. pose proof (bij_single npix) as B. split; [|exact B].
  unfold sane. cbn [local_layout layout_of_shape l_nbc l_comp l_nsub l_order l_pix l_pstr l_nbuf].
  rewrite nb_from_shape_exact by assumption. split; [reflexivity|]. split; [assumption|]. split; [assumption|].
  split; [now left|]. now apply bij_split in B.
Qed.
