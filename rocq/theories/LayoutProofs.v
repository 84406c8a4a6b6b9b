(** Lemmas about field layouts. *)
From Verif Require Import Base CIntModel GridModel GridSpec GridProofs GridProofs2 GridProofs3 LayoutModel LayoutSpec.

Lemma Ok_inj {A} (a b : A) : Ok a = Ok b -> a = b.
Proof. congruence. Qed.

(** ** Offsets of concatenated indices *)
Lemma zsum_map_ext f g (l : list nat) : (forall i, In i l -> f i = g i) -> zsum (map f l) = zsum (map g l).
Proof. intros H. f_equal. now apply map_ext_in. Qed.

Lemma off_nil c : off [] c = 0.
Proof. reflexivity. Qed.

Lemma off_cons s ss x c : off (s :: ss) (x :: c) = s * x + off ss c.
Proof.
  unfold off. cbn [length seq map]. unfold zsum; cbn [fold_right]. f_equal.
  rewrite <- seq_shift, map_map. reflexivity.
Qed.

Lemma off_app s1 s2 : forall c1 c2, length c1 = length s1 -> off (s1 ++ s2) (c1 ++ c2) = off s1 c1 + off s2 c2.
Proof.
  induction s1 as [|s s1 IH]; intros [|x c1] c2 H; simpl in H; try lia.
  - rewrite off_nil. cbn [app]. lia.
  - cbn [app]. rewrite !off_cons, IH by lia. lia.
Qed.

Lemma off_scale m s : forall c, length c = length s -> off (map (fun x => x * m) s) c = m * off s c.
Proof.
  induction s as [|x s IH]; intros [|y c] H; simpl in H; try lia.
  - cbn [map]. rewrite !off_nil. lia.
  - cbn [map]. rewrite !off_cons, IH by lia. ring.
Qed.

Lemma in_shape_nil c : in_shape [] c <-> c = [].
Proof.
  split.
  - intros [L _]. now apply length_zero_iff_nil.
  - intros ->. split; [reflexivity|]. intros i Hi; simpl in Hi; lia.
Qed.

Lemma in_shape_cons n ns c : in_shape (n :: ns) c <-> exists x r, c = x :: r /\ 0 <= x < n /\ in_shape ns r.
Proof.
  split.
  - intros [L H]. destruct c as [|x r]; [discriminate|]. exists x, r. split; [reflexivity|]. split.
    + apply (H 0%nat). simpl; lia.
    + split; [simpl in L; lia|]. intros i Hi. apply (H (S i)). simpl; lia.
  - intros (x & r & -> & Hx & L & H). split; [simpl; lia|]. intros [|i] Hi; [exact Hx|]. apply H. simpl in Hi; lia.
Qed.

Lemma in_shape_app n1 n2 c : in_shape (n1 ++ n2) c <-> exists c1 c2, c = c1 ++ c2 /\ in_shape n1 c1 /\ in_shape n2 c2.
Proof.
  revert c; induction n1 as [|n n1 IH]; intros c; cbn [app].
  - split.
    + intros H. exists [], c. split; [reflexivity|]. split; [now apply in_shape_nil|exact H].
    + intros (c1 & c2 & -> & H1 & H2). apply in_shape_nil in H1. subst c1. exact H2.
  - rewrite in_shape_cons. split.
    + intros (x & r & -> & Hx & H). apply IH in H. destruct H as (c1 & c2 & -> & H1 & H2).
      exists (x :: c1), c2. split; [reflexivity|]. split; [|exact H2]. apply in_shape_cons. eauto.
    + intros (c1 & c2 & -> & H1 & H2). apply in_shape_cons in H1. destruct H1 as (x & r & -> & Hx & H1).
      exists x, (r ++ c2). split; [reflexivity|]. split; [exact Hx|]. apply IH. eauto.
Qed.

Lemma in_shape_length n c : in_shape n c -> length c = length n.
Proof. now intros [L _]. Qed.

(** ** Composition of layouts *)

Definition onto (n s : list Z) (size : Z) : Prop := forall v, 0 <= v < size -> exists c, in_shape n c /\ off s c = v.

Lemma radix_unique m a b a' b' : 0 <= a < m -> 0 <= a' < m -> a + m * b = a' + m * b' -> a = a' /\ b = b'.
Proof.
  intros Ha Ha' H. assert (b = b') as ->; [|lia].
  assert (E : (a + m * b) / m = b) by (symmetry; apply (Z.div_unique _ _ b a); lia).
  assert (E' : (a' + m * b') / m = b') by (symmetry; apply (Z.div_unique _ _ b' a'); lia).
  rewrite <- E, <- E'. now rewrite H.
Qed.

Lemma embeds_inner_first n1 s1 m n2 s2 k : embeds n1 s1 m -> embeds n2 s2 k ->
  embeds (n1 ++ n2) (s1 ++ map (fun x => x * m) s2) (m * k).
Proof.
  intros (L1 & W1 & I1) (L2 & W2 & I2). split; [now rewrite !app_length, map_length, L1, L2|]. split.
  - intros c Hc. apply in_shape_app in Hc. destruct Hc as (c1 & c2 & -> & H1 & H2).
    rewrite off_app by (rewrite L1; now apply in_shape_length). rewrite off_scale by (rewrite L2; now apply in_shape_length).
    pose proof (W1 c1 H1). pose proof (W2 c2 H2). nia.
  - intros c c' Hc Hc' E. apply in_shape_app in Hc, Hc'.
    destruct Hc as (c1 & c2 & -> & H1 & H2), Hc' as (c1' & c2' & -> & H1' & H2').
    rewrite !off_app in E by (rewrite L1; now apply in_shape_length).
    rewrite !off_scale in E by (rewrite L2; now apply in_shape_length).
    apply radix_unique in E; [|now apply W1|now apply W1]. destruct E as [E1 E2].
    rewrite (I1 c1 c1'), (I2 c2 c2') by assumption. reflexivity.
Qed.

Lemma embeds_inner_last n1 s1 k n2 s2 m : embeds n1 s1 k -> embeds n2 s2 m ->
  embeds (n1 ++ n2) (map (fun x => x * m) s1 ++ s2) (m * k).
Proof.
  intros (L1 & W1 & I1) (L2 & W2 & I2). split; [now rewrite !app_length, map_length, L1, L2|]. split.
  - intros c Hc. apply in_shape_app in Hc. destruct Hc as (c1 & c2 & -> & H1 & H2).
    rewrite off_app by (rewrite map_length, L1; now apply in_shape_length). rewrite off_scale by (rewrite L1; now apply in_shape_length).
    pose proof (W1 c1 H1). pose proof (W2 c2 H2). nia.
  - intros c c' Hc Hc' E. apply in_shape_app in Hc, Hc'.
    destruct Hc as (c1 & c2 & -> & H1 & H2), Hc' as (c1' & c2' & -> & H1' & H2').
    rewrite !off_app in E by (rewrite map_length, L1; now apply in_shape_length).
    rewrite !off_scale in E by (rewrite L1; now apply in_shape_length).
    rewrite !(Z.add_comm (m * _)) in E.
    apply radix_unique in E; [|now apply W2|now apply W2]. destruct E as [E1 E2].
    rewrite (I1 c1 c1'), (I2 c2 c2') by assumption. reflexivity.
Qed.

Lemma onto_inner_first n1 s1 m n2 s2 k : 0 < m -> length s1 = length n1 -> length s2 = length n2 ->
  onto n1 s1 m -> onto n2 s2 k -> onto (n1 ++ n2) (s1 ++ map (fun x => x * m) s2) (m * k).
Proof.
  intros Hm L1 L2 O1 O2 v Hv.
  destruct (O1 (v mod m)) as (c1 & H1 & E1); [now apply Z.mod_pos_bound|].
  destruct (O2 (v / m)) as (c2 & H2 & E2).
  { split; [apply Z.div_pos; lia|]. apply Z.div_lt_upper_bound; lia. }
  exists (c1 ++ c2). split; [apply in_shape_app; eauto|].
  rewrite off_app by (rewrite L1; now apply in_shape_length). rewrite off_scale by (rewrite L2; now apply in_shape_length).
  rewrite E1, E2. pose proof (Z.div_mod v m ltac:(lia)). lia.
Qed.

Lemma onto_inner_last n1 s1 k n2 s2 m : 0 < m -> length s1 = length n1 -> length s2 = length n2 ->
  onto n1 s1 k -> onto n2 s2 m -> onto (n1 ++ n2) (map (fun x => x * m) s1 ++ s2) (m * k).
Proof.
  intros Hm L1 L2 O1 O2 v Hv.
  destruct (O2 (v mod m)) as (c2 & H2 & E2); [now apply Z.mod_pos_bound|].
  destruct (O1 (v / m)) as (c1 & H1 & E1).
  { split; [apply Z.div_pos; lia|]. apply Z.div_lt_upper_bound; lia. }
  exists (c1 ++ c2). split; [apply in_shape_app; eauto|].
  rewrite off_app by (rewrite map_length, L1; now apply in_shape_length). rewrite off_scale by (rewrite L1; now apply in_shape_length).
  rewrite E1, E2. pose proof (Z.div_mod v m ltac:(lia)). lia.
Qed.

Lemma bij_split n s k : bijective_on n s k <-> embeds n s k /\ onto n s k.
Proof. unfold bijective_on, embeds, onto. tauto. Qed.

Lemma bij_inner_first n1 s1 m n2 s2 k : 0 < m -> bijective_on n1 s1 m -> bijective_on n2 s2 k ->
  bijective_on (n1 ++ n2) (s1 ++ map (fun x => x * m) s2) (m * k).
Proof.
  rewrite !bij_split. intros Hm [E1 O1] [E2 O2]. split; [now apply embeds_inner_first|].
  apply onto_inner_first; try assumption; [apply E1|apply E2].
Qed.

Lemma bij_inner_last n1 s1 k n2 s2 m : 0 < m -> bijective_on n1 s1 k -> bijective_on n2 s2 m ->
  bijective_on (n1 ++ n2) (map (fun x => x * m) s1 ++ s2) (m * k).
Proof.
  rewrite !bij_split. intros Hm [E1 O1] [E2 O2]. split; [now apply embeds_inner_last|].
  apply onto_inner_last; try assumption; [apply E1|apply E2].
Qed.

Lemma bij_single n : bijective_on [n] [1] n.
Proof.
  split; [reflexivity|]. split; [|split].
  - intros c Hc. apply in_shape_cons in Hc. destruct Hc as (x & r & -> & Hx & Hr). apply in_shape_nil in Hr. subst r.
    rewrite off_cons, off_nil. lia.
  - intros c c' Hc Hc'. apply in_shape_cons in Hc, Hc'. destruct Hc as (x & r & -> & Hx & Hr), Hc' as (x' & r' & -> & Hx' & Hr').
    apply in_shape_nil in Hr, Hr'. subst r r'. rewrite !off_cons, !off_nil. intros E. f_equal. lia.
  - intros v Hv. exists [v]. split; [|rewrite off_cons, off_nil; lia]. apply in_shape_cons. exists v, []. split; [reflexivity|].
    split; [exact Hv|]. now apply in_shape_nil.
Qed.

Lemma bij_empty : bijective_on [] [] 1.
Proof.
  split; [reflexivity|]. split; [|split].
  - intros c Hc. rewrite off_nil. lia.
  - intros c c' Hc Hc' _. apply in_shape_nil in Hc, Hc'. congruence.
  - intros v Hv. exists []. split; [now apply in_shape_nil|]. rewrite off_nil. lia.
Qed.

(** ** Component strides *)
Lemma running_scale a l : running a l = map (fun x => x * a) (running 1 l).
Proof.
  revert a; assert (G : forall l a b, running (a * b) l = map (fun x => x * b) (running a l)).
  { clear. intros l; induction l as [|n r IH]; intros a b; [reflexivity|]. cbn [running map]. f_equal.
    rewrite <- IH. f_equal. ring. }
  intros a. rewrite <- G. f_equal. lia.
Qed.

Lemma running_length a l : length (running a l) = length l.
Proof. revert a; induction l as [|n r IH]; intros a; simpl; auto. Qed.

Lemma running_app a l m : running a (l ++ m) = running a l ++ running (a * zprod l) m.
Proof.
  revert a; induction l as [|n r IH]; intros a; cbn [app running].
  - unfold zprod; cbn [fold_right]. now rewrite Z.mul_1_r.
  - rewrite IH. unfold zprod; cbn [fold_right]. cbn [app]. rewrite Z.mul_assoc. reflexivity.
Qed.

Lemma zprod_cons x l : zprod (x :: l) = x * zprod l.
Proof. reflexivity. Qed.

Lemma bij_running l : Forall (fun x => 0 < x) l -> bijective_on l (running 1 l) (zprod l).
Proof.
  induction l as [|n r IH]; intros H; [exact bij_empty|].
  apply Forall_cons_iff in H. destruct H as [Hn Hr]. cbn [running]. rewrite Z.mul_1_l, zprod_cons, running_scale.
  change (n :: r) with ([n] ++ r). change (1 :: map (fun x => x * n) (running 1 r)) with ([1] ++ map (fun x => x * n) (running 1 r)).
  apply bij_inner_first; [exact Hn|apply bij_single|now apply IH].
Qed.

Lemma rowmajor_cons n r : rev (running 1 (rev (n :: r))) = map (fun x => x * zprod r) [1] ++ rev (running 1 (rev r)).
Proof.
  cbn [rev]. rewrite running_app, rev_app_distr. rewrite Z.mul_1_l. cbn [running rev app map].
  rewrite Z.mul_1_l. f_equal. apply zprod_perm. apply Permutation_sym, Permutation_rev.
Qed.

Lemma bij_rowmajor l : Forall (fun x => 0 < x) l -> bijective_on l (rev (running 1 (rev l))) (zprod l).
Proof.
  induction l as [|n r IH]; intros H; [exact bij_empty|].
  apply Forall_cons_iff in H. destruct H as [Hn Hr]. rewrite rowmajor_cons, zprod_cons, Z.mul_comm.
  change (n :: r) with ([n] ++ r).
  apply bij_inner_last; [now apply zprod_pos|apply bij_single|now apply IH].
Qed.

(** ** Sub-point view *)
Lemma map_mul_1 (l : list Z) : map (fun s => s * 1) l = l.
Proof. rewrite <- map_id. apply map_ext. intros; lia. Qed.

Lemma strides_col f : l_order f = ColMajor -> get_strides f SubPt 1 =
  Ok ((running 1 (l_comp f) ++ map (fun x => x * l_nbc f) [1]) ++ map (fun x => x * (l_nbc f * l_nsub f)) (l_pstr f)).
Proof.
  intros H. unfold get_strides, get_sub_pt_strides, get_components_strides, get_pixels_strides, nb_dof_per_pixel.
  rewrite H. cbn [bind]. rewrite map_mul_1. cbn [map]. now rewrite Z.mul_1_r, Z.mul_1_l.
Qed.

Lemma strides_row f : l_order f = RowMajor -> get_strides f SubPt 1 =
  Ok (map (fun x => x * l_nbuf f) (map (fun x => x * l_nsub f) (rev (running 1 (rev (l_comp f)))) ++ [1]) ++ l_pstr f).
Proof.
  intros H. unfold get_strides, get_sub_pt_strides, get_components_strides, get_pixels_strides.
  rewrite H. cbn [bind]. now rewrite map_mul_1.
Qed.

Lemma sub_pt_embeds f : sane f -> exists s, get_strides f SubPt 1 = Ok s /\ embeds (get_shape f SubPt) s (buffer_scalars f).
Proof.
  intros (Hc & Hp & Hs & [Ho|Ho] & He).
  - rewrite strides_col by assumption. eexists; split; [reflexivity|]. unfold get_shape, get_sub_pt_shape, buffer_scalars.
    replace (l_nsub f * l_nbuf f * l_nbc f) with (l_nbc f * l_nsub f * l_nbuf f) by ring.
    apply embeds_inner_first; [|assumption]. rewrite Hc.
    apply embeds_inner_first; [apply (proj1 (bij_split _ _ _)), bij_running; assumption|apply (proj1 (bij_split _ _ _)), bij_single].
  - rewrite strides_row by assumption. eexists; split; [reflexivity|]. unfold get_shape, get_sub_pt_shape, buffer_scalars.
    replace (l_nsub f * l_nbuf f * l_nbc f) with (l_nbuf f * (l_nsub f * l_nbc f)) by ring.
    apply embeds_inner_last; [|assumption]. rewrite Hc.
    apply embeds_inner_last; [apply (proj1 (bij_split _ _ _)), bij_rowmajor; assumption|apply (proj1 (bij_split _ _ _)), bij_single].
Qed.

Lemma sub_pt_bij f : sane_dense f -> 0 < l_nbuf f ->
  exists s, get_strides f SubPt 1 = Ok s /\ bijective_on (get_shape f SubPt) s (buffer_scalars f).
Proof.
  intros [(Hc & Hp & Hs & Ho & _) He] Hb.
  assert (Hpos : 0 < zprod (l_comp f)) by now apply zprod_pos.
  destruct Ho as [Ho|Ho].
  - rewrite strides_col by assumption. eexists; split; [reflexivity|]. unfold get_shape, get_sub_pt_shape, buffer_scalars.
    replace (l_nsub f * l_nbuf f * l_nbc f) with (l_nbc f * l_nsub f * l_nbuf f) by ring. rewrite Hc.
    apply bij_inner_first; [now apply Z.mul_pos_pos| |assumption].
    apply bij_inner_first; [assumption|now apply bij_running|apply bij_single].
  - rewrite strides_row by assumption. eexists; split; [reflexivity|]. unfold get_shape, get_sub_pt_shape, buffer_scalars.
    replace (l_nsub f * l_nbuf f * l_nbc f) with (l_nbuf f * (l_nsub f * l_nbc f)) by ring. rewrite Hc.
    apply bij_inner_last; [assumption| |assumption].
    apply bij_inner_last; [assumption|now apply bij_rowmajor|apply bij_single].
Qed.

(** Where exactly a (component, sub-point, pixel) triple lies. *)
Lemma sub_pt_offset f s comp q p :
  sane f -> get_strides f SubPt 1 = Ok s -> in_shape (l_comp f) comp -> in_shape (l_pix f) p ->
  off s (comp ++ [q] ++ p) =
  match l_order f with
  | ColMajor => off (running 1 (l_comp f)) comp + l_nbc f * (q + l_nsub f * off (l_pstr f) p)
  | _ => off (l_pstr f) p + l_nbuf f * (q + l_nsub f * off (rev (running 1 (rev (l_comp f)))) comp)
  end.
Proof.
  intros (Hc & Hp & Hs & Ho & (Lp & _)) H Hcomp Hpix. apply in_shape_length in Hcomp, Hpix.
  destruct Ho as [Ho|Ho]; rewrite Ho; cbv iota.
  - rewrite strides_col in H by assumption. apply Ok_inj in H. subst s.
    rewrite <- !app_assoc. rewrite off_app by (now rewrite running_length). cbn [map app].
    rewrite off_cons, off_scale by congruence. ring.
  - rewrite strides_row in H by assumption. apply Ok_inj in H. subst s. rewrite map_app. cbn [map].
    rewrite <- !app_assoc. rewrite off_app by (now rewrite !map_length, rev_length, running_length, rev_length).
    rewrite map_map. cbn [app]. rewrite off_cons.
    rewrite (map_ext _ (fun x => x * (l_nsub f * l_nbuf f))) by (intros; ring).
    rewrite off_scale by (now rewrite rev_length, running_length, rev_length). ring.
Qed.

(** Byte strides are the element strides times the element size. *)
Lemma running_mul e l : running e l = map (fun x => x * e) (running 1 l).
Proof. apply running_scale. Qed.

Lemma strides_element_size f u e : get_strides f u e = match get_strides f u 1 with
  | Ok s => Ok (map (fun x => x * e) s) | Err x => Err x | UB => UB end.
Proof.
  unfold get_strides, get_sub_pt_strides, get_components_strides, get_pixels_strides.
  assert (P : map (fun n => n * nb_dof_per_pixel f) (map (fun s => s * e) (l_pstr f)) =
              map (fun x => x * e) (map (fun n => n * nb_dof_per_pixel f) (map (fun s => s * 1) (l_pstr f)))).
  { rewrite !map_map. apply map_ext. intros; ring. }
  assert (P' : map (fun s => s * e) (l_pstr f) = map (fun x => x * e) (map (fun s => s * 1) (l_pstr f))).
  { rewrite !map_map. apply map_ext. intros; ring. }
  destruct (l_order f); cbn [bind]; try reflexivity.
  - destruct u; cbn [bind].
    + rewrite map_app, <- P, <- running_mul. reflexivity.
    + rewrite !map_app, <- P, <- running_mul. cbn [map]. now rewrite Z.mul_1_r.
  - rewrite (running_mul e), <- map_rev. destruct u; cbn [bind].
    + rewrite map_app, <- P'. f_equal. f_equal. rewrite !map_map. apply map_ext. intros; ring.
    + rewrite !map_app, <- P'. f_equal. f_equal. rewrite !map_map. cbn [map]. f_equal; [apply map_ext; intros; ring|].
      f_equal. ring.
Qed.
