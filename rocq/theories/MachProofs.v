(** The index arithmetic of the code does not overflow. *)
From Verif Require Import Base CIntModel GridModel GridSpec GridProofs LayoutModel LayoutSpec LayoutProofs LayoutProofs2 StridedModel StridedProofs MachModel MachSpec.

Lemma ix_ok z : is_index z -> ix z = Ok z.
Proof. intros [A B]. unfold ix, fits64. rewrite (proj2 (Z.leb_le _ _) A), (proj2 (Z.ltb_lt _ _) B). reflexivity. Qed.
Lemma ix_small z : 0 <= z < 2 ^ 63 -> ix z = Ok z.
Proof. intros H. apply ix_ok. unfold is_index. lia. Qed.
Lemma us_small z : 0 <= z < 2 ^ 64 -> us z = z.
Proof. apply Z.mod_small. Qed.
Lemma to_index_small z : 0 <= z < 2 ^ 63 -> to_index z = z.
Proof. intros H. unfold to_index. rewrite Z.mod_small by lia. lia. Qed.
Lemma mapM_map {A B} (f : A -> res B) (g : A -> B) l : (forall x, In x l -> f x = Ok (g x)) -> mapM f l = Ok (map g l).
Proof. induction l as [|x l IH]; intros H; cbn [mapM map]; [reflexivity|]. rewrite (H x (or_introl eq_refl)). cbn [bind]. rewrite IH by (intros; apply H; now right). reflexivity. Qed.

(** ** Products *)
Lemma room_cons x l : room (x :: l) = Z.max 1 x * room l.
Proof. reflexivity. Qed.
Lemma room_pos l : 1 <= room l.
Proof. induction l as [|x l IH]; [cbn; lia|]. rewrite room_cons. nia. Qed.
Lemma room_app a b : room (a ++ b) = room a * room b.
Proof. unfold room. rewrite map_app. apply zprod_app. Qed.
Lemma room_firstn l i : room (firstn i l) <= room l.
Proof. rewrite <- (firstn_skipn i l) at 2. rewrite room_app. pose proof (room_pos (firstn i l)). pose proof (room_pos (skipn i l)). nia. Qed.
Lemma room_skipn l i : room (skipn i l) <= room l.
Proof. rewrite <- (firstn_skipn i l) at 2. rewrite room_app. pose proof (room_pos (firstn i l)). pose proof (room_pos (skipn i l)). nia. Qed.
Lemma room_rev l : room (rev l) = room l.
Proof. unfold room. apply zprod_perm. apply Permutation_map. symmetry. apply Permutation_rev. Qed.
Lemma zprod_room l : Forall (fun x => 0 <= x) l -> 0 <= zprod l <= room l.
Proof.
  induction 1 as [|x l Hx _ IH]; [cbn; lia|]. rewrite zprod_cons, room_cons. nia.
Qed.
Lemma room_positive l : Forall (fun x => 0 < x) l -> room l = zprod l.
Proof. induction 1 as [|x l Hx _ IH]; [reflexivity|]. rewrite zprod_cons, room_cons, IH. f_equal. lia. Qed.

Lemma mul_up_ok l : forall acc, Forall (fun x => 0 <= x) l -> 0 <= acc -> acc * room l < 2 ^ 63 -> mul_up acc l = Ok (fold_left Z.mul l acc).
Proof.
  induction l as [|x l IH]; intros acc F Ha B; [reflexivity|]. inversion F as [|? ? Hx F']; subst. rewrite room_cons in B. pose proof (room_pos l) as R.
  assert (acc * x * room l < 2 ^ 63) by nia. assert (0 <= acc * x) by nia. assert (acc * x < 2 ^ 63) by nia.
  cbn [mul_up fold_left]. rewrite ix_small by lia. cbn [bind]. apply IH; [exact F'|lia|lia].
Qed.
Lemma size_ok l : forall acc, Forall (fun x => 0 <= x) l -> 0 <= acc -> acc * room l < 2 ^ 64 -> fold_left (fun a x => us (a * x)) l acc = fold_left Z.mul l acc.
Proof.
  induction l as [|x l IH]; intros acc F Ha B; [reflexivity|]. inversion F as [|? ? Hx F']; subst. rewrite room_cons in B. pose proof (room_pos l) as R.
  assert (acc * x * room l < 2 ^ 64) by nia. assert (0 <= acc * x) by nia. assert (acc * x < 2 ^ 64) by nia.
  cbn [fold_left]. rewrite us_small by lia. apply IH; [exact F'|lia|lia].
Qed.
Lemma m_get_size_ok n : Forall (fun x => 0 <= x) n -> room n < 2 ^ 64 -> m_get_size n = get_size n.
Proof. intros F B. apply size_ok; [exact F|lia|lia]. Qed.
Lemma m_volume_ok n : Forall (fun x => 0 <= x) n -> room n < 2 ^ 63 -> m_compute_volume n = Ok (compute_volume n).
Proof. intros F B. apply mul_up_ok; [exact F|lia|lia]. Qed.
Lemma Forall_firstn {A} (P : A -> Prop) l i : Forall P l -> Forall P (firstn i l).
Proof. intros H. revert i. induction H; intros [|i]; cbn; constructor; auto. Qed.
Lemma Forall_skipn {A} (P : A -> Prop) l i : Forall P l -> Forall P (skipn i l).
Proof. intros H. revert i. induction H; intros [|i]; cbn; auto. Qed.
Lemma m_col_strides_ok n : Forall (fun x => 0 <= x) n -> room n < 2 ^ 63 -> m_get_col_major_strides n = get_col_major_strides n.
Proof.
  intros F B. unfold m_get_col_major_strides, get_col_major_strides. destruct (dyn_dim_ok n); [|reflexivity].
  apply mapM_map. intros i _. apply mul_up_ok; [now apply Forall_firstn|lia|]. pose proof (room_firstn n i). lia.
Qed.
Lemma m_row_strides_ok n : Forall (fun x => 0 <= x) n -> room n < 2 ^ 63 -> m_get_row_major_strides n = get_row_major_strides n.
Proof.
  intros F B. unfold m_get_row_major_strides, get_row_major_strides. destruct (dyn_dim_ok n); [|reflexivity].
  apply mapM_map. intros i _. apply mul_up_ok; [apply Forall_rev; now apply Forall_skipn|lia|]. rewrite room_rev. pose proof (room_skipn n (S i)). lia.
Qed.

(** ** 32-bit factors *)
Lemma wrap32_range z : - 2 ^ 31 <= wrap32 z < 2 ^ 31.
Proof. unfold wrap32. pose proof (Z.mod_pos_bound (z + 2 ^ 31) (2 ^ 32) ltac:(lia)). lia. Qed.
Lemma wrap32_small z : - 2 ^ 31 <= z < 2 ^ 31 -> wrap32 z = z.
Proof. intros H. unfold wrap32. rewrite Z.mod_small by lia. lia. Qed.
Lemma wrap32_mul a b : wrap32 (wrap32 a * b) = wrap32 (a * b).
Proof.
  unfold wrap32 at 1 3. f_equal. rewrite <- (Z.add_mod_idemp_l (wrap32 a * b)) by lia. rewrite <- (Z.add_mod_idemp_l (a * b)) by lia. do 2 f_equal.
  rewrite <- (Z.mul_mod_idemp_l (wrap32 a)) by lia. rewrite <- (Z.mul_mod_idemp_l a) by lia. do 2 f_equal.
  unfold wrap32. rewrite Zminus_mod_idemp_l. f_equal. lia.
Qed.
Lemma walk_ok n strides axes : forall S acc, 1 <= S -> Forall (fun a => 1 <= zn n a) axes -> S * zprod (map (zn n) axes) < 2 ^ 63 ->
  m_contiguous_walk n strides axes (wrap32 S) acc = Ok (contiguous_walk n strides axes (wrap32 S) acc).
Proof.
  induction axes as [|a r IH]; intros S acc HS F B; [reflexivity|]. inversion F as [|? ? Ha F']; subst. cbn [map] in B. rewrite zprod_cons in B.
  assert (R : 1 <= zprod (map (zn n) r)).
  { pose proof (zprod_pos (map (zn n) r)) as H. rewrite Forall_map in H. assert (Forall (fun x => 0 < zn n x) r) as F2 by (eapply Forall_impl; [|exact F']; cbn; intros; lia). specialize (H F2). lia. }
  assert (P : S * zn n a < 2 ^ 63) by nia.
  cbn [m_contiguous_walk contiguous_walk]. rewrite ix_ok.
  - cbn [bind]. rewrite wrap32_mul. apply IH; [nia|exact F'|nia].
  - unfold is_index. pose proof (wrap32_range S) as W. destruct (Z_lt_le_dec S (2 ^ 31)) as [L|L].
    + rewrite wrap32_small by lia. nia.
    + assert (zn n a < 2 ^ 32) by nia. nia.
Qed.
Lemma map_zn_seq n : map (zn n) (seq 0 (length n)) = n.
Proof. apply nth_ext with (d := 0) (d' := 0); [now rewrite map_length, seq_length|]. intros i Hi. rewrite map_length, seq_length in Hi. rewrite (nth_indep _ 0 (zn n 0)) by (rewrite map_length, seq_length; exact Hi). rewrite map_nth, seq_nth by exact Hi. reflexivity. Qed.
Lemma zprod_axes n axes : Permutation axes (seq 0 (length n)) -> zprod (map (zn n) axes) = zprod n.
Proof. intros P. rewrite (zprod_perm _ _ (Permutation_map (zn n) P)). now rewrite map_zn_seq. Qed.
Lemma m_contiguous_ok n strides axes : Forall (fun x => 0 <= x) n -> room n < 2 ^ 63 -> Permutation axes (seq 0 (length n)) ->
  m_is_buffer_contiguous_ax n strides axes = is_buffer_contiguous_ax n strides axes.
Proof.
  intros F B P. unfold m_is_buffer_contiguous_ax, is_buffer_contiguous_ax. destruct (length n =? 0)%nat; [reflexivity|].
  rewrite (m_volume_ok n F B). cbn [bind]. destruct (compute_volume n =? 0) eqn:V; [reflexivity|]. destruct (negb _); [reflexivity|].
  unfold compute_volume in V. rewrite fold_left_mul in V. apply Z.eqb_neq in V.
  assert (Pos : Forall (fun x => 0 < x) n).
  { apply Forall_forall. intros x I. pose proof (proj1 (Forall_forall _ _) F x I) as H0. cbn in H0. assert (x <> 0); [|lia]. intros ->. apply V.
    clear -I. induction n as [|y n IH]; [destruct I|]. rewrite zprod_cons. destruct I as [->|I]; [lia|]. specialize (IH I). nia. }
  assert (E1 : wrap32 1 = 1) by reflexivity. rewrite <- E1 at 1. rewrite <- E1 at 2. apply walk_ok; [lia| |].
  - apply Forall_forall. intros a I. apply (Permutation_in _ P) in I. apply in_seq in I. assert (0 < zn n a); [|lia]. unfold zn. apply (proj1 (Forall_forall _ _) Pos). apply nth_In. lia.
  - rewrite (zprod_axes n axes P). rewrite <- (room_positive n Pos). lia.
Qed.
Lemma m_pixels_ok axes n loc strides : Forall (fun x => 0 <= x) n -> room n < 2 ^ 63 -> Permutation axes (seq 0 (length n)) ->
  m_pixels_strided_with axes n loc strides = pixels_strided_with axes n loc strides.
Proof. intros F B P. unfold m_pixels_strided_with, pixels_strided_with. rewrite m_contiguous_ok by assumption. reflexivity. Qed.
Lemma m_accumulate_ok shape : forall acc, - 2 ^ 31 <= acc < 2 ^ 31 -> Forall (fun x => 0 <= x <= 2 ^ 32) shape ->
  m_accumulate_mul acc shape = Ok (fold_left (fun a n => wrap32 (a * n)) shape acc).
Proof.
  induction shape as [|x l IH]; intros acc Ha F; [reflexivity|]. inversion F as [|? ? Hx F']; subst. cbn [m_accumulate_mul fold_left].
  rewrite ix_ok by (unfold is_index; nia). cbn [bind]. apply IH; [apply wrap32_range|exact F'].
Qed.

(** ** Sums *)
Definition safe (size acc : Z) (n ss : list Z) : Prop := forall c, in_shape n c -> 0 <= acc + off ss c < size.
Lemma in_shape_cons_iff x n d c : in_shape (x :: n) (d :: c) <-> 0 <= d < x /\ in_shape n c.
Proof.
  unfold in_shape. cbn [length]. split.
  - intros [L H]. split; [exact (H 0%nat ltac:(lia))|]. split; [lia|]. intros i Hi. exact (H (S i) ltac:(lia)).
  - intros [Hd [L H]]. split; [lia|]. intros [|i] Hi; [exact Hd|]. apply H. lia.
Qed.
Lemma safe_step size acc x n s ss d : 0 <= d < x -> safe size acc (x :: n) (s :: ss) -> safe size (acc + s * d) n ss.
Proof. intros Hd H c Hc. specialize (H (d :: c)). rewrite in_shape_cons_iff, off_cons in H. specialize (H (conj Hd Hc)). lia. Qed.
Lemma in_shape_zeros n c : in_shape n c -> in_shape n (repeat 0 (length n)).
Proof. intros [L H]. split; [apply repeat_length|]. intros i Hi. specialize (H i Hi). unfold zn in *. rewrite nth_repeat. lia. Qed.
Lemma safe_acc size acc n ss c : length ss = length n -> in_shape n c -> safe size acc n ss -> 0 <= acc < size.
Proof. intros L Hc H. specialize (H _ (in_shape_zeros n c Hc)). rewrite <- L, off_zeros in H. lia. Qed.
Lemma safe_within size n ss : within n ss size -> safe size 0 n ss.
Proof. intros H c Hc. apply H in Hc. lia. Qed.

Lemma linear_ok size n : forall ss acc c, size <= 2 ^ 63 -> length ss = length n -> in_shape n c -> safe size acc n ss ->
  m_linear_index acc (combine c ss) = Ok (acc + off ss c).
Proof.
  induction n as [|x n IH]; intros [|s ss] acc c B L Hc H; try discriminate L.
  - destruct Hc as [Lc _]. destruct c; [|discriminate Lc]. cbn. now rewrite Z.add_0_r.
  - destruct c as [|d c]; [destruct Hc as [Lc _]; discriminate Lc|]. pose proof Hc as Hc'. apply in_shape_cons_iff in Hc'. destruct Hc' as [Hd Hc'].
    pose proof (safe_acc _ _ _ _ _ L Hc H) as A0. pose proof (safe_step _ _ _ _ _ _ d Hd H) as H1. assert (L1 : length ss = length n) by (cbn in L; lia).
    pose proof (safe_acc _ _ _ _ _ L1 Hc' H1) as A1.
    cbn [combine m_linear_index]. rewrite ix_ok by (unfold is_index; lia). cbn [bind]. rewrite us_small by lia. rewrite Z.mul_comm. rewrite (IH ss _ c B L1 Hc' H1).
    rewrite off_cons. f_equal. lia.
Qed.
Lemma stride_sum_ok size n : forall ss loc acc c, size <= 2 ^ 63 -> Forall is_index n -> length ss = length n -> length loc = length n -> length c = length n ->
  in_shape n (map (fun p => snd p - fst p) (combine loc c)) -> safe size acc n ss ->
  m_stride_sum acc (combine ss (combine loc c)) = Ok (fold_left (fun a p => a + fst p * (snd (snd p) - fst (snd p))) (combine ss (combine loc c)) acc).
Proof.
  induction n as [|x n IH]; intros [|s ss] [|l loc] acc [|d c] B F L Ll Lc Hc H; try discriminate L; try discriminate Ll; try discriminate Lc; [reflexivity|].
  cbn [combine map fst snd] in Hc. pose proof Hc as Hc'. apply in_shape_cons_iff in Hc'. destruct Hc' as [Hd Hc']. inversion F as [|? ? Fx F']; subst.
  pose proof (safe_acc _ _ _ _ _ L Hc H) as A0. pose proof (safe_step _ _ _ _ _ _ _ Hd H) as H1. assert (L1 : length ss = length n) by (cbn in L; lia).
  pose proof (safe_acc _ _ _ _ _ L1 Hc' H1) as A1. unfold is_index in Fx.
  cbn [combine m_stride_sum fold_left fst snd]. rewrite (ix_small (d - l)) by lia. cbn [bind]. rewrite (ix_ok (s * (d - l))) by (unfold is_index; lia). cbn [bind].
  rewrite ix_ok by (unfold is_index; lia). cbn [bind]. apply IH; try assumption; cbn in Ll, Lc; lia.
Qed.
Lemma m_index_ok size n strides loc c : size <= 2 ^ 63 -> Forall is_index n -> length strides = length n -> within n strides size -> in_box n loc c -> length loc = length n ->
  m_get_index_from_strides strides loc c = get_index_from_strides strides loc c.
Proof.
  intros B F L W [Lc H] Ll. unfold m_get_index_from_strides, get_index_from_strides. destruct (negb _); [reflexivity|]. destruct (negb _); [reflexivity|].
  assert (Lc' : length c = length n) by exact Lc.
  apply (stride_sum_ok size n); try assumption.
  split; [rewrite map_length, combine_length; lia|]. intros i Hi. specialize (H i Hi). unfold zn in *.
  rewrite (nth_indep _ 0 ((fun p => snd p - fst p) (0, 0))) by (rewrite map_length, combine_length; lia). rewrite (map_nth (fun p : Z * Z => snd p - fst p)), combine_nth by lia. cbn [fst snd]. lia.
Qed.

(** ** Coordinates *)
Lemma ccoord_loop_ok strides raxes : forall index ret, 0 <= index < 2 ^ 63 -> m_ccoord_loop strides raxes index ret = ccoord_loop strides raxes index ret.
Proof.
  induction raxes as [|a r IH]; intros index ret H; [reflexivity|]. cbn [m_ccoord_loop ccoord_loop]. destruct (zn strides a =? 0) eqn:E; [reflexivity|]. apply Z.eqb_neq in E.
  set (s := zn strides a) in *. pose proof (Z.quot_rem index s E) as QR.
  assert (R : 0 <= Z.rem index s <= index).
  { rewrite <- Z.rem_abs_r by exact E. split; [apply Z.rem_nonneg; lia|]. apply Z.rem_le; lia. }
  assert (Q : Z.abs (Z.quot index s) <= index).
  { rewrite <- Z.quot_abs by exact E. rewrite (Z.abs_eq index) by lia. apply Z.quot_le_upper_bound; nia. }
  rewrite ix_ok by (unfold is_index; lia). cbn [bind]. rewrite ix_ok by (unfold is_index; lia). cbn [bind]. rewrite ix_ok by (unfold is_index; lia). cbn [bind]. apply IH. lia.
Qed.
Lemma m_ccoord_ok n loc strides axes index c : 0 <= index < 2 ^ 63 -> get_ccoord_from_axes_order n loc strides axes index = Ok c -> Forall is_index c ->
  m_get_ccoord_from_axes_order n loc strides axes index = Ok c.
Proof.
  intros H E F. unfold m_get_ccoord_from_axes_order, get_ccoord_from_axes_order in *. rewrite ccoord_loop_ok by exact H.
  destruct (ccoord_loop _ _ _ _) as [ret| |]; try discriminate E. cbn [bind] in *. apply Ok_inj in E. subst c. unfold add_coords in *. apply mapM_map.
  intros p I. apply ix_ok. apply (proj1 (Forall_forall _ _) F). now apply (in_map (fun p => fst p + snd p)).
Qed.

(** ** Fields *)
Lemma running_ok l : forall acc, Forall (fun x => 0 < x) l -> 0 < acc -> acc * zprod l < 2 ^ 63 -> m_running acc l = Ok (running acc l) /\ Forall (fun s => 0 < s <= acc * zprod l) (running acc l).
Proof.
  induction l as [|x l IH]; intros acc F Ha B; [split; [reflexivity|constructor]|]. inversion F as [|? ? Hx F']; subst. rewrite zprod_cons in *. pose proof (zprod_pos l F') as R.
  assert (acc * x * zprod l < 2 ^ 63) by nia. assert (acc * x < 2 ^ 63) by nia. destruct (IH (acc * x) F' ltac:(nia) ltac:(lia)) as [E G].
  cbn [m_running running]. rewrite ix_small by nia. cbn [bind]. rewrite E. split; [reflexivity|]. constructor; [nia|]. eapply Forall_impl; [|exact G]. cbn. intros; nia.
Qed.
Lemma scale_ok k b l : Forall (fun s => 0 <= s <= b) l -> 0 <= k -> b * k < 2 ^ 63 -> m_scale k l = Ok (map (fun x => x * k) l) /\ Forall (fun s => 0 <= s <= b * k) (map (fun x => x * k) l).
Proof.
  intros F Hk B. split.
  - apply mapM_map. intros x I. apply (proj1 (Forall_forall _ _) F) in I. apply ix_small. nia.
  - rewrite Forall_map. eapply Forall_impl; [|exact F]. cbn. intros; nia.
Qed.
Lemma m_strides_ok f u e : sane f -> modest f -> 0 < e -> bytes f e < 2 ^ 63 -> m_get_strides f u e = get_strides f u e.
Proof.
  intros (Nb & Fc & Ns & Or & _) (Bu & Mo) He B. unfold bytes in B. pose proof (zprod_pos _ Fc) as Pc. rewrite <- Nb in Pc.
  set (b := Z.max 1 (l_nbuf f)) in *. assert (Hb : 1 <= b) by lia. assert (T : l_nsub f * l_nbc f * e < 2 ^ 63) by nia.
  assert (T1 : l_nbc f * e < 2 ^ 63) by nia. assert (T2 : l_nbc f * l_nsub f < 2 ^ 63) by nia. assert (Te : e < 2 ^ 63) by nia. assert (T3 : b * e < 2 ^ 63) by nia.
  destruct (scale_ok e b (l_pstr f) Mo ltac:(lia) T3) as [Ep Fp].
  assert (C : exists s, m_components_strides f e = Ok s /\ get_components_strides f e = Ok s /\ Forall (fun x => 0 <= x <= e * l_nbc f) s).
  { unfold m_components_strides, get_components_strides. rewrite Nb in T1. rewrite Nb. destruct Or as [-> | ->].
    - destruct (running_ok (l_comp f) e Fc He ltac:(lia)) as [E F]. eexists. split; [exact E|]. split; [reflexivity|]. eapply Forall_impl; [|exact F]. cbn. lia.
    - pose proof (GridProofs2.zprod_rev (l_comp f)) as Rv. destruct (running_ok (rev (l_comp f)) e (Forall_rev Fc) He ltac:(rewrite Rv; lia)) as [E F]. rewrite Rv in F. rewrite E. cbn [bind].
      eexists. split; [reflexivity|]. split; [reflexivity|]. apply Forall_rev. eapply Forall_impl; [|exact F]. cbn. lia. }
  destruct C as (s & C1 & C2 & C3). unfold m_get_strides, get_strides, m_sub_pt_strides, get_sub_pt_strides. rewrite C1, C2. cbn [bind].
  destruct Or as [O | O]; rewrite O.
  - assert (X : forall t, (let! p := m_scale e (l_pstr f) in let! d := ix (l_nbc f * l_nsub f) in let! q := m_scale d p in Ok (t ++ q)) = Ok (t ++ map (fun n => n * nb_dof_per_pixel f) (get_pixels_strides f e))).
    { intros t. rewrite Ep. cbn [bind]. rewrite (ix_small (l_nbc f * l_nsub f)) by nia. cbn [bind]. destruct (scale_ok (l_nbc f * l_nsub f) (b * e) _ Fp ltac:(nia) ltac:(nia)) as [Eq _]. rewrite Eq. reflexivity. }
    destruct u; cbn [bind]; [apply X|]. rewrite (ix_small (l_nbc f * e)) by nia. cbn [bind]. apply X.
  - assert (X : forall t, Forall (fun x => 0 <= x <= e * l_nbc f * l_nsub f) t -> (let! q := m_scale (l_nbuf f) t in let! p := m_scale e (l_pstr f) in Ok (q ++ p)) = Ok (map (fun x => x * l_nbuf f) t ++ get_pixels_strides f e)).
    { intros t Ft. rewrite Ep. assert (Ez : m_scale (l_nbuf f) t = Ok (map (fun x => x * l_nbuf f) t)).
      { apply mapM_map. intros x I. apply (proj1 (Forall_forall _ _) Ft) in I. apply ix_small. assert (x * l_nbuf f <= e * l_nbc f * l_nsub f * b) by nia. nia. }
      rewrite Ez. reflexivity. }
    destruct u; cbn [bind].
    + apply X. eapply Forall_impl; [|exact C3]. cbn. intros x Hx. nia.
    + destruct (scale_ok (l_nsub f) (e * l_nbc f) s C3 ltac:(lia) ltac:(nia)) as [Es Fs]. rewrite Es. cbn [bind]. apply X. apply Forall_app. split; [exact Fs|]. constructor; [nia|constructor].
Qed.
Lemma m_scalars_ok f pad : sane f -> 0 <= l_nbuf f -> 0 <= pad -> bytes f 1 < 2 ^ 63 -> buffer_scalars f + pad < 2 ^ 64 -> m_buffer_scalars f pad = Ok (buffer_scalars f + pad).
Proof.
  intros (Nb & Fc & Ns & _) Bu Hp B P. unfold bytes, m_buffer_scalars, buffer_scalars in *. pose proof (zprod_pos _ Fc) as Pc. rewrite <- Nb in Pc.
  assert (B' : l_nsub f * l_nbuf f * l_nbc f < 2 ^ 63) by nia. rewrite ix_small by nia. cbn [bind]. rewrite ix_small by nia. cbn [bind]. rewrite us_small by nia. reflexivity.
Qed.

(** ** Copies *)
Lemma reduce_in_shape idx : forall n r, length idx = length n -> Forall (fun x => 0 < x) n -> Forall (fun x => 0 <= x) idx -> reduce_loop idx n = Ok r -> in_shape n r.
Proof.
  induction idx as [|x idx IH]; intros [|y n] r L F G E; try discriminate L; cbn [reduce_loop] in E.
  - apply Ok_inj in E. subst r. split; [reflexivity|]. intros i Hi. cbn in Hi. lia.
  - inversion F as [|? ? Hy F']; subst. inversion G as [|? ? Hx G']; subst. destruct (y =? 0) eqn:E0; [discriminate E|].
    destruct (reduce_loop idx n) as [r'| |] eqn:Er; try discriminate E. cbn [bind] in E. apply Ok_inj in E. subst r. apply in_shape_cons_iff. split; [|apply (IH n r'); auto; cbn in L; lia].
    apply Z.rem_bound_pos; lia.
Qed.
Lemma upd_zn_same l i v : (i < length l)%nat -> zn (upd l i v) i = v.
Proof. apply nth_upd_same. Qed.
Lemma upd_zn_other l i j v : i <> j -> zn (upd l i v) j = zn l j.
Proof. apply nth_upd_other. Qed.
Lemma Forall_upd (P : Z -> Prop) l i v : Forall P l -> P v -> Forall P (upd l i v).
Proof. intros H Hv. revert i. induction H; intros [|i]; cbn; constructor; auto. Qed.
Lemma carry_ok n rest : forall prev idx, length idx = length n -> Forall is_index n -> Forall (fun x => 0 < x) n -> (prev < length n)%nat -> Forall (fun a => (a < length n)%nat) rest ->
  NoDup (prev :: rest) -> Forall (fun x => 0 <= x) idx -> zn idx prev <= zn n prev -> (forall a, In a rest -> zn idx a < zn n a) ->
  m_carry_loop n prev rest idx = carry_loop n prev rest idx /\ forall u, carry_loop n prev rest idx = Ok u -> length u = length n /\ Forall (fun x => 0 <= x) u.
Proof.
  induction rest as [|a r IH]; intros prev idx L Fi Fp Hp Hr ND G HP HR.
  - split; [reflexivity|]. intros u E. apply Ok_inj in E. subst u. auto.
  - cbn [m_carry_loop carry_loop]. destruct (zn n prev =? 0) eqn:E0; [split; [reflexivity|discriminate]|].
    inversion Hr as [|? ? Ha Hr']; subst. assert (Pp : 0 < zn n prev) by (apply (proj1 (Forall_forall _ _) Fp); apply nth_In; lia).
    assert (Ix : 0 <= zn idx prev) by (apply (proj1 (Forall_forall _ _) G); apply nth_In; lia). assert (Ia : 0 <= zn idx a) by (apply (proj1 (Forall_forall _ _) G); apply nth_In; lia).
    assert (Q : 0 <= Z.quot (zn idx prev) (zn n prev) <= 1) by (split; [apply Z.quot_pos; lia|apply Z.quot_le_upper_bound; lia]).
    pose proof (HR a (or_introl eq_refl)) as Ra. assert (Ni : is_index (zn n a)) by (apply (proj1 (Forall_forall _ _) Fi); apply nth_In; lia). unfold is_index in Ni.
    rewrite ix_small by lia. cbn [bind]. inversion ND as [|? ? N1 ND']; subst. inversion ND' as [|? ? N2 _]; subst.
    apply IH; try assumption; [now rewrite upd_length|apply Forall_upd; [exact G|lia]|rewrite upd_zn_same by lia; lia|].
    intros b Ib. rewrite upd_zn_other by (intros ->; contradiction). apply HR. now right.
Qed.
Lemma odo_ok n axes idx : Permutation axes (seq 0 (length n)) -> Forall is_index n -> Forall (fun x => 0 < x) n -> in_shape n idx ->
  m_odo_next n axes idx = odo_next n axes idx /\ forall idx', odo_next n axes idx = Ok idx' -> in_shape n idx'.
Proof.
  intros P Fi Fp [L H]. unfold m_odo_next, odo_next. destruct axes as [|a r]; [split; [reflexivity|discriminate]|].
  assert (B : Forall (fun b => (b < length n)%nat) (a :: r)) by (apply Forall_forall; intros b I; apply (Permutation_in _ P) in I; apply in_seq in I; lia).
  assert (ND : NoDup (a :: r)) by (apply (Permutation_NoDup (Permutation_sym P)); apply seq_NoDup). inversion B as [|? ? Ha Hr]; subst.
  pose proof (H a Ha) as Ra. assert (Ni : is_index (zn n a)) by (apply (proj1 (Forall_forall _ _) Fi); apply nth_In; lia). unfold is_index in Ni.
  rewrite ix_small by lia. cbn [bind]. assert (G : Forall (fun x => 0 <= x) idx).
  { apply Forall_forall. intros x I. destruct (In_nth _ _ 0 I) as (i & Hi & <-). apply (H i). lia. }
  assert (N1 : ~ In a r) by now inversion ND.
  destruct (carry_ok n r a (upd idx a (zn idx a + 1))) as [E U]; try assumption; [now rewrite upd_length|apply Forall_upd; [exact G|lia]|rewrite upd_zn_same by lia; lia| |].
  { intros b Ib. rewrite upd_zn_other by (intros ->; contradiction). apply H. now apply (proj1 (Forall_forall _ _) Hr). }
  rewrite E. split; [reflexivity|]. intros idx' E'. destruct (carry_loop _ _ _ _) as [u| |]; try discriminate E'. cbn [bind] in E'. destruct (U u eq_refl) as [Lu Fu]. exact (reduce_in_shape u n idx' Lu Fp Fu E').
Qed.
Lemma copy_ok {A} n axes is os (inb : list A) k : Permutation axes (seq 0 (length n)) -> Forall is_index n -> Forall (fun x => 0 < x) n -> length is = length n -> length os = length n ->
  within n is (2 ^ 63) -> within n os (2 ^ 63) -> forall idx outb, in_shape n idx ->
  m_copy_loop k n axes is os idx inb outb = copy_loop k n axes is os idx inb outb.
Proof.
  intros P Fi Fp Li Lo Wi Wo. induction k as [|k IH]; intros idx outb H; [reflexivity|]. cbn [m_copy_loop copy_loop].
  pose proof (proj1 H) as Lx. rewrite (linear_ok (2 ^ 63) n is 0 idx ltac:(lia) Li H (safe_within _ _ _ Wi)). cbn [bind].
  rewrite (linear_ok (2 ^ 63) n os 0 idx ltac:(lia) Lo H (safe_within _ _ _ Wo)). cbn [bind]. rewrite !Z.add_0_l, !linear_index_off by lia.
  destruct (rd inb _) as [v| |]; try reflexivity. cbn [bind]. destruct (wr outb _ v) as [o'| |]; try reflexivity. cbn [bind].
  destruct (odo_ok n axes idx P Fi Fp H) as [E U]. rewrite E. destruct (odo_next n axes idx) as [idx'| |]; try reflexivity. cbn [bind]. apply IH. now apply U.
Qed.
Lemma m_strided_copy_ok {A} axes n is os (inb outb : list A) : Permutation axes (seq 0 (length n)) -> Forall (fun x => 0 < x <= 2 ^ 32) n ->
  within n is (2 ^ 63) -> within n os (2 ^ 63) -> m_strided_copy_with axes n is os inb outb = strided_copy_with axes n is os inb outb.
Proof.
  intros P F Wi Wo. unfold m_strided_copy_with, strided_copy_with. destruct (length n =? length is)%nat eqn:Li; [|reflexivity]. destruct (length n =? length os)%nat eqn:Lo; [|reflexivity].
  apply Nat.eqb_eq in Li, Lo. cbn [negb]. rewrite m_accumulate_ok; [|lia|eapply Forall_impl; [|exact F]; cbn; intros; lia]. cbn [bind].
  apply copy_ok; try assumption; try lia; [eapply Forall_impl; [|exact F]; unfold is_index; cbn; intros; lia|eapply Forall_impl; [|exact F]; cbn; intros; lia|].
  split; [apply repeat_length|]. intros i Hi. unfold zn at 1 2. rewrite nth_repeat. assert (0 < zn n i) by (apply (proj1 (Forall_forall _ _) (Forall_impl _ (fun x (H : 0 < x <= 2 ^ 32) => proj1 H) F)); apply nth_In; lia). unfold zn in *. lia.
Qed.

(** ** Collections *)
Lemma max_product_ok l : forall acc, 0 <= acc -> Forall (fun p => 0 <= fst p * snd p < 2 ^ 63) l -> m_max_product acc l = Ok (fold_left (fun a p => Z.max a (fst p * snd p)) l acc).
Proof.
  induction l as [|[n s] l IH]; intros acc Ha F; [reflexivity|]. inversion F as [|? ? H F']; subst. cbn [fst snd] in H. cbn [m_max_product fold_left fst snd].
  rewrite ix_small by lia. cbn [bind]. rewrite us_small by lia. apply IH; [lia|exact F'].
Qed.
Lemma max_product_range l b : forall acc, 0 <= acc < b -> Forall (fun p => 0 <= fst p * snd p < b) l -> 0 <= fold_left (fun a p => Z.max a (fst p * snd p)) l acc < b.
Proof. induction l as [|[n s] l IH]; intros acc Ha F; [exact Ha|]. inversion F as [|? ? H F']; subst. cbn [fst snd] in H. cbn [fold_left fst snd]. apply IH; [lia|exact F']. Qed.
Lemma zprod_sub n : forall m, Forall2 (fun a b => 0 <= a <= b) n m -> 0 <= zprod n <= zprod m.
Proof. intros m. induction 1 as [|a b n m H _ IH]; [cbn; lia|]. rewrite !zprod_cons. nia. Qed.
Lemma count_sub n : forall m acc, Forall2 (fun a b => 0 <= a <= b) n m -> Forall (fun x => 0 < x) m -> 0 <= acc -> acc * zprod m < 2 ^ 31 ->
  m_accumulate_mul acc n = Ok (acc * zprod n).
Proof.
  induction n as [|x n IH]; intros m acc H P Ha B; [cbn; f_equal; lia|]. inversion H as [|? y ? m' Hx H']; subst. inversion P as [|? ? Hy P']; subst. rewrite zprod_cons in *.
  pose proof (zprod_pos m' P') as R. assert (0 <= acc * y) by nia. assert (acc * y < 2 ^ 31) by nia. assert (0 <= acc * x <= acc * y) by nia.
  cbn [m_accumulate_mul]. rewrite ix_small by lia. cbn [bind]. rewrite wrap32_small by lia. rewrite (IH m' (acc * x) H' P'); [f_equal; lia|lia|nia].
Qed.
Lemma room_sub n m : Forall2 (fun a b => 0 <= a <= b) n m -> Forall (fun x => 0 < x) m -> room n <= zprod m.
Proof.
  induction 1 as [|a b n m H _ IH]; intros P; [cbn; lia|]. inversion P as [|? ? Hb P']; subst. specialize (IH P'). rewrite room_cons, zprod_cons. pose proof (room_pos n). pose proof (zprod_pos m P'). nia.
Qed.
Lemma sub_nonneg n m : Forall2 (fun a b => 0 <= a <= b) n m -> Forall (fun x => 0 <= x) n.
Proof. induction 1; constructor; auto; lia. Qed.
Lemma combine_products n s : Forall (fun x => 0 <= x) n -> Forall (fun x => 0 <= x) s -> (forall i, (i < length n)%nat -> zn n i * zn s i < 2 ^ 63) -> Forall (fun p => 0 <= fst p * snd p < 2 ^ 63) (combine n s).
Proof.
  intros Fn. revert s. induction Fn as [|x n Hx _ IH]; intros [|y s] Fs H; cbn [combine]; try constructor; inversion Fs as [|? ? Hy Fs']; subst.
  - cbn [fst snd]. pose proof (H 0%nat ltac:(cbn; lia)) as H0. cbn in H0. nia.
  - apply IH; [exact Fs'|]. intros i Hi. exact (H (S i) ltac:(cbn; lia)).
Qed.
Lemma m_buffer_ok n s : Forall (fun x => 0 <= x) n -> Forall (fun x => 0 <= x) s -> (forall i, (i < length n)%nat -> zn n i * zn s i < 2 ^ 63) ->
  m_get_buffer_size n s = get_buffer_size n s /\ forall b, get_buffer_size n s = Ok b -> 0 <= b < 2 ^ 63.
Proof.
  intros Fn Fs H. pose proof (combine_products n s Fn Fs H) as C. unfold m_get_buffer_size, get_buffer_size. destruct (negb _); [split; [reflexivity|discriminate]|].
  split; [now apply max_product_ok|]. intros b E. apply Ok_inj in E. subst b. apply max_product_range; [lia|exact C].
Qed.
Lemma m_init_ok axes nd nsd loc pstr : let n := if (length nsd =? 0)%nat then nd else nsd in
  Forall (fun x => 0 < x) nd -> zprod nd < 2 ^ 31 -> Forall2 (fun a b => 0 <= a <= b) n nd -> Permutation axes (seq 0 (length n)) ->
  Forall (fun x => 0 <= x) pstr -> (forall i, (i < length n)%nat -> zn n i * zn pstr i < 2 ^ 63) ->
  m_init_grid axes nd nsd loc pstr =
  (let! p := pixels_strided_with axes n loc pstr in let! b := get_buffer_size n pstr in Ok (p, zprod n, b, zrange (Z.to_nat (zprod n)))).
Proof.
  intros n P B S A Fs H. unfold m_init_grid. fold n. pose proof (zprod_pos nd P) as Z0. pose proof (zprod_sub n nd S) as Zn. pose proof (sub_nonneg n nd S) as Fn. pose proof (room_sub n nd S P) as R.
  assert (Sd : Forall2 (fun a b => 0 <= a <= b) nd nd) by (clear -P; induction P; constructor; auto; lia).
  rewrite (count_sub nd nd 1 Sd P) by lia. cbn [bind]. rewrite (proj2 (Z.leb_gt _ _)) by lia. rewrite (count_sub n nd 1 S P) by lia. cbn [bind]. rewrite (proj2 (Z.ltb_ge _ _)) by lia.
  rewrite m_pixels_ok by (assumption || lia). destruct (pixels_strided_with axes n loc pstr) as [p| |]; try reflexivity. cbn [bind].
  destruct (m_buffer_ok n pstr Fn Fs H) as [E Rb]. rewrite E. destruct (get_buffer_size n pstr) as [b| |]; try reflexivity. cbn [bind]. specialize (Rb b eq_refl).
  rewrite m_get_size_ok by (assumption || lia). unfold get_size. rewrite fold_left_mul, Z.mul_1_l. rewrite to_index_small by lia. unfold m_pixel_indices. rewrite (proj2 (Z.leb_le _ _)) by lia. cbn [bind]. rewrite to_index_small by lia. reflexivity.
Qed.

(** ** Strides of the storage orders *)
Lemma max_product_ge l : forall acc, acc <= fold_left (fun a p => Z.max a (fst p * snd p)) l acc /\ forall p, In p l -> fst p * snd p <= fold_left (fun a p => Z.max a (fst p * snd p)) l acc.
Proof.
  induction l as [|q l IH]; intros acc; [split; [cbn; lia|intros p []]|]. cbn [fold_left]. destruct (IH (Z.max acc (fst q * snd q))) as [A B]. split; [lia|]. intros p [<-|I]; [lia|now apply B].
Qed.
Lemma buffer_ge n s b i : get_buffer_size n s = Ok b -> (i < length n)%nat -> length s = length n /\ zn n i * zn s i <= b /\ 0 <= b.
Proof.
  unfold get_buffer_size. destruct (length s =? length n)%nat eqn:L; [|discriminate]. cbn [negb]. intros E Hi. apply Nat.eqb_eq in L. apply Ok_inj in E. subst b. split; [exact L|].
  destruct (max_product_ge (combine n s) 0) as [A B]. split; [|exact A]. apply (B (zn n i, zn s i)). unfold zn. rewrite <- combine_nth by lia. apply nth_In. rewrite combine_length. lia.
Qed.
Lemma layout_modest order n pstr loc comp nsub f : Forall (fun x => 0 < x) n -> Forall (fun x => 0 <= x) pstr -> global_layout order n pstr loc comp nsub = Ok f -> modest f.
Proof.
  intros P Fs E. unfold global_layout, pixels_strided, pixels_strided_with in E. destruct (is_buffer_contiguous_ax _ _ _) as [b| |]; try discriminate E. cbn [bind] in E.
  destruct (negb _); [discriminate E|]. destruct (length pstr =? length n)%nat eqn:L; [|discriminate E]. apply Nat.eqb_eq in L. cbn [negb bind] in E.
  destruct (get_buffer_size n pstr) as [nb| |] eqn:G; try discriminate E. cbn [bind] in E. apply Ok_inj in E. subst f. unfold modest, layout_of_shape. cbn [l_nbuf l_pstr px_strides].
  assert (N : 0 <= nb). { unfold get_buffer_size in G. destruct (negb _); [discriminate G|]. apply Ok_inj in G. subst nb. apply max_product_ge. }
  split; [exact N|]. apply Forall_forall. intros s I. pose proof (proj1 (Forall_forall _ _) Fs s I) as S0. cbn in S0. split; [exact S0|]. destruct (In_nth _ _ 0 I) as (i & Hi & <-). rewrite L in Hi.
  destruct (buffer_ge n pstr nb i G Hi) as (_ & Q & _). assert (0 < zn n i) by (apply (proj1 (Forall_forall _ _) P); apply nth_In; exact Hi). unfold zn in *. nia.
Qed.
Lemma order_nonneg o n s : Forall (fun x => 0 <= x) n -> pixel_strides_for o n = Ok s -> Forall (fun x => 0 <= x) s.
Proof.
  intros F E. assert (X : forall l, Forall (fun x => 0 <= x) l -> 0 <= fold_left Z.mul l 1) by (intros l Fl; rewrite fold_left_mul; pose proof (zprod_room l Fl); lia).
  unfold pixel_strides_for, get_col_major_strides, get_row_major_strides in E. destruct (dyn_dim_ok n); [|destruct o; discriminate E].
  assert (Y : s = col_major_strides n \/ s = row_major_strides n) by (destruct o; apply Ok_inj in E; subst s; auto). destruct Y as [-> | ->]; apply Forall_map; apply Forall_forall; intros i _; apply X.
  - now apply Forall_firstn.
  - apply Forall_rev. now apply Forall_skipn.
Qed.
Lemma order_modest order porder n loc comp nsub f : Forall (fun x => 0 < x) n -> global_layout_order order porder n loc comp nsub = Ok f -> modest f.
Proof.
  intros P E. unfold global_layout_order in E. destruct (pixel_strides_for _ n) as [s| |] eqn:S; try discriminate E. cbn [bind] in E. apply (layout_modest _ _ _ _ _ _ _ P) in E; [exact E|].
  eapply order_nonneg; [|exact S]. eapply Forall_impl; [|exact P]. cbn. lia.
Qed.

Lemma mul_up_exact n : forall a, 0 < a < 2 ^ 63 -> Forall (fun x => 0 < x) n ->
  mul_up a n = if a * zprod n <? 2 ^ 63 then Ok (a * zprod n) else UB.
Proof.
  induction n as [|x n IH]; intros a Ha F.
  - cbn [mul_up zprod fold_right]. rewrite Z.mul_1_r. destruct (Z.ltb_spec a (2 ^ 63)); [reflexivity|lia].
  - inversion F; subst. cbn [mul_up]. change (zprod (x :: n)) with (x * zprod n). pose proof (zprod_pos n H2) as P. unfold ix, fits64.
    destruct (Z.leb_spec (- 2 ^ 63) (a * x)) as [L|L]; [|nia]. cbn [andb].
    destruct (Z.ltb_spec (a * x) (2 ^ 63)) as [S|S]; cbn [bind].
    + rewrite IH by (split; [nia|exact S] || assumption). now rewrite Z.mul_assoc.
    + rewrite Z.mul_assoc. destruct (Z.ltb_spec (a * x * zprod n) (2 ^ 63)); [nia|reflexivity].
Qed.
Lemma m_volume_exact n : Forall (fun x => 0 < x) n ->
  (zprod n < 2 ^ 63 -> m_compute_volume n = Ok (zprod n)) /\ (2 ^ 63 <= zprod n -> m_compute_volume n = UB).
Proof.
  intros F. unfold m_compute_volume. rewrite (mul_up_exact n 1) by (assumption || lia). rewrite Z.mul_1_l.
  destruct (Z.ltb_spec (zprod n) (2 ^ 63)); split; intros; (reflexivity || lia).
Qed.
