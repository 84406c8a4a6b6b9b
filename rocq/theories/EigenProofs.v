(** Lemmas about matrix views of fields. *)
From Verif Require Import Base CIntModel GridModel GridSpec GridProofs GridProofs2 GridProofs3 StridedModel StridedProofs.
From Verif Require Import LayoutModel LayoutSpec LayoutProofs LayoutProofs2 FieldModel FieldSpec FieldProofs EigenModel.

Lemma offset_off s c v : length c = length s -> (offset_of s (repeat 0 (length s)) c v <-> v = off s c).
Proof.
  intros L. unfold offset_of, off.
  replace (map (fun i => zn s i * (zn c i - zn (repeat 0 (length s)) i)) (seq 0 (length s)))
    with (map (fun i => zn s i * zn c i) (seq 0 (length s))); [tauto|].
  apply map_ext_in. intros i Hi. apply in_seq in Hi. unfold zn. rewrite nth_repeat. ring.
Qed.

Lemma fills_bijective n s : fills_exactly n s -> bijective_on n s (zprod n).
Proof.
  intros (L & W & I & O). split; [exact L|]. rewrite <- L in W, I, O.
  assert (B : forall c, in_shape n c -> in_box n (repeat 0 (length s)) c) by (intros c H; rewrite L; now apply in_box_zero).
  assert (X : forall c, in_shape n c -> offset_of s (repeat 0 (length s)) c (off s c)).
  { intros c H. apply offset_off; [rewrite (in_shape_length n c H); auto|reflexivity]. }
  split; [intros c H; exact (W c _ (B c H) (X c H))|]. split.
  - intros c c' H H' E. apply (I c c' (off s c) (B c H) (B c' H') (X c H)). rewrite E. exact (X c' H').
  - intros v Hv. destruct (O v Hv) as (c & Hc & Ho). rewrite L in Hc. apply in_box_zero in Hc. exists c. split; [exact Hc|].
    symmetry. apply offset_off in Ho; [exact Ho|]. rewrite (in_shape_length n c Hc); auto.
Qed.

Lemma quot_cancel a b : 0 < b -> Z.quot (b * a) b = a.
Proof. intros H. rewrite Z.mul_comm. apply Z.quot_mul. lia. Qed.

Lemma zprod_nonneg_pos n : Forall (fun x => 0 <= x) n -> zprod n <> 0 -> Forall (fun x => 0 < x) n.
Proof.
  induction 1 as [|x r H F IH]; intros N; [constructor|]. rewrite zprod_cons in N. constructor; [destruct (Z.eq_dec x 0) as [->|]; lia|]. apply IH. intros E. rewrite E in N. lia.
Qed.

Section Views.
Context {A : Type}.
Implicit Types f g : field A.

Lemma nb_entries_ready f : ready f -> nb_entries f = l_nsub (f_lay f) * l_npix (f_lay f) /\ nb_entries f <> unknown.
Proof.
  intros R. unfold nb_entries. rewrite (nsub_known f R). destruct R as ((_ & _ & H & _) & _ & _ & _ & _ & [N _] & _).
  split; [reflexivity|]. unfold unknown. nia.
Qed.

Lemma eigen_map_ok axes f rows cols v : eigen_map axes f rows cols = Ok v ->
  f_init f = true /\ is_buffer_contiguous_ax (l_pix (f_lay f)) (l_pstr (f_lay f)) axes = Ok true /\ v = mk_view rows cols (f_ptr f).
Proof.
  unfold eigen_map. destruct (f_init f); [|discriminate]. cbn [negb].
  destruct (is_buffer_contiguous_ax _ _ _) as [[|]| |]; cbn [bind negb]; try discriminate. intros E. apply Ok_inj in E. auto.
Qed.

Lemma span1 f i : ready f -> 0 <= i < len (f_vals f) -> exists x, span f (f_ptr f) i 1 = Ok [x] /\ rd (f_vals f) i = Ok x.
Proof.
  intros R H. pose proof R as (_ & _ & P & _). rewrite (span_ready f (f_ptr f) i 1 P eq_refl) by lia.
  unfold len in H. destruct (skipn (Z.to_nat i) (f_vals f)) as [|x t] eqn:E.
  - apply (f_equal (@length A)) in E. rewrite skipn_length in E. cbn [length] in E. lia.
  - exists x. split; [reflexivity|]. unfold rd. replace (i <? 0) with false by lia.
    rewrite <- (firstn_skipn (Z.to_nat i) (f_vals f)), E, nth_error_app2 by (rewrite firstn_length; lia).
    rewrite firstn_length. replace (Z.to_nat i - Nat.min (Z.to_nat i) (length (f_vals f)))%nat with 0%nat by lia. reflexivity.
Qed.

(** Reading a coefficient is reading the scalar at its place. *)
Lemma coeff_rd f v r c : ready f -> v_ptr v = f_ptr f -> 0 <= r + v_rows v * c < len (f_vals f) ->
  coeff v f r c = rd (f_vals f) (r + v_rows v * c).
Proof.
  intros R P H. unfold coeff. rewrite P. destruct (span1 f _ R H) as (x & -> & ->). reflexivity.
Qed.

(** What the views consist of. *)
Lemma sub_pt_shape axes f v : ready f -> eigen_sub_pt axes f = Ok v ->
  v = mk_view (l_nbc (f_lay f)) (l_nsub (f_lay f) * l_npix (f_lay f)) (f_ptr f) /\
  is_buffer_contiguous_ax (l_pix (f_lay f)) (l_pstr (f_lay f)) axes = Ok true.
Proof.
  intros R H. destruct (nb_entries_ready f R) as [N U]. unfold eigen_sub_pt in H.
  destruct (Z.eqb_spec (nb_entries f) unknown); [contradiction|]. apply eigen_map_ok in H. rewrite N in H. tauto.
Qed.
Lemma pixel_shape axes f v : ready f -> eigen_pixel axes f = Ok v ->
  v = mk_view (l_nbc (f_lay f) * l_nsub (f_lay f)) (l_npix (f_lay f)) (f_ptr f) /\
  is_buffer_contiguous_ax (l_pix (f_lay f)) (l_pstr (f_lay f)) axes = Ok true.
Proof.
  intros R H. destruct (nb_entries_ready f R) as [N U]. unfold eigen_pixel in H.
  destruct (Z.eqb_spec (nb_entries f) unknown); [contradiction|].
  pose proof R as ((_ & _ & Hs & _) & _). destruct (Z.eqb_spec (l_nsub (f_lay f)) 0); [lia|].
  apply eigen_map_ok in H. rewrite N, quot_cancel in H by lia. tauto.
Qed.

Lemma value_off f c s : get_strides (f_lay f) SubPt 1 = Ok s -> value f c = rd (f_vals f) (off s c).
Proof. intros E. unfold value. rewrite E. reflexivity. Qed.

Lemma place f comp q p : ready f -> l_order (f_lay f) = ColMajor -> in_shape (l_comp (f_lay f)) comp -> 0 <= q < l_nsub (f_lay f) ->
  in_shape (l_pix (f_lay f)) p ->
  exists s, get_strides (f_lay f) SubPt 1 = Ok s /\
    off s (comp ++ [q] ++ p) = off (running 1 (l_comp (f_lay f))) comp + l_nbc (f_lay f) * (q + l_nsub (f_lay f) * off (l_pstr (f_lay f)) p) /\
    0 <= off s (comp ++ [q] ++ p) < len (f_vals f).
Proof.
  intros R O Hc Hq Hp. destruct (ready_strides f R) as (s & E & _ & W & _). exists s. split; [exact E|].
  split; [rewrite (sub_pt_offset _ s comp q p (proj1 R) E Hc Hp), O; reflexivity|].
  assert (L : in_shape (get_shape (f_lay f) SubPt) (comp ++ [q] ++ p)).
  { unfold get_shape, get_sub_pt_shape. rewrite <- app_assoc. apply in_shape_app. exists comp, ([q] ++ p). split; [reflexivity|]. split; [exact Hc|].
    apply in_shape_app. exists [q], p. split; [reflexivity|]. split; [|exact Hp]. apply in_shape_cons. exists q, []. split; [reflexivity|].
    split; [exact Hq|]. now apply in_shape_nil. }
  specialize (W _ L). destruct R as (_ & _ & _ & P & _ & _ & _ & N). lia.
Qed.

(** Column-major fields: components in the column of their sub-point ... *)
Lemma sub_pt_view axes f v comp q p : ready f -> l_order (f_lay f) = ColMajor -> eigen_sub_pt axes f = Ok v ->
  in_shape (l_comp (f_lay f)) comp -> 0 <= q < l_nsub (f_lay f) -> in_shape (l_pix (f_lay f)) p ->
  coeff v f (off (running 1 (l_comp (f_lay f))) comp) (q + l_nsub (f_lay f) * off (l_pstr (f_lay f)) p) = value f (comp ++ [q] ++ p).
Proof.
  intros R O E Hc Hq Hp. destruct (sub_pt_shape axes f v R E) as [-> _].
  destruct (place f comp q p R O Hc Hq Hp) as (s & Es & Eo & Hb). rewrite (value_off f _ s Es), Eo. rewrite Eo in Hb.
  apply coeff_rd; [exact R|reflexivity|exact Hb].
Qed.
(** ... or of their pixel. *)
Lemma pixel_view axes f v comp q p : ready f -> l_order (f_lay f) = ColMajor -> eigen_pixel axes f = Ok v ->
  in_shape (l_comp (f_lay f)) comp -> 0 <= q < l_nsub (f_lay f) -> in_shape (l_pix (f_lay f)) p ->
  coeff v f (off (running 1 (l_comp (f_lay f))) comp + l_nbc (f_lay f) * q) (off (l_pstr (f_lay f)) p) = value f (comp ++ [q] ++ p).
Proof.
  intros R O E Hc Hq Hp. destruct (pixel_shape axes f v R E) as [-> _].
  destruct (place f comp q p R O Hc Hq Hp) as (s & Es & Eo & Hb). rewrite (value_off f _ s Es), Eo. rewrite Eo in Hb.
  set (i := off (running 1 (l_comp (f_lay f))) comp) in *. set (k := off (l_pstr (f_lay f)) p) in *.
  replace (i + l_nbc (f_lay f) * (q + l_nsub (f_lay f) * k)) with (i + l_nbc (f_lay f) * q + l_nbc (f_lay f) * l_nsub (f_lay f) * k) in * by ring.
  apply coeff_rd; [exact R|reflexivity|exact Hb].
Qed.

(** Every coefficient is one of these. *)
Lemma pixels_filled f axes : ready f -> l_pix (f_lay f) <> [] -> Forall (fun x => 0 <= x) (l_pix (f_lay f)) -> l_npix (f_lay f) < 2 ^ 31 ->
  sort_outcome (l_pix (f_lay f)) (l_pstr (f_lay f)) axes ->
  is_buffer_contiguous_ax (l_pix (f_lay f)) (l_pstr (f_lay f)) axes = Ok true -> l_npix (f_lay f) <> 0 ->
  bijective_on (l_pix (f_lay f)) (l_pstr (f_lay f)) (l_npix (f_lay f)).
Proof.
  intros R Ne P V S C Z. pose proof R as (_ & _ & _ & _ & Np & _). rewrite Np in *. apply fills_bijective.
  apply (contiguous_sound _ _ axes); auto. now apply zprod_nonneg_pos.
Qed.

Lemma comp_bij f : ready f -> bijective_on (l_comp (f_lay f)) (running 1 (l_comp (f_lay f))) (l_nbc (f_lay f)).
Proof. intros ((-> & P & _) & _). now apply bij_running. Qed.

Lemma sub_pt_onto axes f v r c : ready f -> l_pix (f_lay f) <> [] -> Forall (fun x => 0 <= x) (l_pix (f_lay f)) -> l_npix (f_lay f) < 2 ^ 31 ->
  sort_outcome (l_pix (f_lay f)) (l_pstr (f_lay f)) axes -> eigen_sub_pt axes f = Ok v -> 0 <= r < v_rows v -> 0 <= c < v_cols v ->
  exists comp q p, in_shape (l_comp (f_lay f)) comp /\ 0 <= q < l_nsub (f_lay f) /\ in_shape (l_pix (f_lay f)) p /\
    r = off (running 1 (l_comp (f_lay f))) comp /\ c = q + l_nsub (f_lay f) * off (l_pstr (f_lay f)) p.
Proof.
  intros R Ne P V S E Hr Hc. destruct (sub_pt_shape axes f v R E) as [-> C]. cbn [v_rows v_cols] in *.
  pose proof R as ((_ & _ & Hs & _) & _).
  assert (Z0 : l_npix (f_lay f) <> 0) by (intros Z0; rewrite Z0 in Hc; lia).
  destruct (pixels_filled f axes R Ne P V S C Z0) as (_ & _ & _ & O). destruct (comp_bij f R) as (_ & _ & _ & Oc).
  destruct (Oc r Hr) as (comp & I & Er). set (n := l_nsub (f_lay f)) in *.
  destruct (O (c / n)) as (p & Ip & Ep).
  { split; [apply Z.div_pos; lia|]. apply Z.div_lt_upper_bound; lia. }
  exists comp, (c mod n), p. split; [exact I|]. split; [apply Z.mod_pos_bound; exact Hs|]. split; [exact Ip|]. split; [auto|].
  rewrite Ep. pose proof (Z.div_mod c n). lia.
Qed.
Lemma pixel_onto axes f v r c : ready f -> l_pix (f_lay f) <> [] -> Forall (fun x => 0 <= x) (l_pix (f_lay f)) -> l_npix (f_lay f) < 2 ^ 31 ->
  sort_outcome (l_pix (f_lay f)) (l_pstr (f_lay f)) axes -> eigen_pixel axes f = Ok v -> 0 <= r < v_rows v -> 0 <= c < v_cols v ->
  exists comp q p, in_shape (l_comp (f_lay f)) comp /\ 0 <= q < l_nsub (f_lay f) /\ in_shape (l_pix (f_lay f)) p /\
    r = off (running 1 (l_comp (f_lay f))) comp + l_nbc (f_lay f) * q /\ c = off (l_pstr (f_lay f)) p.
Proof.
  intros R Ne P V S E Hr Hc. destruct (pixel_shape axes f v R E) as [-> C]. cbn [v_rows v_cols] in *.
  pose proof R as ((Hn & Hp & Hs & _) & _). pose proof (zprod_pos _ Hp) as Hz. rewrite <- Hn in Hz.
  assert (Z0 : l_npix (f_lay f) <> 0) by lia.
  destruct (pixels_filled f axes R Ne P V S C Z0) as (_ & _ & _ & O). destruct (comp_bij f R) as (_ & _ & _ & Oc).
  set (n := l_nbc (f_lay f)) in *. destruct (Oc (r mod n)) as (comp & I & Er); [apply Z.mod_pos_bound; exact Hz|].
  destruct (O c Hc) as (p & Ip & Ep). exists comp, (r / n), p. split; [exact I|].
  split; [split; [apply Z.div_pos; lia|apply Z.div_lt_upper_bound; lia]|]. split; [exact Ip|]. split; [|auto].
  rewrite Er. pose proof (Z.div_mod r n). lia.
Qed.

(** Writing a coefficient. *)
Lemma rd_upd_same (l : list A) i x : 0 <= i < Z.of_nat (length l) -> rd (upd l (Z.to_nat i) x) i = Ok x.
Proof.
  intros H. unfold rd. replace (i <? 0) with false by lia.
  rewrite (nth_error_nth' _ x) by (rewrite upd_length; lia). rewrite nth_upd_same by lia. reflexivity.
Qed.
Lemma rd_upd_other (l : list A) i j x : 0 <= i -> i <> j -> rd (upd l (Z.to_nat i) x) j = rd l j.
Proof.
  intros H N. unfold rd. destruct (Z.ltb_spec j 0); [reflexivity|].
  destruct (nth_error l (Z.to_nat j)) as [y|] eqn:E.
  - assert (Z.to_nat j < length l)%nat by (apply nth_error_Some; congruence).
    rewrite (nth_error_nth' _ x) by (rewrite upd_length; lia). rewrite nth_upd_other by lia.
    apply nth_error_nth with (d := x) in E. congruence.
  - apply nth_error_None in E. replace (nth_error (upd l (Z.to_nat i) x) (Z.to_nat j)) with (@None A); [reflexivity|].
    symmetry. apply nth_error_None. rewrite upd_length. exact E.
Qed.

Lemma set_coeff_ok f v r c x : ready f -> v_ptr v = f_ptr f -> 0 <= r + v_rows v * c < len (f_vals f) ->
  exists f', set_coeff v f r c x = Ok f' /\ ready f' /\ f_lay f' = f_lay f /\
    rd (f_vals f') (r + v_rows v * c) = Ok x /\ forall j, j <> r + v_rows v * c -> rd (f_vals f') j = rd (f_vals f) j.
Proof.
  intros R P H. unfold set_coeff. rewrite P. destruct (span1 f _ R H) as (y & -> & _). cbn [bind]. eexists. split; [reflexivity|].
  split; [apply with_vals_ready; [exact R|apply upd_length]|]. split; [reflexivity|]. unfold len in H. cbn [with_vals f_vals].
  split; [now apply rd_upd_same|]. intros j N. apply rd_upd_other; lia.
Qed.

Lemma logical_split f c : logical f c -> exists comp q p, c = comp ++ [q] ++ p /\ in_shape (l_comp (f_lay f)) comp /\
  0 <= q < l_nsub (f_lay f) /\ in_shape (l_pix (f_lay f)) p.
Proof.
  unfold logical, get_shape, get_sub_pt_shape. rewrite <- app_assoc. intros H. apply in_shape_app in H as (comp & t & -> & Hc & H).
  apply in_shape_app in H as (u & p & -> & H & Hp). apply in_shape_cons in H as (q & e & -> & Hq & H). apply in_shape_nil in H. subst e.
  exists comp, q, p. auto.
Qed.

Lemma write_value f f' s i x : ready f -> f_lay f' = f_lay f -> get_strides (f_lay f) SubPt 1 = Ok s ->
  logical f i -> rd (f_vals f') (off s i) = Ok x -> (forall j, j <> off s i -> rd (f_vals f') j = rd (f_vals f) j) ->
  value f' i = Ok x /\ forall i', logical f i' -> i' <> i -> value f' i' = value f i'.
Proof.
  intros R L E Li Hx Ho. assert (E' : get_strides (f_lay f') SubPt 1 = Ok s) by (rewrite L; exact E).
  split; [rewrite (value_off f' _ s E'); exact Hx|]. intros i' Li' N. rewrite (value_off f' _ s E'), (value_off f _ s E).
  apply Ho. intros Eo. apply N. destruct (ready_strides f R) as (s' & Es & _ & _ & Inj). assert (s' = s) by congruence. subst s'.
  apply Inj; auto.
Qed.

Lemma logical_join f comp q p : in_shape (l_comp (f_lay f)) comp -> 0 <= q < l_nsub (f_lay f) -> in_shape (l_pix (f_lay f)) p -> logical f (comp ++ [q] ++ p).
Proof.
  intros Hc Hq Hp. unfold logical, get_shape, get_sub_pt_shape. rewrite <- app_assoc. apply in_shape_app. exists comp, ([q] ++ p). split; [reflexivity|]. split; [exact Hc|].
  apply in_shape_app. exists [q], p. split; [reflexivity|]. split; [|exact Hp]. apply in_shape_cons. exists q, []. split; [reflexivity|].
  split; [exact Hq|]. now apply in_shape_nil.
Qed.

Lemma sub_pt_write axes f v comp q p x : ready f -> l_order (f_lay f) = ColMajor -> eigen_sub_pt axes f = Ok v ->
  in_shape (l_comp (f_lay f)) comp -> 0 <= q < l_nsub (f_lay f) -> in_shape (l_pix (f_lay f)) p ->
  exists f', set_coeff v f (off (running 1 (l_comp (f_lay f))) comp) (q + l_nsub (f_lay f) * off (l_pstr (f_lay f)) p) x = Ok f' /\
    ready f' /\ f_lay f' = f_lay f /\ value f' (comp ++ [q] ++ p) = Ok x /\
    forall i, logical f i -> i <> comp ++ [q] ++ p -> value f' i = value f i.
Proof.
  intros R O E Hc Hq Hp. destruct (sub_pt_shape axes f v R E) as [-> _].
  destruct (place f comp q p R O Hc Hq Hp) as (s & Es & Eo & Hb). pose proof Hb as Hb'. rewrite Eo in Hb'.
  destruct (set_coeff_ok f (mk_view (l_nbc (f_lay f)) (l_nsub (f_lay f) * l_npix (f_lay f)) (f_ptr f))
    (off (running 1 (l_comp (f_lay f))) comp) (q + l_nsub (f_lay f) * off (l_pstr (f_lay f)) p) x R eq_refl Hb') as (f' & -> & R' & L & H1 & H2).
  exists f'. split; [reflexivity|]. split; [exact R'|]. split; [exact L|]. cbn [v_rows] in H1, H2. rewrite <- Eo in H1, H2.
  apply (write_value f f' s (comp ++ [q] ++ p) x R L Es); auto. now apply logical_join.
Qed.
Lemma pixel_write axes f v comp q p x : ready f -> l_order (f_lay f) = ColMajor -> eigen_pixel axes f = Ok v ->
  in_shape (l_comp (f_lay f)) comp -> 0 <= q < l_nsub (f_lay f) -> in_shape (l_pix (f_lay f)) p ->
  exists f', set_coeff v f (off (running 1 (l_comp (f_lay f))) comp + l_nbc (f_lay f) * q) (off (l_pstr (f_lay f)) p) x = Ok f' /\
    ready f' /\ f_lay f' = f_lay f /\ value f' (comp ++ [q] ++ p) = Ok x /\
    forall i, logical f i -> i <> comp ++ [q] ++ p -> value f' i = value f i.
Proof.
  intros R O E Hc Hq Hp. destruct (pixel_shape axes f v R E) as [-> _].
  destruct (place f comp q p R O Hc Hq Hp) as (s & Es & Eo & Hb). pose proof Hb as Hb'. rewrite Eo in Hb'.
  set (i := off (running 1 (l_comp (f_lay f))) comp) in *. set (k := off (l_pstr (f_lay f)) p) in *.
  assert (Q : i + l_nbc (f_lay f) * (q + l_nsub (f_lay f) * k) = i + l_nbc (f_lay f) * q + l_nbc (f_lay f) * l_nsub (f_lay f) * k) by ring.
  rewrite Q in Eo, Hb'.
  destruct (set_coeff_ok f (mk_view (l_nbc (f_lay f) * l_nsub (f_lay f)) (l_npix (f_lay f)) (f_ptr f))
    (i + l_nbc (f_lay f) * q) k x R eq_refl Hb') as (f' & -> & R' & L & H1 & H2).
  exists f'. split; [reflexivity|]. split; [exact R'|]. split; [exact L|]. cbn [v_rows] in H1, H2. rewrite <- Eo in H1, H2.
  apply (write_value f f' s (comp ++ [q] ++ p) x R L Es); auto. now apply logical_join.
Qed.

(** When the views exist. *)
Lemma views_exist axes f : ready f -> l_pix (f_lay f) <> [] -> Forall (fun x => 2 <= x) (l_pix (f_lay f)) -> l_npix (f_lay f) < 2 ^ 31 ->
  sort_outcome (l_pix (f_lay f)) (l_pstr (f_lay f)) axes -> fills_exactly (l_pix (f_lay f)) (l_pstr (f_lay f)) ->
  (exists v, eigen_sub_pt axes f = Ok v) /\ (exists v, eigen_pixel axes f = Ok v).
Proof.
  intros R Ne P V S F. destruct (nb_entries_ready f R) as [N U]. pose proof R as ((_ & _ & Hs & _) & I & _ & _ & Np & _).
  assert (C : is_buffer_contiguous_ax (l_pix (f_lay f)) (l_pstr (f_lay f)) axes = Ok true).
  { apply contiguous_iff_fills; auto; [rewrite <- Np; exact V|apply F]. }
  unfold eigen_sub_pt, eigen_pixel, eigen_map. destruct (Z.eqb_spec (nb_entries f) unknown); [contradiction|].
  destruct (Z.eqb_spec (l_nsub (f_lay f)) 0); [lia|]. rewrite I, C. cbn [negb bind]. split; eexists; reflexivity.
Qed.

(** Refusals. *)
Lemma views_early axes f : f_init f = false -> l_nsub (f_lay f) <> 0 ->
  eigen_sub_pt axes f = Err FieldError /\ eigen_pixel axes f = Err FieldError.
Proof.
  intros I Z. unfold eigen_sub_pt, eigen_pixel, eigen_map. rewrite I. destruct (nb_entries f =? unknown); [auto|].
  destruct (Z.eqb_spec (l_nsub (f_lay f)) 0); [contradiction|]. auto.
Qed.
Lemma views_gaps axes f : ready f -> l_pix (f_lay f) <> [] -> Forall (fun x => 0 < x) (l_pix (f_lay f)) -> l_npix (f_lay f) < 2 ^ 31 ->
  sort_outcome (l_pix (f_lay f)) (l_pstr (f_lay f)) axes -> ~ fills_exactly (l_pix (f_lay f)) (l_pstr (f_lay f)) ->
  eigen_sub_pt axes f = Err FieldError /\ eigen_pixel axes f = Err FieldError.
Proof.
  intros R Ne P V S F. pose proof R as ((_ & _ & Hs & _ & L & _) & I & _ & _ & Np & _). rewrite Np in V.
  assert (C : is_buffer_contiguous_ax (l_pix (f_lay f)) (l_pstr (f_lay f)) axes = Ok false).
  { pose proof (contiguous_sound _ _ axes P V S Ne) as X. unfold is_buffer_contiguous_ax in *.
    destruct (Nat.eqb_spec (length (l_pix (f_lay f))) 0) as [Q|Q]; [destruct (l_pix (f_lay f)); [contradiction|discriminate]|].
    destruct (compute_volume _ =? 0); [exfalso; apply F, X; reflexivity|].
    rewrite L, Nat.eqb_refl in *. cbn [negb] in *.
    destruct (contiguous_walk _ _ _ _ _); [exfalso; apply F, X; reflexivity|reflexivity]. }
  unfold eigen_sub_pt, eigen_pixel, eigen_map. rewrite I, C. cbn [negb bind]. destruct (nb_entries f =? unknown); [auto|].
  destruct (Z.eqb_spec (l_nsub (f_lay f)) 0); [lia|]. auto.
Qed.

(** Assignment of a vector of scalars. *)
Lemma assign_matrix_values f w : ready f -> unpadded f -> len w = zprod (get_shape (f_lay f) SubPt) ->
  exists f', assign_matrix f (len w) 1 w = Ok f' /\ ready f' /\ f_lay f' = f_lay f /\
    (forall c s, logical f c -> get_strides (f_lay f) SubPt 1 = Ok s -> value f' c = rd w (off s c)) /\
    (forall j, len w <= j -> rd (f_vals f') j = rd (f_vals f) j).
Proof.
  intros R U L. unfold assign_matrix. rewrite (eigen_vec_size_ready' f R). cbn [bind]. rewrite L, Z.eqb_refl, Z.eqb_refl. cbn [andb negb].
  pose proof (prefix_fits f R) as [P1 P2]. pose proof R as ((Hc & _) & _ & P & Pd & Np & _ & _ & N).
  rewrite (span_ready f (f_ptr f) 0 _ P eq_refl) by lia. cbn [bind]. eexists. split; [reflexivity|].
  assert (W : (length w <= length (f_vals f))%nat) by (unfold len in *; lia).
  split; [apply with_vals_ready; [exact R|]; rewrite app_length, skipn_length; lia|]. split; [reflexivity|].
  unfold put_prefix. cbn [with_vals f_vals f_lay]. split.
  - intros c s Lc Es. rewrite (value_off _ _ s); [|exact Es]. cbn [with_vals f_vals]. rewrite rd_prefix by exact W.
    destruct (ready_strides f R) as (s' & Es' & _ & Wi & _). assert (s' = s) by congruence. subst s'.
    specialize (Wi c Lc). assert (B : buffer_scalars (f_lay f) = zprod (get_shape (f_lay f) SubPt)).
    { rewrite shape_prod. unfold buffer_scalars. unfold unpadded in U. rewrite U, Np, Hc. ring. }
    unfold len in L. destruct (Z.ltb_spec (off s c) (Z.of_nat (length w))); [reflexivity|lia].
  - intros j Hj. rewrite rd_prefix by exact W. unfold len in *. destruct (Z.ltb_spec j (Z.of_nat (length w))); [lia|reflexivity].
Qed.
End Views.

From Verif Require Import EigenSpec.
Lemma off_running n : forall c, length c = length n -> off (running 1 n) c = rank_of n c.
Proof.
  induction n as [|k n IH]; intros [|x c] L; cbn [length] in L; try lia; [reflexivity|].
  cbn [running rank_of]. rewrite off_cons, running_scale, off_scale by (rewrite running_length; lia). rewrite IH by lia. lia.
Qed.
Lemma entry_rank {A} (f : field A) comp q p : entry_of f comp q p -> off (running 1 (l_comp (f_lay f))) comp = rank_of (l_comp (f_lay f)) comp.
Proof. intros (H & _). apply off_running. now apply in_shape_length. Qed.
Lemma local_views {A} axes (f : field A) n : ready f -> l_pix (f_lay f) = [n] -> l_pstr (f_lay f) = [1] ->
  sort_outcome (l_pix (f_lay f)) (l_pstr (f_lay f)) axes ->
  (exists v, eigen_sub_pt axes f = Ok v) /\ (exists v, eigen_pixel axes f = Ok v).
Proof.
  intros R Ep Es S. destruct (nb_entries_ready f R) as [N U]. pose proof R as ((_ & _ & Hs & _) & I & _).
  assert (C : is_buffer_contiguous_ax (l_pix (f_lay f)) (l_pstr (f_lay f)) axes = Ok true).
  { rewrite Ep, Es in *. destruct S as [P _]. cbn [length seq] in P. apply Permutation_sym, Permutation_length_1_inv in P. subst axes.
    unfold is_buffer_contiguous_ax. cbn [length Nat.eqb negb]. destruct (compute_volume [n] =? 0); reflexivity. }
  unfold eigen_sub_pt, eigen_pixel, eigen_map. destruct (Z.eqb_spec (nb_entries f) unknown); [contradiction|].
  destruct (Z.eqb_spec (l_nsub (f_lay f)) 0); [lia|]. rewrite I, C. cbn [negb bind]. split; eexists; reflexivity.
Qed.
