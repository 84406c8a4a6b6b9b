(** Lemmas about fields with storage. *)
From Verif Require Import Base CIntModel GridModel GridSpec GridProofs GridProofs2 GridProofs3 StridedModel StridedProofs.
From Verif Require Import LayoutModel LayoutSpec LayoutProofs LayoutProofs2 FieldModel FieldSpec.

Section Fields.
Context {A : Type}.
Implicit Types f g : field A.

Lemma ready_strides f : ready f -> exists s, get_strides (f_lay f) SubPt 1 = Ok s /\
  embeds (get_shape (f_lay f) SubPt) s (buffer_scalars (f_lay f)).
Proof. intros (S & _). now apply sub_pt_embeds. Qed.

Lemma nsub_known f : ready f -> has_nsub f = true.
Proof. intros ((_ & _ & H & _) & _). unfold has_nsub, unknown. lia. Qed.

Lemma shape_prod (l : layout) : zprod (get_shape l SubPt) = zprod (l_comp l) * l_nsub l * zprod (l_pix l).
Proof. unfold get_shape, get_sub_pt_shape. rewrite !zprod_app. unfold zprod at 2; cbn [fold_right]. ring. Qed.

Lemma value_ok f c : ready f -> logical f c -> exists v, value f c = Ok v.
Proof.
  intros R L. destruct (ready_strides f R) as (s & E & _ & W & _). unfold value. rewrite E. cbn [bind].
  destruct R as (_ & _ & _ & P & _ & _ & _ & N). specialize (W c L). unfold len in N.
  destruct (f_vals f) as [|d v] eqn:EV; [cbn [length] in N; lia|]. exists (nth (Z.to_nat (off s c)) (d :: v) d).
  apply rd_ok. lia.
Qed.

(** ** Assignment *)
Lemma with_vals_ready f v : ready f -> length v = length (f_vals f) -> ready (with_vals f v).
Proof. intros (H1 & H2 & H3 & H4 & H5 & H6 & H7 & H8) L. unfold ready, with_vals, len in *. cbn. rewrite L. auto 10. Qed.

Lemma get_shape_nonempty (l : layout) : get_shape l SubPt <> [].
Proof. unfold get_shape, get_sub_pt_shape. destruct (l_comp l); discriminate. Qed.

Lemma sort_exists n s : exists axes, sort_outcome n s axes.
Proof. exists (compute_axes_order n s). apply compute_axes_order_outcome. Qed.

Lemma assign_global sort f g s : ready f -> ready g -> f_glob f = true ->
  get_strides (f_lay f) SubPt 1 = Ok s -> sort_outcome (get_shape (f_lay f) SubPt) s sort ->
  get_shape (f_lay f) SubPt = get_shape (f_lay g) SubPt ->
  Forall (fun x => 0 < x) (l_pix (f_lay f)) -> zprod (get_shape (f_lay f) SubPt) < 2 ^ 31 ->
  exists f', assign_with sort f g = Ok f' /\ ready f' /\ f_lay f' = f_lay f /\
    (forall c, logical f c -> value f' c = value g c) /\
    (forall j, (forall c, logical f c -> off s c <> j) -> rd (f_vals f') j = rd (f_vals f) j).
Proof.
  intros Rf Rg G Es So Esh Hpos Hbig.
  destruct (ready_strides f Rf) as (os & Eo & Lo & Wo & Io). rewrite Es in Eo. apply Ok_inj in Eo. subst os.
  destruct (ready_strides g Rg) as (is & Ei & Li & Wi & _). rewrite <- Esh in Li, Wi.
  assert (Rf' := Rf). assert (Rg' := Rg).
  destruct Rf' as ((Hc & Hp & Hs & _) & _ & Pf & Padf & _ & _ & _ & Nf).
  destruct Rg' as (_ & _ & Pg & Padg & _ & _ & _ & Ng). unfold len in Nf, Ng.
  assert (Hall : Forall (fun x => 0 < x) (get_shape (f_lay f) SubPt)).
  { unfold get_shape, get_sub_pt_shape. apply Forall_app. split; [apply Forall_app; split; [exact Hp|repeat constructor; exact Hs]|exact Hpos]. }
  destruct (strided_copy_correct sort (get_shape (f_lay f) SubPt) is s (f_vals g) (f_vals f) So
    (get_shape_nonempty _) Hall Hbig Li Lo) as (v & Ev & Lv & V1 & V2).
  { intros c Hcc. specialize (Wi c Hcc). lia. }
  { intros c Hcc. specialize (Wo c Hcc). lia. }
  { exact Io. }
  exists (with_vals f v). unfold assign_with. rewrite G, <- Esh, (proj2 (zlist_eqb_eq _ _) eq_refl). cbn [negb].
  rewrite Es, Ei. cbn [bind]. rewrite Pf, Pg, !Z.eqb_refl. cbn [andb]. rewrite Ev. cbn [bind].
  split; [reflexivity|]. split; [now apply with_vals_ready|]. split; [reflexivity|]. split.
  - intros c Hcc. unfold value. cbn [with_vals f_lay f_vals]. rewrite Es, Ei. cbn [bind]. now apply V1.
  - exact V2.
Qed.

Lemma assign_global_mismatch sort f g : f_glob f = true ->
  get_shape (f_lay f) SubPt <> get_shape (f_lay g) SubPt -> assign_with sort f g = Err FieldError.
Proof.
  intros G H. unfold assign_with. rewrite G. destruct (zlist_eqb _ _) eqn:E; [|reflexivity].
  apply zlist_eqb_eq in E. contradiction.
Qed.

Lemma assign_global_empty sort f g : ready f -> ready g -> f_glob f = true ->
  get_shape (f_lay f) SubPt = get_shape (f_lay g) SubPt -> l_npix (f_lay f) = 0 ->
  exists f', assign_with sort f g = Ok f' /\ f_lay f' = f_lay f /\ f_vals f' = f_vals f.
Proof.
  intros Rf Rg G Esh Hz.
  destruct (ready_strides f Rf) as (os & Eo & Lo & _). destruct (ready_strides g Rg) as (is & Ei & Li & _).
  rewrite <- Esh in Li. destruct Rf as (_ & _ & Pf & _ & Np & _). destruct Rg as (_ & _ & Pg & _).
  unfold assign_with. rewrite G, <- Esh, (proj2 (zlist_eqb_eq _ _) eq_refl). cbn [negb].
  rewrite Eo, Ei. cbn [bind]. rewrite Pf, Pg, !Z.eqb_refl. cbn [andb].
  rewrite strided_copy_empty; [cbn [bind]; eexists; split; [reflexivity|]; split; reflexivity| |assumption|assumption].
  rewrite shape_prod. rewrite Hz in Np. rewrite <- Np. ring.
Qed.

(** ** Operations on the flat buffer *)
Lemma eigen_vec_size_ready f : ready f -> eigen_vec_size f = if l_npix (f_lay f) =? 0 then Ok 0 else Ok (zprod (get_shape (f_lay f) SubPt)).
Proof.
  intros R. unfold eigen_vec_size, nb_entries. rewrite (nsub_known f R). rewrite shape_prod.
  destruct R as ((Hc & _ & Hs & _) & I & _ & _ & Np & [Hnn _] & _). rewrite I. cbn [negb]. unfold unknown.
  destruct (Z.eqb_spec (l_nsub (f_lay f) * l_npix (f_lay f)) (-1)); [nia|].
  destruct (Z.eqb_spec (l_npix (f_lay f)) 0) as [E|E]; f_equal; [rewrite E; ring|].
  rewrite Hc, <- Np. ring.
Qed.

Lemma eigen_vec_size_ready' f : ready f -> eigen_vec_size f = Ok (zprod (get_shape (f_lay f) SubPt)).
Proof.
  intros R. rewrite eigen_vec_size_ready by assumption. destruct (Z.eqb_spec (l_npix (f_lay f)) 0) as [E|E]; [|reflexivity].
  rewrite shape_prod. destruct R as (_ & _ & _ & _ & Np & _). rewrite E in Np. rewrite <- Np. f_equal. ring.
Qed.

Lemma prefix_fits f : ready f -> 0 <= zprod (get_shape (f_lay f) SubPt) <= buffer_scalars (f_lay f).
Proof.
  intros ((Hc & Hp & Hs & _) & _ & _ & _ & Np & [H1 H2] & _). rewrite shape_prod, <- Np. unfold buffer_scalars.
  rewrite Hc. pose proof (zprod_pos _ Hp). split; [apply Z.mul_nonneg_nonneg; [apply Z.mul_nonneg_nonneg; lia|lia]|].
  replace (l_nsub (f_lay f) * l_nbuf (f_lay f) * zprod (l_comp (f_lay f)))
    with (zprod (l_comp (f_lay f)) * l_nsub (f_lay f) * l_nbuf (f_lay f)) by ring.
  apply Z.mul_le_mono_nonneg_l; [apply Z.mul_nonneg_nonneg; lia|lia].
Qed.

Lemma span_ready f ptr start n : f_ptr f = Some (f_gen f) -> ptr = f_ptr f -> 0 <= start -> start + n <= len (f_vals f) ->
  span f ptr start n = Ok (firstn (Z.to_nat n) (skipn (Z.to_nat start) (f_vals f))).
Proof.
  intros P -> Hs Hn. unfold span. destruct (Z.leb_spec n 0) as [H|H].
  - replace (Z.to_nat n) with 0%nat by lia. reflexivity.
  - rewrite P, Z.eqb_refl. replace (0 <=? start) with true by lia. replace (start + n <=? len (f_vals f)) with true by lia. reflexivity.
Qed.

Lemma nth_zip op a : forall b k d1 d2 d, (k < length a)%nat -> (k < length b)%nat ->
  nth k (zip_with (A:=A) op a b) d = op (nth k a d1) (nth k b d2).
Proof.
  unfold zip_with. induction a as [|x a IH]; intros [|y b] k d1 d2 d Ha Hb; cbn [length] in *; try lia.
  destruct k as [|k]; [reflexivity|]. cbn [combine map nth]. apply IH; lia.
Qed.

Lemma zip_length op (a b : list A) : length a = length b -> length (zip_with op a b) = length a.
Proof. intros H. unfold zip_with. rewrite map_length, combine_length, H. apply Nat.min_id. Qed.

Lemma rd_prefix (w v : list A) i : (length w <= length v)%nat -> rd (w ++ skipn (length w) v) i =
  if i <? Z.of_nat (length w) then rd w i else rd v i.
Proof.
  intros L. unfold rd. destruct (Z.ltb_spec i 0); [now destruct (i <? _)|].
  destruct (Z.ltb_spec i (Z.of_nat (length w))).
  - rewrite nth_error_app1 by lia. reflexivity.
  - rewrite nth_error_app2 by lia. assert (E : forall k n, nth_error (skipn n v) k = nth_error v (n + k)).
    { clear. intros k n. revert v; induction n as [|n IH]; intros v; [reflexivity|]. destruct v; [now destruct k|]. apply IH. }
    rewrite E. f_equal. now replace (length w + (Z.to_nat i - length w))%nat with (Z.to_nat i) by lia.
Qed.

(** A combination of two buffers applied to the mapped prefix. *)
Lemma vec_update_ready op f g : ready f -> ready g ->
  zprod (get_shape (f_lay f) SubPt) = zprod (get_shape (f_lay g) SubPt) ->
  (forall a b : list A, length a = length b -> length (op a b) = length a) ->
  let n := Z.to_nat (zprod (get_shape (f_lay f) SubPt)) in
  exists f', vec_update f op g = Ok f' /\ ready f' /\ f_lay f' = f_lay f /\
    f_vals f' = op (firstn n (f_vals f)) (firstn n (f_vals g)) ++ skipn n (f_vals f).
Proof.
  intros Rf Rg E Hop n. unfold vec_update. rewrite !eigen_vec_size_ready' by assumption. cbn [bind].
  rewrite E, Z.eqb_refl. cbn [negb]. rewrite <- E.
  pose proof (prefix_fits f Rf) as Ff. pose proof (prefix_fits g Rg) as Fg.
  assert (Pf : f_ptr f = Some (f_gen f)) by apply Rf. assert (Pg : f_ptr g = Some (f_gen g)) by apply Rg.
  assert (Nf : len (f_vals f) = buffer_scalars (f_lay f) + f_pad f) by apply Rf.
  assert (Ng : len (f_vals g) = buffer_scalars (f_lay g) + f_pad g) by apply Rg.
  assert (0 <= f_pad f) by apply Rf. assert (0 <= f_pad g) by apply Rg.
  rewrite !span_ready by (assumption || reflexivity || lia). cbn [bind]. change (Z.to_nat 0) with 0%nat. cbn [skipn].
  fold n. unfold len in *.
  assert (La : length (firstn n (f_vals f)) = n) by (apply firstn_length_le; lia).
  assert (Lb : length (firstn n (f_vals g)) = n) by (apply firstn_length_le; lia).
  eexists; split; [reflexivity|]. unfold put_prefix. rewrite Hop by congruence. rewrite La.
  split; [|split; reflexivity]. apply with_vals_ready; [assumption|]. rewrite app_length, Hop, La, skipn_length by congruence. lia.
Qed.

Lemma rd_firstn (v : list A) n i d : 0 <= i < Z.of_nat n -> (n <= length v)%nat -> nth (Z.to_nat i) (firstn n v) d = nth (Z.to_nat i) v d.
Proof. intros H L. rewrite <- (firstn_skipn n v) at 2. rewrite app_nth1; [reflexivity|]. rewrite firstn_length_le by assumption. lia. Qed.

(** Pointwise meaning when both fields have the same shape and strides and the
    pixels fill the buffers. *)
Lemma vec_update_pointwise op f g : ready f -> ready g -> unpadded f ->
  get_shape (f_lay f) SubPt = get_shape (f_lay g) SubPt ->
  get_strides (f_lay f) SubPt 1 = get_strides (f_lay g) SubPt 1 ->
  exists f', vec_update f (zip_with op) g = Ok f' /\ ready f' /\ f_lay f' = f_lay f /\
    (forall c, logical f c -> exists a b, value f c = Ok a /\ value g c = Ok b /\ value f' c = Ok (op a b)) /\
    (forall j, buffer_scalars (f_lay f) <= j -> rd (f_vals f') j = rd (f_vals f) j).
Proof.
  intros Rf Rg U E1 E2.
  destruct (vec_update_ready (zip_with op) f g Rf Rg) as (f' & H1 & H2 & H3 & H4); [now rewrite E1|apply zip_length|].
  exists f'. split; [exact H1|]. split; [exact H2|]. split; [exact H3|].
  set (n := Z.to_nat (zprod (get_shape (f_lay f) SubPt))) in *.
  pose proof (prefix_fits f Rf) as Ff. pose proof (prefix_fits g Rg) as Fg. rewrite <- E1 in Fg.
  assert (Nf : len (f_vals f) = buffer_scalars (f_lay f) + f_pad f) by apply Rf.
  assert (Ng : len (f_vals g) = buffer_scalars (f_lay g) + f_pad g) by apply Rg.
  assert (0 <= f_pad f) by apply Rf. assert (0 <= f_pad g) by apply Rg. unfold len in *.
  assert (EB : zprod (get_shape (f_lay f) SubPt) = buffer_scalars (f_lay f)).
  { rewrite shape_prod. unfold buffer_scalars. destruct Rf as ((Hc & _) & _ & _ & _ & Np & _). rewrite U, Np, Hc. ring. }
  assert (La : length (firstn n (f_vals f)) = n) by (apply firstn_length_le; lia).
  assert (Lb : length (firstn n (f_vals g)) = n) by (apply firstn_length_le; lia).
  split.
  - intros c L. destruct (ready_strides f Rf) as (s & Es & _ & W & _). specialize (W c L).
    destruct (value_ok f c Rf L) as (a & Va). assert (Lg : logical g c) by (unfold logical; now rewrite <- E1).
    destruct (value_ok g c Rg Lg) as (b & Vb).
    exists a, b. split; [exact Va|]. split; [exact Vb|]. unfold value in *. rewrite H3, <- E2, Es in *. cbn [bind] in *. rewrite H4.
    rewrite (rd_ok _ _ a) in Va by lia. rewrite (rd_ok _ _ b) in Vb by lia. apply Ok_inj in Va, Vb.
    rewrite (rd_ok _ _ a) by (rewrite app_length, zip_length, La, skipn_length by congruence; lia). f_equal.
    rewrite app_nth1 by (rewrite zip_length by congruence; lia).
    rewrite (nth_zip op _ _ _ a b) by lia. rewrite !rd_firstn by lia. congruence.
  - intros j Hj. rewrite H4. assert (LZ : length (zip_with op (firstn n (f_vals f)) (firstn n (f_vals g))) = n) by (rewrite zip_length; congruence).
    pose proof (rd_prefix (zip_with op (firstn n (f_vals f)) (firstn n (f_vals g))) (f_vals f) j) as X. rewrite LZ in X.
    rewrite X by lia. destruct (Z.ltb_spec j (Z.of_nat n)); [lia|reflexivity].
Qed.

Lemma vec_update_ext op op' f g : (forall a b, length a = length b -> op a b = op' a b) ->
  ready f -> ready g -> vec_update (A:=A) f op g = vec_update f op' g.
Proof.
  intros H Rf Rg. unfold vec_update. rewrite !eigen_vec_size_ready' by assumption. cbn [bind].
  destruct (Z.eqb_spec (zprod (get_shape (f_lay f) SubPt)) (zprod (get_shape (f_lay g) SubPt))) as [E|E]; [|reflexivity]. cbn [negb].
  pose proof (prefix_fits f Rf) as Ff. pose proof (prefix_fits g Rg) as Fg.
  assert (Nf : len (f_vals f) = buffer_scalars (f_lay f) + f_pad f) by apply Rf.
  assert (Ng : len (f_vals g) = buffer_scalars (f_lay g) + f_pad g) by apply Rg.
  assert (0 <= f_pad f) by apply Rf. assert (0 <= f_pad g) by apply Rg.
  rewrite !span_ready by (reflexivity || lia || apply Rf || apply Rg). cbn [bind]. rewrite H; [reflexivity|].
  unfold len in *. cbn [skipn]. change (Z.to_nat 0) with 0%nat. cbn [skipn]. rewrite !firstn_length_le by lia. lia.
Qed.

Lemma zip_snd (a : list A) : forall b, length a = length b -> zip_with (fun _ y => y) a b = b.
Proof. unfold zip_with. induction a as [|x a IH]; intros [|y b] H; cbn [length] in H; try lia; [reflexivity|]. cbn. f_equal. apply IH. lia. Qed.
Lemma zip_opp (opp : A -> A) (a : list A) : forall b, length a = length b -> zip_with (fun _ y => opp y) a b = map opp b.
Proof. unfold zip_with. induction a as [|x a IH]; intros [|y b] H; cbn [length] in H; try lia; [reflexivity|]. cbn. f_equal. apply IH. lia. Qed.

Lemma assign_local sort f g : ready f -> ready g -> unpadded f -> f_glob f = false ->
  get_shape (f_lay f) SubPt = get_shape (f_lay g) SubPt ->
  get_strides (f_lay f) SubPt 1 = get_strides (f_lay g) SubPt 1 ->
  exists f', assign_with sort f g = Ok f' /\ ready f' /\ f_lay f' = f_lay f /\
    (forall c, logical f c -> value f' c = value g c) /\
    (forall j, buffer_scalars (f_lay f) <= j -> rd (f_vals f') j = rd (f_vals f) j).
Proof.
  intros Rf Rg U G E1 E2. unfold assign_with. rewrite G.
  rewrite (vec_update_ext _ (zip_with (fun _ y => y))) by (try assumption; intros; symmetry; now apply zip_snd).
  destruct (vec_update_pointwise (fun _ y => y) f g Rf Rg U E1 E2) as (f' & H1 & H2 & H3 & H4 & H5).
  exists f'. repeat (split; [assumption|]). split; [|exact H5].
  intros c L. destruct (H4 c L) as (a & b & _ & Vb & V). congruence.
Qed.

Lemma neg_pointwise (opp : A -> A) f g : ready f -> ready g -> unpadded f ->
  get_shape (f_lay f) SubPt = get_shape (f_lay g) SubPt ->
  get_strides (f_lay f) SubPt 1 = get_strides (f_lay g) SubPt 1 ->
  exists f', assign_neg opp f g = Ok f' /\ ready f' /\ f_lay f' = f_lay f /\
    (forall c, logical f c -> exists b, value g c = Ok b /\ value f' c = Ok (opp b)) /\
    (forall j, buffer_scalars (f_lay f) <= j -> rd (f_vals f') j = rd (f_vals f) j).
Proof.
  intros Rf Rg U E1 E2. unfold assign_neg.
  rewrite (vec_update_ext _ (zip_with (fun _ y => opp y))) by (try assumption; intros; symmetry; now apply zip_opp).
  destruct (vec_update_pointwise (fun _ y => opp y) f g Rf Rg U E1 E2) as (f' & H1 & H2 & H3 & H4 & H5).
  exists f'. repeat (split; [assumption|]). split; [|exact H5].
  intros c L. destruct (H4 c L) as (a & b & _ & Vb & V). eauto.
Qed.

(** ** Resizing *)
Lemma vec_resize_length (zero : A) v n : length (vec_resize zero v n) = n.
Proof. unfold vec_resize. rewrite app_length, firstn_length, repeat_length. lia. Qed.

Lemma rd_vec_resize (zero : A) v n i : 0 <= i < Z.of_nat n -> rd (vec_resize zero v n) i =
  if i <? Z.of_nat (length v) then rd v i else Ok zero.
Proof.
  intros H. unfold vec_resize. rewrite (rd_ok _ _ zero) by (rewrite app_length, firstn_length, repeat_length; lia).
  destruct (Z.ltb_spec i (Z.of_nat (length v))).
  - rewrite (rd_ok _ _ zero) by lia. f_equal. rewrite app_nth1 by (rewrite firstn_length; lia).
    destruct (le_lt_dec n (length v)); [apply rd_firstn; lia|]. now rewrite firstn_all2 by lia.
  - f_equal. rewrite app_nth2 by (rewrite firstn_length; lia). apply nth_repeat.
Qed.

Definition sizable f : Prop := sane (f_lay f) /\ f_init f = true /\ 0 <= f_pad f /\
  l_npix (f_lay f) = zprod (l_pix (f_lay f)) /\ 0 <= l_npix (f_lay f) <= l_nbuf (f_lay f).

Lemma resize_ready (zero : A) f : sizable f ->
  exists f', resize zero f = (f', Ok tt) /\ ready f' /\ f_lay f' = f_lay f /\ f_pad f' = f_pad f /\ f_glob f' = f_glob f /\
  (forall j, 0 <= j < len (f_vals f') -> rd (f_vals f') j = if j <? len (f_vals f) then rd (f_vals f) j else Ok zero).
Proof.
  intros (S & I & P & Np & Hn). unfold resize.
  assert (K : has_nsub f = true) by (destruct S as (_ & _ & H & _); unfold has_nsub, unknown; lia).
  rewrite K. cbn [negb].
  assert (Hc : l_nbc (f_lay f) = zprod (l_comp (f_lay f))) by apply S.
  assert (Hp : Forall (fun x => 0 < x) (l_comp (f_lay f))) by apply S. assert (Hs : 0 < l_nsub (f_lay f)) by apply S.
  pose proof (zprod_pos _ Hp) as Hz. rewrite <- Hc in Hz.
  assert (E0 : 0 <= l_nsub (f_lay f) * l_nbuf (f_lay f) * l_nbc (f_lay f) + f_pad f).
  { apply Z.add_nonneg_nonneg; [|lia]. apply Z.mul_nonneg_nonneg; [apply Z.mul_nonneg_nonneg; lia|lia]. }
  destruct (Z.eqb_spec (len (f_vals f)) (l_nsub (f_lay f) * l_nbuf (f_lay f) * l_nbc (f_lay f) + f_pad f)) as [E|E];
  [destruct (Z.eqb_spec (f_cur f) (l_nsub (f_lay f) * l_nbuf (f_lay f))) as [E'|E']|]; cbn [andb].
  - eexists; split; [reflexivity|]. split; [|repeat split; cbn].
    + unfold ready, buffer_scalars. cbn. auto 10.
    + intros j Hj. destruct (Z.ltb_spec j (len (f_vals f))); [reflexivity|lia].
  - destruct (Z.ltb_spec (l_nsub (f_lay f) * l_nbuf (f_lay f) * l_nbc (f_lay f) + f_pad f) 0); [lia|].
    eexists; split; [reflexivity|]. split; [|repeat split; cbn].
    + unfold ready, buffer_scalars, len. cbn. rewrite vec_resize_length, Z2Nat.id by lia. auto 10.
    + intros j Hj. unfold len in *. rewrite vec_resize_length in Hj. apply rd_vec_resize. exact Hj.
  - destruct (Z.ltb_spec (l_nsub (f_lay f) * l_nbuf (f_lay f) * l_nbc (f_lay f) + f_pad f) 0); [lia|].
    eexists; split; [reflexivity|]. split; [|repeat split; cbn].
    + unfold ready, buffer_scalars, len. cbn. rewrite vec_resize_length, Z2Nat.id by lia. auto 10.
    + intros j Hj. unfold len in *. rewrite vec_resize_length in Hj. apply rd_vec_resize. exact Hj.
Qed.

Lemma ready_sizable f : ready f -> sizable f.
Proof. intros (H1 & H2 & H3 & H4 & H5 & H6 & _). unfold sizable. tauto. Qed.

Lemma set_pad_ready (zero : A) f p : ready f -> 0 <= p ->
  exists f', set_pad_size zero f p = (f', Ok tt) /\ ready f' /\ f_lay f' = f_lay f /\ f_pad f' = p /\
  (forall c, logical f c -> value f' c = value f c).
Proof.
  intros R Hp. unfold set_pad_size.
  assert (S : sizable (mk_field (f_lay f) (f_glob f) (f_init f) (f_cur f) p (f_vals f) (f_cap f) (f_gen f) (f_ptr f))).
  { destruct R as (H1 & H2 & H3 & H4 & H5 & H6 & _). unfold sizable; cbn. tauto. }
  destruct (resize_ready zero _ S) as (f' & E & R' & L' & P' & _ & V). cbn in *. exists f'.
  split; [exact E|]. split; [exact R'|]. split; [exact L'|]. split; [exact P'|].
  intros c Lc. destruct (ready_strides f R) as (s & Es & _ & W & _). unfold value. rewrite L', Es. cbn [bind].
  specialize (W c Lc). assert (Nf : len (f_vals f) = buffer_scalars (f_lay f) + f_pad f) by apply R.
  assert (Nf' : len (f_vals f') = buffer_scalars (f_lay f') + f_pad f') by apply R'. rewrite L' in Nf'.
  assert (0 <= f_pad f) by apply R. assert (0 <= f_pad f') by apply R'.
  rewrite V by lia. destruct (Z.ltb_spec (off s c) (len (f_vals f))); [reflexivity|lia].
Qed.
End Fields.
