(** Lemmas about the grid model. *)
From Verif Require Import Base CIntModel GridModel.
From Verif Require Export GridSpec.

(** ** 32-bit conversions *)

Lemma wrap32_id z : - 2 ^ 31 <= z < 2 ^ 31 -> wrap32 z = z.
Proof. intros H. unfold wrap32. rewrite Z.mod_small; lia. Qed.

Lemma wrap32_range z : - 2 ^ 31 <= wrap32 z < 2 ^ 31.
Proof. unfold wrap32. pose proof (Z.mod_pos_bound (z + 2 ^ 31) (2 ^ 32)). lia. Qed.

Lemma accumulate_mul_from shape a :
  (forall k, (k <= length shape)%nat -> - 2 ^ 31 <= a * zprod (firstn k shape) < 2 ^ 31) ->
  fold_left (fun acc n => wrap32 (acc * n)) shape a = a * zprod shape.
Proof.
  revert a; induction shape as [|n r IH]; intros a H; cbn [fold_left zprod fold_right].
  - lia.
  - pose proof (H 1%nat ltac:(simpl; lia)) as H1. cbn [firstn zprod fold_right] in H1.
    rewrite Z.mul_1_r in H1.
    rewrite wrap32_id by lia.
    rewrite IH.
    + fold (zprod r). ring.
    + intros k Hk. specialize (H (S k) ltac:(simpl; lia)).
      cbn [firstn zprod fold_right] in H. fold (zprod (firstn k r)) in H.
      rewrite Z.mul_assoc in H. exact H.
Qed.

Lemma accumulate_mul_exact shape :
  (forall k, (k <= length shape)%nat -> - 2 ^ 31 <= zprod (firstn k shape) < 2 ^ 31) ->
  accumulate_mul shape = zprod shape.
Proof.
  intros H. unfold accumulate_mul. rewrite accumulate_mul_from; [ring|].
  intros k Hk. rewrite Z.mul_1_l. apply H; assumption.
Qed.

(** ** [modulo] *)

Lemma modulo_spec a b : 0 < b -> modulo a b = Ok (a mod b).
Proof.
  intros Hb. unfold modulo. destruct (Z.eqb_spec b 0); [lia|]. f_equal.
  pose proof (Z.quot_rem a b ltac:(lia)) as E.
  pose proof (Z.rem_bound_abs a b ltac:(lia)) as B.
  rewrite Z.rem_mod_nonneg by lia.
  replace (b + Z.rem a b) with (a + (1 - Z.quot a b) * b) by lia.
  rewrite Z.mod_add by lia. reflexivity.
Qed.

(** ** Weighted sums over axes *)

(** [Σ_{a in axes} strides[a] * c[a]] *)
Definition asum (strides c : list Z) (axes : list nat) : Z :=
  zsum (map (fun a => zn strides a * zn c a) axes).

Lemma asum_perm s c l1 l2 : Permutation l1 l2 -> asum s c l1 = asum s c l2.
Proof. intros H; unfold asum; apply zsum_perm, Permutation_map, H. Qed.

Lemma asum_cons s c a l : asum s c (a :: l) = zn s a * zn c a + asum s c l.
Proof. reflexivity. Qed.

Lemma asum_app s c l1 l2 : asum s c (l1 ++ l2) = asum s c l1 + asum s c l2.
Proof. unfold asum; now rewrite map_app, zsum_app. Qed.

Lemma asum_ext s c c' l :
  (forall a, In a l -> zn c a = zn c' a) -> asum s c l = asum s c' l.
Proof.
  intros H; unfold asum; f_equal; apply map_ext_in.
  intros a Ha; now rewrite H.
Qed.

Lemma fold_left_sum_gen {A} (f : A -> Z) l a :
  fold_left (fun acc p => acc + f p) l a = a + zsum (map f l).
Proof. revert a; induction l as [|x r IH]; intros a; simpl; [lia|]. rewrite IH; lia. Qed.

Lemma zn_cons_S x l i : zn (x :: l) (S i) = zn l i.
Proof. reflexivity. Qed.

Lemma zn_map_seq (f : nat -> Z) n i : (i < n)%nat -> zn (map f (seq 0 n)) i = f i.
Proof.
  intros H. unfold zn. rewrite (nth_indep _ 0 (f 0%nat)) by (rewrite map_length, seq_length; lia).
  rewrite map_nth, seq_nth by lia. reflexivity.
Qed.

Lemma map_combine3_seq (s l c : list Z) :
  length l = length s -> length c = length s ->
  map (fun p => fst p * (snd (snd p) - fst (snd p))) (combine s (combine l c)) =
  map (fun a => zn s a * (zn c a - zn l a)) (seq 0 (length s)).
Proof.
  revert l c; induction s as [|x s IH]; intros [|y l] [|z c]; simpl; intros Hl Hc; try lia; [reflexivity|].
  f_equal. rewrite <- seq_shift, map_map, IH by lia. reflexivity.
Qed.

Lemma stride_sum_asum s l c :
  length l = length s -> length c = length s ->
  stride_sum s l c =
  asum s (map (fun a => zn c a - zn l a) (seq 0 (length s))) (seq 0 (length s)).
Proof.
  intros Hl Hc. unfold stride_sum.
  rewrite (fold_left_sum_gen (fun p => fst p * (snd (snd p) - fst (snd p)))).
  rewrite map_combine3_seq by assumption.
  unfold asum. rewrite Z.add_0_l. f_equal. apply map_ext_in.
  intros a Ha. apply in_seq in Ha. rewrite zn_map_seq by lia. reflexivity.
Qed.

(** ** Super-increasing stride orders

    [superinc n s raxes]: walking the axes from slowest to fastest, each
    stride is larger than the largest offset reachable with the remaining
    axes.  Dense and padded nested layouts are of this kind. *)
Definition maxoff (n s : list Z) (axes : list nat) : Z :=
  zsum (map (fun a => zn s a * (zn n a - 1)) axes).

Fixpoint superinc (n s : list Z) (raxes : list nat) : Prop :=
  match raxes with
  | [] => True
  | a :: r => maxoff n s r < zn s a /\ superinc n s r
  end.

Definition digits_ok (n c : list Z) (axes : list nat) : Prop :=
  forall a, In a axes -> 0 <= zn c a < zn n a.

Lemma superinc_stride_pos n s c raxes :
  digits_ok n c raxes -> superinc n s raxes ->
  forall a, In a raxes -> 0 < zn s a.
Proof.
  induction raxes as [|b r IH]; [easy|].
  intros Hd [Hb Hr].
  assert (Hd' : digits_ok n c r) by (intros x Hx; apply Hd; now right).
  assert (Hnn : 0 <= maxoff n s r).
  { unfold maxoff. clear -IH Hd' Hr. specialize (IH Hd' Hr).
    induction r as [|x r IHr]; simpl; [lia|].
    pose proof (IH x (or_introl eq_refl)). pose proof (Hd' x (or_introl eq_refl)).
    assert (0 <= zn s x * (zn n x - 1)) by nia.
    cut (0 <= zsum (map (fun a => zn s a * (zn n a - 1)) r)); [lia|].
    apply IHr.
    - intros y Hy; apply IH; now right.
    - apply Hr.
    - intros y Hy; apply Hd'; now right. }
  intros a [->|Ha]; [lia|]. now apply IH.
Qed.

Lemma asum_bounds n s c axes :
  digits_ok n c axes -> (forall a, In a axes -> 0 <= zn s a) ->
  0 <= asum s c axes <= maxoff n s axes.
Proof.
  induction axes as [|a r IH]; intros Hd Hp; unfold asum, maxoff in *; simpl; [lia|].
  pose proof (Hd a (or_introl eq_refl)). pose proof (Hp a (or_introl eq_refl)).
  assert (digits_ok n c r) by (intros x Hx; apply Hd; now right).
  assert (forall x, In x r -> 0 <= zn s x) by (intros x Hx; apply Hp; now right).
  specialize (IH H1 H2). nia.
Qed.

(** Decoding recovers the digits. *)
Lemma ccoord_loop_decode n s c raxes ret :
  NoDup raxes -> superinc n s raxes -> digits_ok n c raxes ->
  (forall a, In a raxes -> (a < length ret)%nat) ->
  exists ret', ccoord_loop s raxes (asum s c raxes) ret = Ok ret' /\
    length ret' = length ret /\
    (forall a, In a raxes -> zn ret' a = zn c a) /\
    (forall a, ~ In a raxes -> zn ret' a = zn ret a).
Proof.
  revert ret; induction raxes as [|a r IH]; intros ret Hnd Hsi Hd Hlen.
  - exists ret; simpl; repeat split; easy.
  - inversion Hnd as [|? ? Hna Hnd']; subst.
    destruct Hsi as [Ha Hr].
    assert (Hd' : digits_ok n c r) by (intros x Hx; apply Hd; now right).
    assert (Hp : forall x, In x (a :: r) -> 0 < zn s x).
    { apply (superinc_stride_pos n s c); [exact Hd|split; assumption]. }
    pose proof (Hp a (or_introl eq_refl)) as Hpa.
    pose proof (asum_bounds n s c r Hd' ltac:(intros x Hx; specialize (Hp x (or_intror Hx)); lia)) as B.
    pose proof (Hd a (or_introl eq_refl)) as Da.
    cbn [ccoord_loop]. destruct (Z.eqb_spec (zn s a) 0); [lia|].
    rewrite asum_cons.
    assert (Eq : Z.quot (zn s a * zn c a + asum s c r) (zn s a) = zn c a).
    { rewrite Z.quot_div_nonneg by nia.
      symmetry. apply Z.div_unique with (r := asum s c r); nia. }
    rewrite Eq.
    replace (zn s a * zn c a + asum s c r - zn c a * zn s a) with (asum s c r) by ring.
    destruct (IH (upd ret a (zn c a))) as (ret' & E & L & I1 & I2); try assumption.
    + intros x Hx. rewrite upd_length. apply Hlen; now right.
    + exists ret'. split; [exact E|]. rewrite upd_length in L. split; [exact L|]. split.
      * intros x [->|Hx]; [|now apply I1].
        rewrite I2 by assumption. unfold zn at 1. apply nth_upd_same. apply Hlen; now left.
      * intros x Hx. rewrite I2 by (intros Hin; apply Hx; now right).
        unfold zn. apply nth_upd_other. intros ->. apply Hx; now left.
Qed.

(** ** Dense orders *)

(** Running strides as the contiguity check computes them, without wrap. *)
Fixpoint dense (n s : list Z) (axes : list nat) (cur : Z) : Prop :=
  match axes with
  | [] => True
  | a :: r => zn s a = cur /\ dense n s r (cur * zn n a)
  end.

Definition aprod (n : list Z) (axes : list nat) : Z := zprod (map (zn n) axes).

Lemma dense_app n s l1 l2 cur :
  dense n s (l1 ++ l2) cur <-> dense n s l1 cur /\ dense n s l2 (cur * aprod n l1).
Proof.
  revert cur; induction l1 as [|a r IH]; intros cur; simpl.
  - unfold aprod; simpl. rewrite Z.mul_1_r. tauto.
  - rewrite IH. unfold aprod at 2; simpl. fold (aprod n r). rewrite Z.mul_assoc. tauto.
Qed.

Lemma dense_maxoff n s axes cur :
  dense n s axes cur -> maxoff n s axes = cur * aprod n axes - cur.
Proof.
  revert cur; induction axes as [|a r IH]; intros cur; simpl.
  - unfold maxoff, aprod; simpl; lia.
  - intros [Ha Hr]. apply IH in Hr. unfold maxoff in *; simpl. rewrite Hr.
    unfold aprod; simpl. fold (aprod n r). rewrite Ha. ring.
Qed.

Lemma dense_superinc n s axes :
  dense n s axes 1 -> superinc n s (rev axes).
Proof.
  induction axes as [|a r IH] using rev_ind; intros H; [exact I|].
  apply dense_app in H; destruct H as [H1 [H2 _]].
  rewrite rev_app_distr; simpl. split; [|now apply IH].
  assert (E : maxoff n s (rev r) = maxoff n s r).
  { unfold maxoff. apply zsum_perm, Permutation_map. symmetry. apply Permutation_rev. }
  rewrite E, (dense_maxoff _ _ _ 1 H1). lia.
Qed.

Lemma contiguous_walk_acc n s axes cur : contiguous_walk n s axes cur false = false.
Proof. revert cur; induction axes as [|a r IH]; intros cur; simpl; auto. Qed.

(** The check agrees with [dense] as long as the running product of the
    visited extents stays below 2^31. *)
Lemma contiguous_walk_dense n s axes cur :
  0 < cur -> (forall a, In a axes -> 0 < zn n a) -> cur * aprod n axes < 2 ^ 31 ->
  contiguous_walk n s axes cur true = true <-> dense n s axes cur.
Proof.
  revert cur; induction axes as [|a r IH]; intros cur Hc Hp Hb; cbn [contiguous_walk dense]; [tauto|].
  assert (Pa : 0 < zn n a) by (apply Hp; now left).
  assert (Pr : 0 < aprod n r).
  { apply zprod_pos, Forall_map, Forall_forall. intros x Hx; apply Hp; now right. }
  unfold aprod in Hb; cbn [map zprod fold_right] in Hb. fold (zprod (map (zn n) r)) in Hb. fold (aprod n r) in Hb.
  assert (Hsmall : cur * zn n a < 2 ^ 31) by nia.
  rewrite wrap32_id by nia.
  cbn [andb]. destruct (Z.eqb_spec (zn s a) cur) as [E|E].
  - rewrite IH; [tauto|nia| |nia]. intros x Hx; apply Hp; now right.
  - rewrite contiguous_walk_acc. split; [discriminate|]. intros [X _]; contradiction.
Qed.

(** ** Coordinates in a box *)

Definition rel (loc c : list Z) : list Z :=
  map (fun a => zn c a - zn loc a) (seq 0 (length c)).

Lemma rel_length loc c : length (rel loc c) = length c.
Proof. unfold rel. now rewrite map_length, seq_length. Qed.

Lemma zn_rel loc c i : (i < length c)%nat -> zn (rel loc c) i = zn c i - zn loc i.
Proof. intros H. unfold rel. rewrite zn_map_seq by assumption. reflexivity. Qed.

Lemma zn_add_coords a b i :
  length a = length b -> (i < length a)%nat -> zn (add_coords a b) i = zn a i + zn b i.
Proof.
  unfold add_coords, zn. revert b i; induction a as [|x a IH]; intros [|y b] [|i]; simpl; intros H Hi; try lia.
  apply IH; lia.
Qed.

Lemma add_coords_length a b : length a = length b -> length (add_coords a b) = length a.
Proof. intros H. unfold add_coords. rewrite map_length, combine_length. lia. Qed.

Lemma px_index_asum s loc c axes :
  length loc = length s -> length c = length s ->
  Permutation axes (seq 0 (length s)) ->
  get_index_from_strides s loc c = Ok (asum s (rel loc c) axes).
Proof.
  intros Hl Hc Hp. unfold get_index_from_strides.
  rewrite Hl, Hc, Nat.eqb_refl; simpl.
  rewrite stride_sum_asum by assumption. f_equal. unfold rel. rewrite Hc.
  apply asum_perm. now symmetry.
Qed.

Lemma perm_seq_In axes d : Permutation axes (seq 0 d) -> forall a, In a axes <-> (a < d)%nat.
Proof.
  intros H a. split; intros Ha.
  - apply (Permutation_in _ H), in_seq in Ha. lia.
  - apply (Permutation_in _ (Permutation_sym H)), in_seq. lia.
Qed.

Lemma perm_seq_NoDup axes d : Permutation axes (seq 0 d) -> NoDup axes.
Proof. intros H. apply (Permutation_NoDup (Permutation_sym H)), seq_NoDup. Qed.

(** Any index of an in-box coordinate decodes to that coordinate. *)
Lemma ccoord_of_index n loc s axes c :
  length loc = length n -> length s = length n ->
  Permutation axes (seq 0 (length n)) -> superinc n s (rev axes) ->
  in_box n loc c ->
  exists i, get_index_from_strides s loc c = Ok i /\
            get_ccoord_from_axes_order n loc s axes i = Ok c.
Proof.
  intros Hl Hs Hp Hsi [Hc Hb].
  exists (asum s (rel loc c) axes). split.
  { apply px_index_asum; congruence. }
  unfold get_ccoord_from_axes_order.
  assert (Hd : digits_ok n (rel loc c) (rev axes)).
  { intros a Ha. apply in_rev, (perm_seq_In _ _ Hp) in Ha.
    rewrite zn_rel by lia. specialize (Hb a Ha). lia. }
  rewrite (asum_perm s (rel loc c) axes (rev axes) (Permutation_rev axes)).
  destruct (ccoord_loop_decode n s (rel loc c) (rev axes) (repeat 0 (length n))) as (ret' & E & L & I1 & _); try assumption.
  - apply NoDup_rev. exact (perm_seq_NoDup _ _ Hp).
  - intros a Ha. apply in_rev, (perm_seq_In _ _ Hp) in Ha. now rewrite repeat_length.
  - rewrite E. cbn [bind]. f_equal. rewrite repeat_length in L.
    apply list_ext.
    + rewrite add_coords_length; congruence.
    + rewrite add_coords_length by congruence. intros i Hi.
      rewrite zn_add_coords by congruence.
      rewrite I1. 2:{ apply -> in_rev. apply (perm_seq_In _ _ Hp). lia. }
      rewrite zn_rel by lia. lia.
Qed.

(** ** From an index to a coordinate and back (dense strides) *)

Lemma dense_decode_encode n s axes raxes :
  raxes = rev axes -> NoDup axes -> dense n s axes 1 ->
  (forall a, In a axes -> 0 < zn n a) ->
  forall i ret, 0 <= i < aprod n axes -> (forall a, In a axes -> (a < length ret)%nat) ->
  exists ret', ccoord_loop s raxes i ret = Ok ret' /\ length ret' = length ret /\
    asum s ret' axes = i /\
    (forall a, In a axes -> 0 <= zn ret' a < zn n a) /\
    (forall a, ~ In a axes -> zn ret' a = zn ret a).
Proof.
  intros -> Hnd Hde Hp.
  induction axes as [|a r IH] using rev_ind; intros i ret Hi Hlen.
  - exists ret. unfold aprod in Hi; simpl in Hi. simpl. unfold asum; simpl. repeat split; try easy; lia.
  - apply dense_app in Hde; destruct Hde as [D1 [D2 _]]. rewrite Z.mul_1_l in D2.
    rewrite rev_app_distr. cbn [rev app].
    assert (Hndr : NoDup r /\ ~ In a r).
    { apply NoDup_remove in Hnd. rewrite app_nil_r in Hnd. exact Hnd. }
    destruct Hndr as [Hndr Hna].
    assert (Pr : 0 < aprod n r).
    { apply zprod_pos, Forall_map, Forall_forall. intros x Hx; apply Hp, in_or_app; now left. }
    assert (Pa : 0 < zn n a) by (apply Hp, in_or_app; right; now left).
    assert (Ei : aprod n (r ++ [a]) = aprod n r * zn n a).
    { unfold aprod. rewrite map_app, zprod_app. simpl. ring. }
    rewrite Ei in Hi.
    cbn [ccoord_loop]. destruct (Z.eqb_spec (zn s a) 0); [lia|].
    rewrite D2 in *. rewrite Z.quot_div_nonneg by lia.
    assert (Hq : 0 <= i / aprod n r < zn n a).
    { split; [apply Z.div_pos; lia|apply Z.div_lt_upper_bound; lia]. }
    pose proof (Z.mod_pos_bound i (aprod n r) Pr) as Hm.
    assert (Er : i - i / aprod n r * aprod n r = i mod aprod n r) by (rewrite Z.mod_eq by lia; ring).
    rewrite Er.
    destruct (IH Hndr D1 (fun x Hx => Hp x (in_or_app _ _ _ (or_introl Hx)))
                 (i mod aprod n r) (upd ret a (i / aprod n r))) as (ret' & E & L & A1 & A2 & A3).
    + exact Hm.
    + intros x Hx. rewrite upd_length. apply Hlen, in_or_app; now left.
    + exists ret'. rewrite upd_length in L. split; [exact E|]. split; [exact L|].
      assert (Ea : zn ret' a = i / aprod n r).
      { rewrite A3 by assumption. unfold zn at 1. apply nth_upd_same.
        apply Hlen, in_or_app; right; now left. }
      split; [|split].
      * rewrite asum_app, A1. unfold asum; simpl. rewrite Ea, D2.
        rewrite <- Er. ring.
      * intros x Hx. apply in_app_or in Hx. destruct Hx as [Hx|[<-|[]]]; [now apply A2|].
        rewrite Ea. exact Hq.
      * intros x Hx. rewrite A3 by (intros Hin; apply Hx, in_or_app; now left).
        unfold zn. apply nth_upd_other. intros ->. apply Hx, in_or_app; right; now left.
Qed.

Lemma aprod_perm n l1 l2 : Permutation l1 l2 -> aprod n l1 = aprod n l2.
Proof. intros H. unfold aprod. apply zprod_perm, Permutation_map, H. Qed.

Lemma aprod_seq n : aprod n (seq 0 (length n)) = zprod n.
Proof. unfold aprod. f_equal. apply map_zn_seq. Qed.

Lemma index_of_ccoord n loc s axes i :
  length loc = length n -> length s = length n ->
  Permutation axes (seq 0 (length n)) -> dense n s axes 1 ->
  Forall (fun x => 0 < x) n ->
  0 <= i < zprod n ->
  exists c, get_ccoord_from_axes_order n loc s axes i = Ok c /\
            in_box n loc c /\ get_index_from_strides s loc c = Ok i.
Proof.
  intros Hl Hs Hp Hde Hpos Hi.
  assert (Hn : forall a, In a axes -> 0 < zn n a).
  { intros a Ha. apply (perm_seq_In _ _ Hp) in Ha. rewrite Forall_forall in Hpos.
    apply Hpos. unfold zn. now apply nth_In. }
  destruct (dense_decode_encode n s axes (rev axes) eq_refl (perm_seq_NoDup _ _ Hp) Hde Hn i
              (repeat 0 (length n))) as (ret & E & L & A1 & A2 & _).
  - rewrite (aprod_perm n axes _ Hp), aprod_seq. exact Hi.
  - intros a Ha. rewrite repeat_length. now apply (perm_seq_In _ _ Hp).
  - rewrite repeat_length in L. exists (add_coords ret loc).
    assert (La : length (add_coords ret loc) = length n) by (rewrite add_coords_length; congruence).
    split; [|split].
    + unfold get_ccoord_from_axes_order. rewrite E. reflexivity.
    + split; [exact La|]. intros k Hk. rewrite zn_add_coords by (try congruence; lia).
      specialize (A2 k (proj2 (perm_seq_In _ _ Hp k) Hk)). lia.
    + rewrite (px_index_asum s loc _ axes) by congruence. f_equal.
      rewrite <- A1. apply asum_ext. intros a Ha.
      apply (perm_seq_In _ _ Hp) in Ha.
      rewrite zn_rel by lia. rewrite zn_add_coords by (try congruence; lia). lia.
Qed.
