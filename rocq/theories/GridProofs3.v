(** A stride map that fills an interval exactly is dense along some order of
    the axes; final forms of the grid lemmas. *)
From Verif Require Import Base CIntModel GridModel GridProofs GridProofs2.
From Coq Require Import Sorting.Sorted.

(** ** Tilings of an interval by strides *)

Definition gsum (s : list Z) (c : nat -> Z) (ax : list nat) : Z :=
  zsum (map (fun a => zn s a * c a) ax).
Definition gdig (n : list Z) (c : nat -> Z) (ax : list nat) : Prop :=
  forall a, In a ax -> 0 <= c a < zn n a.

Definition tiles (n s : list Z) (ax : list nat) (m : Z) : Prop :=
  (forall c, gdig n c ax -> exists q, gsum s c ax = m * q /\ 0 <= q < aprod n ax) /\
  (forall c c', gdig n c ax -> gdig n c' ax -> gsum s c ax = gsum s c' ax ->
     forall a, In a ax -> c a = c' a) /\
  (forall q, 0 <= q < aprod n ax -> exists c, gdig n c ax /\ gsum s c ax = m * q).

Lemma gsum_perm s c l1 l2 : Permutation l1 l2 -> gsum s c l1 = gsum s c l2.
Proof. intros H. unfold gsum. apply zsum_perm, Permutation_map, H. Qed.

Lemma gsum_ext s c c' l : (forall a, In a l -> c a = c' a) -> gsum s c l = gsum s c' l.
Proof. intros H. unfold gsum. f_equal. apply map_ext_in. intros a Ha; now rewrite H. Qed.

Lemma gdig_perm n c l1 l2 : Permutation l1 l2 -> gdig n c l1 -> gdig n c l2.
Proof. intros H Hd a Ha. apply Hd. now apply (Permutation_in _ (Permutation_sym H)). Qed.

Lemma tiles_perm n s l1 l2 m : Permutation l1 l2 -> tiles n s l1 m -> tiles n s l2 m.
Proof.
  intros H (T1 & T2 & T3). assert (H' := Permutation_sym H). split; [|split].
  - intros c Hc. rewrite <- (gsum_perm s c _ _ H), <- (aprod_perm n _ _ H). apply T1. now apply (gdig_perm n c l2).
  - intros c c' Hc Hc' E a Ha. apply (T2 c c').
    + now apply (gdig_perm n c l2).
    + now apply (gdig_perm n c' l2).
    + now rewrite !(gsum_perm s _ _ _ H).
    + now apply (Permutation_in _ H').
  - intros q Hq. rewrite <- (aprod_perm n _ _ H) in Hq. destruct (T3 q Hq) as (c & H1 & H2).
    exists c. split; [now apply (gdig_perm n c l1)|]. now rewrite <- (gsum_perm s c _ _ H).
Qed.

Definition fset (c : nat -> Z) (a : nat) (v : Z) : nat -> Z :=
  fun x => if Nat.eqb x a then v else c x.

Lemma gsum_zero s l : gsum s (fun _ => 0) l = 0.
Proof. induction l as [|a r IH]; unfold gsum in *; simpl; lia. Qed.

Lemma gsum_single s l a v : NoDup l -> In a l -> gsum s (fset (fun _ => 0) a v) l = zn s a * v.
Proof.
  induction l as [|b r IH]; intros Hnd Ha; [easy|]. inversion Hnd as [|? ? Hb Hr]; subst.
  unfold gsum in *. cbn [map zsum fold_right]. fold (zsum (map (fun a0 => zn s a0 * fset (fun _ => 0) a v a0) r)).
  destruct (Nat.eq_dec b a) as [->|Hba].
  - unfold fset at 1. rewrite Nat.eqb_refl.
    replace (zsum _) with (gsum s (fun _ => 0) r).
    + rewrite gsum_zero. lia.
    + apply gsum_ext. intros x Hx. unfold fset. destruct (Nat.eqb_spec x a); [subst; contradiction|reflexivity].
  - destruct Ha as [->|Ha]; [contradiction|]. rewrite (IH Hr Ha).
    unfold fset. destruct (Nat.eqb_spec b a); [contradiction|]. lia.
Qed.

Lemma gsum_cons s c a r : gsum s c (a :: r) = zn s a * c a + gsum s c r.
Proof. reflexivity. Qed.

Lemma aprod_cons n a r : aprod n (a :: r) = zn n a * aprod n r.
Proof. reflexivity. Qed.

(** Some axis has stride [m]. *)
Lemma tiles_first n s ax m :
  NoDup ax -> ax <> [] -> 0 < m -> (forall a, In a ax -> 2 <= zn n a) -> tiles n s ax m ->
  exists a, In a ax /\ zn s a = m.
Proof.
  intros Hnd Hne Hm Hn (T1 & T2 & T3).
  assert (Hge : forall a, In a ax -> m <= zn s a).
  { intros a Ha. specialize (Hn a Ha) as Hna.
    assert (Hd : gdig n (fset (fun _ => 0) a 1) ax).
    { intros x Hx. specialize (Hn x Hx). unfold fset. destruct (Nat.eqb_spec x a); subst; lia. }
    assert (Hd0 : gdig n (fun _ => 0) ax) by (intros x Hx; specialize (Hn x Hx); lia).
    destruct (T1 _ Hd) as (q & Eq & Hq). rewrite gsum_single in Eq by assumption.
    destruct (Z.eq_dec q 0) as [->|Hq0]; [|nia].
    exfalso. specialize (T2 _ _ Hd Hd0). rewrite gsum_single, gsum_zero in T2 by assumption.
    specialize (T2 ltac:(lia) a Ha). unfold fset in T2. rewrite Nat.eqb_refl in T2. lia. }
  assert (Hprod : 2 <= aprod n ax).
  { destruct ax as [|a r]; [contradiction|]. rewrite aprod_cons.
    assert (0 < aprod n r).
    { apply zprod_pos, Forall_map, Forall_forall. intros x Hx. specialize (Hn x (or_intror Hx)). lia. }
    specialize (Hn a (or_introl eq_refl)). nia. }
  destruct (T3 1 ltac:(lia)) as (c & Hc & Ec). rewrite Z.mul_1_r in Ec.
  assert (G : forall l, (forall a, In a l -> m <= zn s a) -> gdig n c l -> gsum s c l = 0 \/
     (m <= gsum s c l /\ (gsum s c l = m -> exists a, In a l /\ zn s a = m))).
  { induction l as [|a r IH]; intros Hl Hcl; [left; reflexivity|].
    rewrite gsum_cons. pose proof (Hl a (or_introl eq_refl)) as H1. pose proof (Hcl a (or_introl eq_refl)) as H2.
    destruct (IH (fun x Hx => Hl x (or_intror Hx)) (fun x Hx => Hcl x (or_intror Hx))) as [E|[E1 E2]].
    - destruct (Z.eq_dec (c a) 0) as [E0|E0]; [left; rewrite E0, E; lia|].
      right. split; [nia|]. intros E3. exists a. split; [now left|nia].
    - right. split; [nia|]. intros E3. destruct (Z.eq_dec (c a) 0) as [E0|E0].
      + destruct E2 as (x & Hx & Ex); [nia|]. exists x. split; [now right|exact Ex].
      + nia. }
  destruct (G ax Hge Hc) as [E|[_ E]]; [lia|]. apply E, Ec.
Qed.

(** Removing that axis leaves a tiling with [m] times its extent. *)
Lemma tiles_rest n s a r m :
  NoDup (a :: r) -> 0 < m -> (forall x, In x (a :: r) -> 0 < zn n x) -> zn s a = m ->
  tiles n s (a :: r) m -> tiles n s r (m * zn n a).
Proof.
  intros Hnd Hm Hn Hs (T1 & T2 & T3). inversion Hnd as [|a0 r0 Hna Hr]; subst a0 r0 m.
  set (m := zn s a) in *. set (k := zn n a) in *.
  assert (Hk : 0 < k) by (apply Hn; now left).
  assert (Hpr : 0 < aprod n r).
  { apply zprod_pos, Forall_map, Forall_forall. intros x Hx. apply Hn; now right. }
  assert (Hset : forall c v, gdig n c r -> 0 <= v < k -> gdig n (fset c a v) (a :: r)).
  { intros c v Hc Hv x [<-|Hx]; unfold fset.
    - rewrite Nat.eqb_refl. exact Hv.
    - destruct (Nat.eqb_spec x a); [subst; contradiction|now apply Hc]. }
  assert (Hgs : forall c v, gsum s (fset c a v) (a :: r) = m * v + gsum s c r).
  { intros c v. rewrite gsum_cons. unfold fset at 1. rewrite Nat.eqb_refl. fold m. f_equal.
    apply gsum_ext. intros x Hx. unfold fset. destruct (Nat.eqb_spec x a); [subst; contradiction|reflexivity]. }
  (* every value over r is m * q with q a multiple of k *)
  assert (Hdiv : forall q c, gdig n c r -> gsum s c r = m * q -> 0 <= q < aprod n (a :: r) -> (k | q)).
  { intros q0. destruct (Z_lt_le_dec q0 0) as [Hneg|Hpos]; [intros; lia|].
    pattern q0. apply Zlt_0_ind; [|exact Hpos]. clear q0 Hpos.
    intros q IH Hq0 c Hc Ec Hq.
    pose proof (Z.div_mod q k ltac:(lia)) as DM. pose proof (Z.mod_pos_bound q k Hk) as MB.
    destruct (Z.eq_dec (q mod k) 0) as [E0|E0].
    { exists (q / k). lia. }
    exfalso.
    assert (Hqk : 0 <= k * (q / k) < q) by (split; [apply Z.mul_nonneg_nonneg; [lia|apply Z.div_pos; lia]|lia]).
    destruct (T3 (k * (q / k)) ltac:(lia)) as (d & Hd & Ed).
    assert (Hdr : gdig n d r) by (intros x Hx; apply Hd; now right).
    assert (Hda : 0 <= d a < k) by (apply Hd; now left).
    rewrite gsum_cons in Ed. fold m in Ed.
    assert (E1 : gsum s d r = m * (k * (q / k) - d a)) by (rewrite Z.mul_sub_distr_l; lia).
    assert (Hnn : 0 <= k * (q / k) - d a).
    { destruct (T1 (fset d a 0) (Hset d 0 Hdr ltac:(lia))) as (q' & Eq' & Hq'). rewrite Hgs in Eq'.
      rewrite E1 in Eq'. nia. }
    destruct (Z.eq_dec (d a) 0) as [Ea|Ea].
    - (* k * (q/k) is a value over r: two representations of q *)
      rewrite Ea, Z.sub_0_r in E1.
      assert (X := T2 (fset d a (q mod k)) (fset c a 0) (Hset d _ Hdr MB) (Hset c 0 Hc ltac:(lia))).
      rewrite !Hgs, Ec, E1 in X. specialize (X ltac:(nia) a (or_introl eq_refl)).
      unfold fset in X. rewrite Nat.eqb_refl in X. lia.
    - destruct (IH (k * (q / k) - d a) ltac:(lia) d Hdr E1 ltac:(lia)) as (w & Ew).
      assert (Ed2 : d a = k * (q / k - w)) by (rewrite Z.mul_sub_distr_l; lia). assert (q / k - w = 0) by nia. nia. }
  rewrite aprod_cons in *. fold k in T1, T3, Hdiv.
  split; [|split].
  - intros c Hc. destruct (T1 (fset c a 0) (Hset c 0 Hc ltac:(lia))) as (q & Eq & Hq). rewrite Hgs in Eq.
    destruct (Hdiv q c Hc ltac:(lia) Hq) as (w & Ew). exists w. split; [rewrite Ew in Eq; lia|nia].
  - intros c c' Hc Hc' E x Hx.
    pose proof (T2 (fset c a 0) (fset c' a 0) (Hset c 0 Hc ltac:(lia)) (Hset c' 0 Hc' ltac:(lia))) as X.
    rewrite !Hgs in X. specialize (X ltac:(lia) x (or_intror Hx)). unfold fset in X.
    destruct (Nat.eqb_spec x a); [subst; contradiction|exact X].
  - intros q Hq. destruct (T3 (k * q) ltac:(nia)) as (d & Hd & Ed).
    assert (Hdr : gdig n d r) by (intros x Hx; apply Hd; now right).
    assert (Hda : 0 <= d a < k) by (apply Hd; now left).
    rewrite gsum_cons in Ed. fold m in Ed.
    assert (E1 : gsum s d r = m * (k * q - d a)) by (rewrite Z.mul_sub_distr_l; lia).
    assert (Hnn : 0 <= k * q - d a).
    { destruct (T1 (fset d a 0) (Hset d 0 Hdr ltac:(lia))) as (q' & Eq' & Hq'). rewrite Hgs in Eq'.
      rewrite E1 in Eq'. nia. }
    destruct (Hdiv _ d Hdr E1 ltac:(nia)) as (w & Ew).
    assert (d a = k * (q - w)) by (rewrite Z.mul_sub_distr_l; lia). assert (q - w = 0) by nia. assert (d a = 0) by nia.
    exists d. split; [exact Hdr|]. rewrite E1. replace (d a) with 0. ring.
Qed.

Lemma tiles_dense n s len : forall ax m,
  length ax = len -> NoDup ax -> 0 < m -> (forall a, In a ax -> 2 <= zn n a) -> tiles n s ax m ->
  exists order, Permutation order ax /\ dense n s order m.
Proof.
  induction len as [|len IH]; intros ax m Hlen Hnd Hm Hn HT.
  - destruct ax; [|discriminate]. exists []. split; [constructor|exact I].
  - destruct (tiles_first n s ax m) as (a & Ha & Es); try assumption; [intros ->; discriminate|].
    apply in_split in Ha. destruct Ha as (l1 & l2 & ->).
    assert (HP : Permutation (l1 ++ a :: l2) (a :: l1 ++ l2)) by (symmetry; apply Permutation_middle).
    apply (tiles_perm _ _ _ _ _ HP) in HT. apply (Permutation_NoDup HP) in Hnd.
    assert (Hn' : forall x, In x (a :: l1 ++ l2) -> 2 <= zn n x).
    { intros x Hx. apply Hn. now apply (Permutation_in _ (Permutation_sym HP)). }
    assert (Hka : 2 <= zn n a) by (apply Hn'; now left).
    apply tiles_rest in HT; try assumption.
    2:{ intros x Hx. specialize (Hn' x Hx). lia. }
    destruct (IH (l1 ++ l2) (m * zn n a)) as (order & Hp & Hd).
    + apply Permutation_length in HP. simpl in HP. lia.
    + now inversion Hnd.
    + nia.
    + intros x Hx. apply Hn'; now right.
    + exact HT.
    + exists (a :: order). split; [|split; assumption].
      rewrite HP. now constructor.
Qed.

(** ** [fills_exactly] and [dense] *)

Definition lfun (d : nat) (c : nat -> Z) : list Z := map c (seq 0 d).

Lemma in_box_lfun n c : in_box n (repeat 0 (length n)) (lfun (length n) c) <-> gdig n c (seq 0 (length n)).
Proof.
  unfold in_box, gdig, lfun. rewrite map_length, seq_length. split.
  - intros [_ H] a Ha. apply in_seq in Ha. specialize (H a ltac:(lia)).
    rewrite zn_map_seq in H by lia. unfold zn in H at 1 2. rewrite nth_repeat in H. lia.
  - intros H. split; [reflexivity|]. intros i Hi. rewrite zn_map_seq by lia.
    unfold zn at 1 2. rewrite nth_repeat. specialize (H i ltac:(apply in_seq; lia)). lia.
Qed.

Lemma offset_lfun (n s : list Z) c v : length s = length n ->
  offset_of s (repeat 0 (length n)) (lfun (length n) c) v <-> v = gsum s c (seq 0 (length n)).
Proof.
  intros Hs. unfold offset_of, gsum, lfun. rewrite Hs.
  replace (map (fun i => zn s i * (zn (map c (seq 0 (length n))) i - zn (repeat 0 (length n)) i)) (seq 0 (length n)))
    with (map (fun a => zn s a * c a) (seq 0 (length n))); [tauto|].
  apply map_ext_in. intros a Ha. apply in_seq in Ha. rewrite zn_map_seq by lia.
  unfold zn at 3. rewrite nth_repeat. f_equal. lia.
Qed.

Lemma lfun_zn c : lfun (length c) (zn c) = c.
Proof. apply map_zn_seq. Qed.

Lemma fills_tiles n s : fills_exactly n s -> tiles n s (seq 0 (length n)) 1.
Proof.
  intros (Hs & F1 & F2 & F3). split; [|split].
  - intros c Hc. exists (gsum s c (seq 0 (length n))). split; [lia|]. rewrite aprod_seq.
    apply (F1 (lfun (length n) c)); [now apply in_box_lfun|now apply offset_lfun].
  - intros c c' Hc Hc' E a Ha.
    assert (X : lfun (length n) c = lfun (length n) c').
    { apply (F2 _ _ (gsum s c (seq 0 (length n)))); try (now apply in_box_lfun); now apply offset_lfun. }
    apply (f_equal (fun l => zn l a)) in X. apply in_seq in Ha.
    unfold lfun in X. rewrite !zn_map_seq in X by lia. exact X.
  - intros q Hq. rewrite aprod_seq in Hq. destruct (F3 q Hq) as (c & Hc & Ec).
    assert (HL : length c = length n) by apply Hc.
    exists (zn c). rewrite <- (lfun_zn c), HL in Hc, Ec. split; [now apply in_box_lfun|].
    rewrite offset_lfun in Ec by exact Hs. rewrite <- Ec. now rewrite Z.mul_1_l.
Qed.

Lemma offset_of_index s loc c v :
  length loc = length s -> length c = length s ->
  offset_of s loc c v <-> get_index_from_strides s loc c = Ok v.
Proof.
  intros Hl Hc. rewrite (px_index_asum s loc c (seq 0 (length s))) by (try assumption; reflexivity).
  unfold offset_of, asum.
  replace (map (fun a => zn s a * zn (rel loc c) a) (seq 0 (length s)))
    with (map (fun i => zn s i * (zn c i - zn loc i)) (seq 0 (length s))).
  - split; [intros ->; reflexivity|intros H; now injection H].
  - apply map_ext_in. intros a Ha. apply in_seq in Ha. rewrite zn_rel by lia. reflexivity.
Qed.

Lemma dense_fills n s axes :
  Forall (fun x => 0 < x) n -> length s = length n -> Permutation axes (seq 0 (length n)) ->
  dense n s axes 1 -> fills_exactly n s.
Proof.
  intros Hpos Hs Hp Hde. set (loc := repeat 0 (length n)).
  assert (Hl : length loc = length n) by apply repeat_length.
  split; [exact Hs|]. fold loc. cbv zeta.
  assert (Hoff : forall c v, in_box n loc c -> offset_of s loc c v <-> get_index_from_strides s loc c = Ok v).
  { intros c v [Hc _]. apply offset_of_index; congruence. }
  split; [|split].
  - intros c v Hc Hv. apply (Hoff c v Hc) in Hv.
    assert (Hd : digits_ok n (rel loc c) axes).
    { intros a Ha. apply (perm_seq_In _ _ Hp) in Ha. destruct Hc as [Hc Hb]. rewrite zn_rel by lia. specialize (Hb a Ha). lia. }
    destruct Hc as [Hc _].
    rewrite (px_index_asum s loc c axes) in Hv by congruence. injection Hv as <-.
    assert (Hsp : forall a, In a axes -> 0 <= zn s a).
    { intros a Ha. apply dense_superinc in Hde. enough (0 < zn s a) by lia.
      apply (superinc_stride_pos n _ (rel loc c) (rev axes)); [|exact Hde|now apply -> in_rev].
      intros x Hx. apply Hd. now apply in_rev. }
    pose proof (asum_bounds _ _ _ _ Hd Hsp) as B.
    rewrite (dense_maxoff _ _ _ 1 Hde), (aprod_perm _ _ _ Hp), aprod_seq in B. lia.
  - intros c c' v Hc Hc' Hv Hv'. apply (Hoff c v Hc) in Hv. apply (Hoff c' v Hc') in Hv'.
    apply dense_superinc in Hde.
    destruct (ccoord_of_index n loc s axes c) as (i & E1 & E2); try assumption.
    destruct (ccoord_of_index n loc s axes c') as (i' & E1' & E2'); try assumption.
    congruence.
  - intros v Hv. destruct (index_of_ccoord n loc s axes v) as (c & E1 & Hc & E2); try assumption.
    exists c. split; [exact Hc|]. now apply Hoff.
Qed.

Lemma contiguous_iff_fills n s axes :
  Forall (fun x => 2 <= x) n -> zprod n < 2 ^ 31 -> length s = length n ->
  sort_outcome n s axes ->
  is_buffer_contiguous_ax n s axes = Ok true <-> fills_exactly n s.
Proof.
  intros Hn Hv Hs Ho.
  assert (Hpos : Forall (fun x => 0 < x) n) by (eapply Forall_impl; [|exact Hn]; simpl; intros; lia).
  split.
  - intros H. pose proof (proj1 Ho) as Hp.
    apply is_contiguous_ax_dense in H; try assumption. now apply (dense_fills n s axes).
  - intros H. apply fills_tiles in H.
    destruct (tiles_dense n s (length n) (seq 0 (length n)) 1) as (order & Hp & Hd).
    + apply seq_length.
    + apply seq_NoDup.
    + lia.
    + intros a Ha. apply in_seq in Ha. rewrite Forall_forall in Hn. apply Hn. unfold zn. apply nth_In. lia.
    + exact H.
    + now apply (contiguous_complete n s axes order).
Qed.

Lemma contiguous_sound n s axes :
  Forall (fun x => 0 < x) n -> zprod n < 2 ^ 31 ->
  sort_outcome n s axes -> n <> [] ->
  is_buffer_contiguous_ax n s axes = Ok true -> fills_exactly n s.
Proof.
  intros Hpos Hv Ho Hne H.
  assert (Hs : length s = length n).
  { unfold is_buffer_contiguous_ax in H. pose proof (zprod_pos n Hpos).
    destruct n; [contradiction|]. cbn [length Nat.eqb] in H.
    unfold compute_volume in H. rewrite fold_left_mul, Z.mul_1_l in H.
    destruct (Z.eqb_spec (zprod (z :: n)) 0); [lia|].
    destruct (Nat.eqb_spec (length s) (S (length n))); [exact e|discriminate]. }
  pose proof (proj1 Ho) as Hp. apply is_contiguous_ax_dense in H; try assumption.
  now apply (dense_fills n s axes).
Qed.

(** ** Nested strides *)

Lemma nested_superinc n s order : nested n s order -> superinc n s (rev order).
Proof.
  intros (_ & _ & _ & H).
  assert (G : forall k, (k <= length order)%nat -> superinc n s (rev (firstn k order))).
  { induction k as [|k IH]; intros Hk; [exact I|].
    assert (E : firstn (S k) order = firstn k order ++ [nth k order 0%nat]).
    { clear -Hk. revert k Hk. induction order as [|x l IH]; intros [|k]; simpl; intros H; try lia; [reflexivity|].
      f_equal. apply IH. lia. }
    rewrite E, rev_app_distr. cbn [rev app superinc]. split; [|apply IH; lia].
    specialize (H k ltac:(lia)). unfold maxoff.
    rewrite (zsum_perm _ (map (fun a => zn s a * (zn n a - 1)) (firstn k order))); [exact H|].
    apply Permutation_map. symmetry. apply Permutation_rev. }
  specialize (G (length order) (le_n _)). now rewrite firstn_all in G.
Qed.

Lemma nested_sort_unique n s order axes :
  nested n s order -> sort_outcome n s axes -> axes = order.
Proof.
  intros (_ & Hp & Hlt & _) Ho.
  apply (strict_sort_unique s).
  - apply (nth_StronglySorted _ _ 0%nat). exact Hlt.
  - now apply sort_outcome_le in Ho.
  - destruct Ho as [H _]. now rewrite H, Hp.
Qed.

Lemma nested_roundtrip n loc s order axes c :
  nested n s order -> sort_outcome n s axes -> length loc = length n -> in_box n loc c ->
  exists i, get_index_from_strides s loc c = Ok i /\
            get_ccoord_from_axes_order n loc s axes i = Ok c.
Proof.
  intros Hn Ho Hl Hc. rewrite (nested_sort_unique n s order axes Hn Ho).
  pose proof (nested_superinc _ _ _ Hn). destruct Hn as (Hs & Hp & _ & _).
  now apply ccoord_of_index.
Qed.

Lemma nested_buffer_size n s order v loc c i :
  nested n s order -> n <> [] -> Forall (fun x => 0 < x) n -> length loc = length n -> in_box n loc c ->
  get_buffer_size n s = Ok v -> get_index_from_strides s loc c = Ok i -> 0 <= i < v.
Proof.
  intros Hn Hne Hpos Hl Hc Hv Hi. pose proof (nested_superinc _ _ _ Hn). destruct Hn as (Hs & Hp & _ & _).
  apply (buffer_size_covers n s order v Hs Hp H Hpos Hne Hv loc c i); assumption.
Qed.

(** For strides that fill exactly, the reported buffer size is the volume. *)
Lemma dense_buffer_size n s axes :
  Forall (fun x => 0 < x) n -> n <> [] -> length s = length n -> Permutation axes (seq 0 (length n)) ->
  dense n s axes 1 -> get_buffer_size n s = Ok (zprod n).
Proof.
  intros Hpos Hne Hs Hp Hde.
  assert (Hz : forall a, In a axes -> 0 < zn n a) by (now apply Forall_pos_zn).
  destruct (get_buffer_size n s) as [v| |] eqn:E; assert (E' := E);
    unfold get_buffer_size in E; rewrite Hs, Nat.eqb_refl in E; try discriminate.
  cbn [negb] in E. injection E as E. f_equal. rewrite <- E.
  (* upper bound: each product divides along the dense order *)
  assert (Hmax : forall a, In a axes -> zn n a * zn s a <= zprod n).
  { rewrite <- aprod_seq, <- (aprod_perm n _ _ Hp). clear -Hde Hz. intros a Ha.
    apply in_split in Ha. destruct Ha as (l1 & l2 & ->).
    apply dense_app in Hde. destruct Hde as [_ [H2 _]]. rewrite Z.mul_1_l in H2. rewrite H2.
    assert (P1 : 0 < aprod n l1) by (apply zprod_pos, Forall_map, Forall_forall; intros x Hx; apply Hz, in_or_app; now left).
    assert (P2 : 0 < aprod n l2) by (apply zprod_pos, Forall_map, Forall_forall; intros x Hx; apply Hz, in_or_app; right; now right).
    assert (Pa : 0 < zn n a) by (apply Hz, in_or_app; right; now left).
    assert (E : aprod n (l1 ++ a :: l2) = aprod n l1 * (zn n a * aprod n l2)).
    { unfold aprod. rewrite map_app, zprod_app. reflexivity. }
    rewrite E. nia. }
  pose proof (zprod_pos n Hpos) as HP.
  assert (Hle : fold_left (fun acc (p : Z * Z) => Z.max acc (fst p * snd p)) (combine n s) 0 <= zprod n).
  { assert (G : forall l acc, acc <= zprod n -> (forall p, In p l -> fst p * snd p <= zprod n) ->
       fold_left (fun acc (p : Z * Z) => Z.max acc (fst p * snd p)) l acc <= zprod n).
    { induction l as [|p l IH]; intros acc Ha Hl; cbn [fold_left]; [exact Ha|].
      apply IH; [|intros q Hq; apply Hl; now right]. specialize (Hl p (or_introl eq_refl)). lia. }
    apply G; [lia|]. intros p Hin. apply (In_nth _ _ (0, 0)) in Hin. destruct Hin as (k & Hk & <-).
    rewrite combine_nth by congruence. cbn [fst snd]. rewrite combine_length in Hk. apply Hmax, (perm_seq_In _ _ Hp). lia. }
  (* lower bound: the last axis *)
  destruct (get_buffer_size_ge n s v Hs E') as [_ Hge]. rewrite <- E in Hge.
  assert (Hax : axes <> []).
  { intros ->. apply Permutation_nil in Hp. destruct n; [now apply Hne|discriminate]. }
  destruct (exists_last Hax) as (l & a & ->).
  apply dense_app in Hde. destruct Hde as [_ [H2 _]]. rewrite Z.mul_1_l in H2.
  specialize (Hge a). rewrite H2 in Hge.
  assert (Ha : (a < length n)%nat) by (apply (perm_seq_In _ _ Hp), in_or_app; right; now left).
  specialize (Hge Ha).
  assert (E3 : zprod n = aprod n l * zn n a).
  { rewrite <- aprod_seq, <- (aprod_perm n _ _ Hp). unfold aprod. rewrite map_app, zprod_app. simpl. ring. }
  lia.
Qed.

(** ** [DynamicPixels] objects *)

Lemma default_loc_full n loc : length loc = length n -> default_loc n loc = loc.
Proof.
  intros H. unfold default_loc. destruct (Nat.eqb_spec (length loc) 0) as [E|E]; [|reflexivity].
  destruct loc; [|discriminate]. destruct n; [reflexivity|discriminate].
Qed.

Lemma default_loc_length n loc l :
  l = default_loc n loc -> length l = length n \/ (length l <> length n /\ l = loc).
Proof.
  intros ->. unfold default_loc. destruct (Nat.eqb_spec (length loc) 0) as [E|E].
  - left. apply repeat_length.
  - destruct (Nat.eq_dec (length loc) (length n)); auto.
Qed.

Lemma pixels_strided_fields axes n loc s p :
  pixels_strided_with axes n loc s = Ok p ->
  px_nb p = n /\ px_loc p = default_loc n loc /\ px_strides p = s /\ px_axes p = axes /\
  length (px_loc p) = length n /\ length s = length n /\
  is_buffer_contiguous_ax n s axes = Ok (px_contiguous p).
Proof.
  unfold pixels_strided_with. destruct (is_buffer_contiguous_ax n s axes) as [b| |]; cbn [bind]; try discriminate.
  destruct (Nat.eqb_spec (length (default_loc n loc)) (length n)); cbn [negb]; [|discriminate].
  destruct (Nat.eqb_spec (length s) (length n)); cbn [negb]; [|discriminate].
  intros H; injection H as <-. cbn. auto 10.
Qed.

Lemma pixels_default_fields axes n loc p :
  pixels_default_with axes n loc = Ok p ->
  px_nb p = n /\ px_loc p = default_loc n loc /\ px_strides p = col_major_strides n /\ px_axes p = axes /\
  length (px_loc p) = length n /\ px_contiguous p = true /\ (1 <= length n <= 3)%nat.
Proof.
  unfold pixels_default_with, get_col_major_strides.
  destruct (dyn_dim_ok n) eqn:Ed; cbn [bind]; [|discriminate].
  destruct (Nat.eqb_spec (length (default_loc n loc)) (length n)); cbn [negb]; [|discriminate].
  intros H; injection H as <-. cbn.
  assert (1 <= length n <= 3)%nat by (unfold dyn_dim_ok in Ed; destruct (length n) as [|[|[|[|k]]]]; try discriminate; lia).
  auto 10.
Qed.

Lemma dense_index_bounds n s axes loc c i :
  length loc = length n -> length s = length n -> Permutation axes (seq 0 (length n)) ->
  dense n s axes 1 -> in_box n loc c -> get_index_from_strides s loc c = Ok i -> 0 <= i < zprod n.
Proof.
  intros Hl Hs Hp Hde [Hc Hb] Hi.
  rewrite (px_index_asum s loc c axes) in Hi by congruence. injection Hi as <-.
  assert (Hd : digits_ok n (rel loc c) axes).
  { intros a Ha. apply (perm_seq_In _ _ Hp) in Ha. rewrite zn_rel by lia. specialize (Hb a Ha). lia. }
  assert (Hsp : forall a, In a axes -> 0 <= zn s a).
  { intros a Ha. pose proof (dense_superinc _ _ _ Hde) as Hsi. enough (0 < zn s a) by lia.
    apply (superinc_stride_pos n _ (rel loc c) (rev axes)); [|exact Hsi|now apply -> in_rev].
    intros x Hx. apply Hd. now apply in_rev. }
  pose proof (asum_bounds _ _ _ _ Hd Hsp) as B.
  rewrite (dense_maxoff _ _ _ 1 Hde), (aprod_perm _ _ _ Hp), aprod_seq in B. lia.
Qed.

(** Everything a [DynamicPixels] object whose axes order is dense promises. *)
Definition px_good (p : pixels) : Prop :=
  (forall c, in_box (px_nb p) (px_loc p) c ->
     exists i, px_get_index p c = Ok i /\ 0 <= i < zprod (px_nb p) /\ px_get_ccoord p i = Ok c) /\
  (forall i, 0 <= i < zprod (px_nb p) ->
     exists c, px_get_ccoord p i = Ok c /\ in_box (px_nb p) (px_loc p) c /\ px_get_index p c = Ok i) /\
  (exists cs, px_iterate p = Ok cs /\ NoDup cs /\
     length cs = Z.to_nat (zprod (px_nb p)) /\
     (forall c, In c cs <-> in_box (px_nb p) (px_loc p) c) /\
     (forall k, (k < length cs)%nat -> px_get_index p (nth k cs []) = Ok (Z.of_nat k)) /\
     px_enumerate p = Ok (combine (zrange (length cs)) cs)).

Lemma px_good_dense p :
  length (px_loc p) = length (px_nb p) -> length (px_strides p) = length (px_nb p) ->
  Permutation (px_axes p) (seq 0 (length (px_nb p))) -> dense (px_nb p) (px_strides p) (px_axes p) 1 ->
  Forall (fun x => 0 < x) (px_nb p) -> px_contiguous p = true -> px_good p.
Proof.
  intros Hl Hs Hp Hde Hpos Hcont. split; [|split].
  - intros c Hc.
    destruct (ccoord_of_index (px_nb p) (px_loc p) (px_strides p) (px_axes p) c) as (i & E1 & E2);
      try assumption; [now apply dense_superinc|].
    exists i. split; [exact E1|split; [|exact E2]].
    now apply (dense_index_bounds (px_nb p) (px_strides p) (px_axes p) (px_loc p) c).
  - intros i Hi. now apply index_of_ccoord.
  - now apply (iterate_dense p (px_axes p)).
Qed.

Lemma px_good_strided axes n loc s p :
  sort_outcome n s axes -> pixels_strided_with axes n loc s = Ok p -> px_contiguous p = true ->
  Forall (fun x => 0 < x) n -> zprod n < 2 ^ 31 -> px_good p.
Proof.
  intros Ho Hp Hc Hpos Hv. apply pixels_strided_fields in Hp.
  destruct Hp as (E1 & E2 & E3 & E4 & E5 & E6 & E7).
  apply px_good_dense; rewrite ?E1, ?E3, ?E4; try assumption; [apply Ho|].
  apply is_contiguous_ax_dense; try assumption; [apply Ho|]. now rewrite E7, Hc.
Qed.

Lemma px_good_default n loc p :
  pixels_default n loc = Ok p -> Forall (fun x => 0 < x) n -> px_good p.
Proof.
  intros Hp Hpos. apply pixels_default_fields in Hp.
  destruct Hp as (E1 & E2 & E3 & E4 & E5 & E6 & E7).
  rewrite compute_axes_order_col_major in E4 by assumption.
  apply px_good_dense; rewrite ?E1, ?E3, ?E4; try assumption; try reflexivity.
  - apply col_major_strides_length.
  - apply col_major_dense.
Qed.

(** The column-major functions [get_ccoord] and [get_index]. *)
Lemma colmajor_index n loc c :
  length loc = length n -> in_box n loc c -> zprod n < 2 ^ 31 ->
  get_index n loc c = Ok (asum (col_major_strides n) (rel loc c) (seq 0 (length n))).
Proof.
  intros Hl Hc Hv. unfold get_index. rewrite Hl, (proj1 Hc), Nat.eqb_refl. cbn [negb].
  rewrite get_index_loop_spec; try assumption; try lia. f_equal. lia.
Qed.

Lemma mixed_radix_digit n d k :
  Forall (fun x => 0 < x) n -> (k < length n)%nat ->
  (forall a, (a < length n)%nat -> 0 <= d a < zn n a) ->
  (gsum (col_major_strides n) d (seq 0 (length n)) / zprod (firstn k n)) mod zn n k = d k.
Proof.
  intros Hpos Hk Hd.
  assert (G : forall m, (m <= length n)%nat -> 0 <= gsum (col_major_strides n) d (seq 0 m) < zprod (firstn m n)).
  { induction m as [|m IH]; intros Hm; [unfold gsum; simpl; lia|].
    rewrite seq_S. unfold gsum in *. rewrite map_app, zsum_app. cbn [Nat.add map zsum fold_right].
    rewrite zn_col_major by lia. rewrite firstn_S_zn by lia. rewrite zprod_app. cbn [zprod fold_right].
    specialize (Hd m ltac:(lia)). specialize (IH ltac:(lia)). unfold zsum in *. nia. }
  assert (H : forall m, (k < m <= length n)%nat -> exists q,
     gsum (col_major_strides n) d (seq 0 m) = gsum (col_major_strides n) d (seq 0 k) + zprod (firstn k n) * (d k + zn n k * q)).
  { induction m as [|m IH]; intros Hm; [lia|]. destruct (Nat.eq_dec m k) as [->|Hne].
    - exists 0. rewrite seq_S. unfold gsum. rewrite map_app, zsum_app. cbn [Nat.add map zsum fold_right].
      rewrite zn_col_major by lia. unfold zsum. lia.
    - destruct (IH ltac:(lia)) as (q & Eq).
      assert (Hdiv : exists w, zprod (firstn m n) = zprod (firstn k n) * zn n k * w).
      { exists (zprod (firstn (m - S k) (skipn (S k) n))).
        replace (firstn m n) with (firstn (S k) n ++ firstn (m - S k) (skipn (S k) n)).
        - rewrite zprod_app, firstn_S_zn by lia. rewrite zprod_app. cbn [zprod fold_right]. lia.
        - rewrite <- (firstn_skipn (S k) (firstn m n)). rewrite firstn_firstn, skipn_firstn_comm.
          f_equal. f_equal. lia. }
      destruct Hdiv as (w & Ew). exists (q + w * d m).
      rewrite seq_S. unfold gsum in *. rewrite map_app, zsum_app, Eq. cbn [Nat.add map zsum fold_right].
      rewrite zn_col_major by lia. rewrite Ew. unfold zsum. ring. }
  destruct (H (length n) ltac:(lia)) as (q & Eq). rewrite Eq.
  pose proof (G k ltac:(lia)) as Gk.
  rewrite Z.mul_comm, Z.div_add by lia. rewrite Z.div_small by lia. rewrite Z.add_0_l.
  rewrite Z.mul_comm, Z.mod_add by (specialize (Hd k Hk); lia).
  apply Z.mod_small. now apply Hd.
Qed.

Lemma colmajor_ccoord_of_index n loc c :
  length loc = length n -> in_box n loc c -> zprod n < 2 ^ 31 ->
  exists i, get_index n loc c = Ok i /\ 0 <= i < zprod n /\ get_ccoord n loc i = Ok c.
Proof.
  intros Hl Hc Hv.
  assert (Hpos : Forall (fun x => 0 < x) n).
  { apply Forall_forall. intros x Hx. apply (In_nth _ _ 0) in Hx. destruct Hx as (k & Hk & <-).
    destruct Hc as [_ Hc]. specialize (Hc k Hk). unfold zn in Hc. lia. }
  rewrite colmajor_index by assumption. eexists. split; [reflexivity|].
  assert (Hi : 0 <= asum (col_major_strides n) (rel loc c) (seq 0 (length n)) < zprod n).
  { apply (dense_index_bounds n (col_major_strides n) (seq 0 (length n)) loc c); try assumption.
    - apply col_major_strides_length.
    - reflexivity.
    - apply col_major_dense.
    - rewrite (px_index_asum _ _ _ (seq 0 (length n))); rewrite ?col_major_strides_length; try assumption; try reflexivity.
      apply Hc. }
  split; [exact Hi|].
  destruct (get_ccoord_loop_spec n loc (asum (col_major_strides n) (rel loc c) (seq 0 (length n))) 1)
    as (c' & E & L & H); try assumption; try lia.
  unfold get_ccoord. rewrite E. f_equal. apply list_ext; [destruct Hc; congruence|].
  rewrite L. intros k Hk. rewrite H by exact Hk. rewrite Z.mul_1_l.
  pose proof (mixed_radix_digit n (zn (rel loc c)) k Hpos Hk) as M. unfold gsum in M. unfold asum.
  rewrite M.
  - rewrite zn_rel by (destruct Hc; lia). lia.
  - intros a Ha. destruct Hc as [Hc Hb]. rewrite zn_rel by lia. specialize (Hb a Ha). lia.
Qed.

Lemma colmajor_index_of_ccoord n loc i :
  length loc = length n -> Forall (fun x => 0 < x) n -> 0 <= i < zprod n -> zprod n < 2 ^ 31 ->
  exists c, get_ccoord n loc i = Ok c /\ in_box n loc c /\ get_index n loc c = Ok i.
Proof.
  intros Hl Hpos Hi Hv.
  destruct (index_of_ccoord n loc (col_major_strides n) (seq 0 (length n)) i) as (c & E1 & Hc & E2); try assumption.
  - apply col_major_strides_length.
  - reflexivity.
  - apply col_major_dense.
  - exists c. rewrite (px_index_asum _ _ _ (seq 0 (length n))) in E2;
      rewrite ?col_major_strides_length; try assumption; try reflexivity; try apply Hc.
    rewrite colmajor_index by assumption.
    split; [|split; [exact Hc|exact E2]].
    destruct (colmajor_ccoord_of_index n loc c Hl Hc Hv) as (i' & E3 & _ & E4).
    rewrite colmajor_index in E3 by assumption. congruence.
Qed.

(** ** Exactly when the 32-bit element count is right *)

Lemma wrap32_mod z : wrap32 z mod 2 ^ 32 = z mod 2 ^ 32.
Proof.
  unfold wrap32. rewrite <- (Z.mod_mod (z + 2 ^ 31) (2 ^ 32)) by lia.
  rewrite <- Zminus_mod_idemp_l. rewrite Z.mod_mod by lia. rewrite Z.mod_mod by lia.
  rewrite Zminus_mod_idemp_l. f_equal. lia.
Qed.

Lemma wrap32_cong a b : a mod 2 ^ 32 = b mod 2 ^ 32 -> wrap32 a = wrap32 b.
Proof.
  intros H. unfold wrap32. rewrite <- (Zplus_mod_idemp_l a), H, Zplus_mod_idemp_l. reflexivity.
Qed.

Lemma accumulate_mul_wrap shape : accumulate_mul shape = wrap32 (zprod shape).
Proof.
  unfold accumulate_mul.
  assert (G : forall l a, - 2 ^ 31 <= a < 2 ^ 31 -> fold_left (fun acc n => wrap32 (acc * n)) l a = wrap32 (a * zprod l)).
  { induction l as [|x l IH]; intros a Ha; cbn [fold_left].
    - cbn [zprod fold_right]. rewrite Z.mul_1_r. now rewrite wrap32_id.
    - rewrite IH by apply wrap32_range. apply wrap32_cong.
      change (zprod (x :: l)) with (x * zprod l). rewrite Z.mul_assoc.
      rewrite <- Zmult_mod_idemp_l, wrap32_mod, Zmult_mod_idemp_l. reflexivity. }
  rewrite G by lia. now rewrite Z.mul_1_l.
Qed.

Lemma accumulate_mul_exact_iff shape :
  accumulate_mul shape = zprod shape <-> - 2 ^ 31 <= zprod shape < 2 ^ 31.
Proof.
  rewrite accumulate_mul_wrap. split.
  - intros <-. apply wrap32_range.
  - apply wrap32_id.
Qed.

Lemma modulo_periodic a b :
  0 < b -> exists r, modulo a b = Ok r /\ 0 <= r < b /\ (b | a - r) /\
    (forall k, modulo (a + k * b) b = Ok r).
Proof.
  intros Hb. exists (a mod b). rewrite modulo_spec by assumption. split; [reflexivity|].
  split; [now apply Z.mod_pos_bound|]. split.
  - exists (a / b). rewrite Z.mod_eq by lia. ring.
  - intros k. rewrite modulo_spec by assumption. now rewrite Z.mod_add by lia.
Qed.

Lemma modulo_idem_add a a' b : 0 < b -> exists r r' s, modulo a b = Ok r /\ modulo a' b = Ok r' /\
  modulo (a + a') b = Ok s /\ modulo r b = Ok r /\ modulo (r + r') b = Ok s.
Proof.
  intros Hb. exists (a mod b), (a' mod b), ((a + a') mod b). rewrite !modulo_spec by assumption.
  rewrite Z.mod_mod by lia. rewrite <- Zplus_mod. auto.
Qed.

Lemma row_major3_degenerate a c : 1 < a -> 1 < c -> a * 1 * c < 2 ^ 31 ->
  is_buffer_contiguous [a; 1; c] (row_major_strides [a; 1; c]) = Ok false.
Proof.
  intros Ha Hc Hv. rewrite row_major3_recognised by lia. f_equal.
  replace (1 <? a) with true by lia. replace (1 <? c) with true by lia. reflexivity.
Qed.
