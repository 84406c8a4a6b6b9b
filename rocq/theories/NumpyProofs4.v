(** The two constructors of [NumpyProxy]; arrays in C and Fortran order. *)
From Verif Require Import Base CIntModel GridModel GridSpec GridProofs GridProofs2 GridProofs3
  LayoutModel LayoutProofs LayoutProofs2 NumpyModel NumpySpec NumpyProofs NumpyProofs2 NumpyProofs3.

Lemma regular_whole nc a : proper a -> regular nc a -> whole_items a.
Proof.
  intros (P1 & P2 & P3 & _) (fast & slow & Hpk & _). apply Forall_zn. intros i Hi.
  apply (packed_ge _ _ _ _ i Hpk P3 P2). lia.
Qed.

Lemma proxy_dof_inv axes domain n loc ndof a pr : proxy_dof_with axes domain n loc ndof a = Ok pr ->
  let comp := firstn (np_ndim a - length n) (np_shape a) in
  np_shape a = comp ++ n /\ zprod comp = ndof /\ pr_iter pr = Pixel /\
  exists order pstr strides, detect_storage_order_with axes n comp 1 a = Ok (order, pstr, strides) /\
    proxy_field order domain n loc pstr comp 1 strides a = Ok (pr_field pr).
Proof.
  unfold proxy_dof_with. destruct (negb (get_nb_from_shape n * ndof =? np_size a)); [discriminate|].
  destruct (Nat.ltb_spec (np_ndim a) (length n)); [discriminate|].
  destruct (zlist_eqb n (skipn (np_ndim a - length n) (np_shape a))) eqn:E; cbn [negb]; [|discriminate].
  apply zlist_eqb_eq in E. set (comp := firstn (np_ndim a - length n) (np_shape a)).
  destruct (Z.eqb_spec (zprod comp) ndof) as [E2|]; cbn [negb]; [|discriminate].
  destruct (detect_storage_order_with axes n comp 1 a) as [[[order pstr] strides]| |] eqn:Ed; cbn [bind]; try discriminate.
  destruct (proxy_field order domain n loc pstr comp 1 strides a) as [w| |] eqn:Ef; cbn [bind]; try discriminate.
  intros X. apply Ok_inj in X. subst pr. cbn [pr_iter pr_field].
  split; [|split; [exact E2|split; [reflexivity|now exists order, pstr, strides]]].
  rewrite <- (firstn_skipn (np_ndim a - length n) (np_shape a)) at 1. rewrite <- E. reflexivity.
Qed.

Lemma proxy_comp_inv axes domain n loc nsub comp a pr : proxy_comp_with axes domain n loc nsub comp a = Ok pr ->
  let cs := sub_pt_shape_of n comp nsub a in
  np_shape a = cs ++ n /\ view comp nsub cs (position n comp a) /\
  exists order pstr strides, detect_storage_order_with axes n cs nsub a = Ok (order, pstr, strides) /\
    proxy_field order domain n loc pstr comp nsub strides a = Ok (pr_field pr).
Proof.
  unfold proxy_comp_with, sub_pt_shape_of, position, has_sub_axis. intros H.
  set (cs := if (length n + length comp + 1 =? np_ndim a)%nat then comp ++ [nsub] else comp) in *. cbv zeta.
  assert (K : np_shape a = cs ++ n /\ view comp nsub cs (if (length n + length comp + 1 =? length (np_shape a))%nat then with_sub_axis else without_sub_axis)).
  { clear -H. unfold cs, np_ndim in *. destruct (Nat.eqb_spec (length n + length comp + 1) (length (np_shape a))) as [E|E].
    - destruct (zlist_eqb n (skipn (length (np_shape a) - length n) (np_shape a))) eqn:E1; [|discriminate].
      destruct (Z.eqb_spec nsub (zn (np_shape a) (length comp))) as [E2|]; [|discriminate].
      destruct (zlist_eqb comp (firstn (length comp) (np_shape a))) eqn:E3; [|discriminate].
      apply zlist_eqb_eq in E1. apply zlist_eqb_eq in E3. split; [|left; split; reflexivity].
      rewrite <- (firstn_skipn (length comp) (np_shape a)) at 1. rewrite <- E3, <- app_assoc. f_equal. cbn [app].
      rewrite (skipn_zn (np_shape a)) by lia. rewrite <- E2. f_equal. rewrite E1. f_equal. lia.
    - destruct (Nat.eqb_spec (length n + length comp) (length (np_shape a))) as [E'|]; [|discriminate].
      destruct (zlist_eqb n (skipn (length (np_shape a) - length n) (np_shape a))) eqn:E1; [|discriminate].
      destruct (Z.eqb_spec nsub 1) as [E2|]; [|discriminate].
      destruct (zlist_eqb comp (firstn (length comp) (np_shape a))) eqn:E3; [|discriminate].
      apply zlist_eqb_eq in E1. apply zlist_eqb_eq in E3. split; [|right; split; [reflexivity|split; [exact E2|reflexivity]]].
      rewrite <- (firstn_skipn (length comp) (np_shape a)) at 1. rewrite <- E3. f_equal.
      rewrite E1. f_equal. lia. }
  destruct K as [K1 K2]. split; [exact K1|]. split; [exact K2|].
  match type of H with (bind ?x _) = _ => destruct x as [u| |]; cbn [bind] in H; try discriminate end.
  destruct (detect_storage_order_with axes n cs nsub a) as [[[order pstr] strides]| |] eqn:Ed; cbn [bind] in H; try discriminate.
  destruct (proxy_field order domain n loc pstr comp nsub strides a) as [w| |] eqn:Ef; cbn [bind] in H; try discriminate.
  apply Ok_inj in H. subst pr. cbn [pr_field]. now exists order, pstr, strides.
Qed.

Lemma view_pos comp nsub cs at_ : view comp nsub cs at_ -> Forall (fun x => 0 < x) cs -> 0 < nsub.
Proof.
  intros [(-> & _)|(_ & -> & _)] H; [|lia]. apply Forall_app in H. destruct H as [_ H]. now inversion H.
Qed.

Lemma either_shows axes order domain n loc pn comp nsub cs at_ custom a w :
  view comp nsub cs at_ -> proper a -> np_shape a = cs ++ n ->
  sort_outcome cs (component_strides_norm cs a) axes ->
  detect_storage_order_with axes n cs nsub a = Ok (order, pn, custom) ->
  proxy_field order domain n loc pn comp nsub custom a = Ok w ->
  regular (length cs) a \/ (whole_items a /\ wrapped_order w = UnknownOrder) ->
  shows w a comp nsub n at_.
Proof.
  intros Hv Hp Hsh Hso Hd Hf Hc.
  assert (Hns : 0 < nsub).
  { apply (view_pos comp nsub cs at_ Hv). destruct Hp as (_ & P2 & _). rewrite Hsh in P2. now apply Forall_app in P2. }
  assert (Hdec : order = UnknownOrder \/ order <> UnknownOrder) by (destruct order; (now left) || (right; discriminate)).
  destruct Hc as [Hr|[Hwi Ho]].
  - destruct Hdec as [E|E].
    + apply (custom_shows axes order domain n loc pn comp nsub cs at_ custom a w); try assumption. now apply (regular_whole (length cs)).
    + now apply (native_shows axes order domain n loc pn comp nsub cs at_ custom a w).
  - destruct Hdec as [E|E]; [now apply (custom_shows axes order domain n loc pn comp nsub cs at_ custom a w)|].
    exfalso. destruct (proxy_field_inv _ _ _ _ _ _ _ _ _ _ Hf) as (Hl & Ew & _).
    destruct (global_layout_fields _ _ _ _ _ _ _ Hl) as (_ & _ & _ & F4 & _).
    assert (custom = []) as ->.
    { destruct Hp as (P1 & _). destruct (detect_inv _ _ _ _ _ _ _ _ Hd P1) as (cstr & p0 & pr & _ & _ & _ & _ & [(X & _)|[(X & _)|(X & _)]]);
        [now elim E|exact X|exact X]. }
    unfold wrapped_order in Ho. rewrite Ew, F4 in Ho. contradiction.
Qed.

Lemma dof_shows axes domain n loc ndof a pr :
  proxy_dof_with axes domain n loc ndof a = Ok pr -> proper a ->
  let comp := firstn (np_ndim a - length n) (np_shape a) in
  sort_outcome comp (component_strides_norm comp a) axes ->
  regular (np_ndim a - length n) a \/ (whole_items a /\ wrapped_order (pr_field pr) = UnknownOrder) ->
  shows (pr_field pr) a comp 1 n without_sub_axis.
Proof.
  intros H Hp comp Hso Hc. destruct (proxy_dof_inv _ _ _ _ _ _ _ H) as (E1 & E2 & _ & order & pstr & strides & Hd & Hf).
  fold comp in E1, E2, Hd, Hf.
  apply (either_shows axes order domain n loc pstr comp 1 comp without_sub_axis strides a); try assumption.
  - right. auto.
  - replace (length comp) with (np_ndim a - length n)%nat; [exact Hc|].
    unfold np_ndim. rewrite E1, app_length. lia.
Qed.

Lemma comp_shows axes domain n loc nsub comp a pr :
  proxy_comp_with axes domain n loc nsub comp a = Ok pr -> proper a ->
  let cs := sub_pt_shape_of n comp nsub a in
  sort_outcome cs (component_strides_norm cs a) axes ->
  regular (np_ndim a - length n) a \/ (whole_items a /\ wrapped_order (pr_field pr) = UnknownOrder) ->
  shows (pr_field pr) a comp nsub n (position n comp a).
Proof.
  intros H Hp cs Hso Hc. destruct (proxy_comp_inv _ _ _ _ _ _ _ _ H) as (E1 & E2 & order & pstr & strides & Hd & Hf).
  fold cs in E1, E2, Hd, Hf.
  apply (either_shows axes order domain n loc pstr comp nsub cs (position n comp a) strides a); try assumption.
  replace (length cs) with (np_ndim a - length n)%nat; [exact Hc|].
  unfold np_ndim. rewrite E1, app_length. lia.
Qed.

(** ** C and Fortran order are regular *)

Lemma seq_split n k : (k <= n)%nat -> seq 0 n = seq 0 k ++ seq k (n - k).
Proof. intros H. rewrite <- seq_app. f_equal. lia. Qed.

Lemma fortran_packed a : proper a -> in_fortran_order a ->
  packed_along (np_item a) (np_shape a) (np_strides a) (seq 0 (length (np_shape a))).
Proof.
  intros (P1 & P2 & P3 & _) E. set (n := np_shape a) in *. set (w := np_item a) in *.
  assert (Z : forall i, (i < length n)%nat -> zn (np_strides a) i = w * zprod (firstn i n)).
  { intros i Hi. rewrite E. fold n w. now rewrite zn_map_seq. }
  split; [exact P1|]. split; [apply Permutation_refl|]. split.
  - intros x r Hx. destruct n as [|y n']; [discriminate|]. cbn [length seq] in Hx. injection Hx as <- _.
    rewrite Z by (cbn; lia). cbn. lia.
  - rewrite seq_length. intros k Hk. rewrite !seq_nth by lia. cbn [Nat.add]. rewrite !Z by lia.
    rewrite (firstn_S_zn n k) by lia. rewrite zprod_app. cbn [zprod fold_right]. rewrite Z.mul_1_r. fold (zprod (firstn k n)).
    split; [exists (zn n k); ring|]. apply Z.eq_le_incl. ring.
Qed.

Lemma fortran_regular nc a : proper a -> in_fortran_order a -> (nc <= length (np_shape a))%nat -> regular nc a.
Proof.
  intros Hp E Hnc. exists (seq 0 nc), (seq nc (length (np_shape a) - nc)).
  rewrite <- seq_split by assumption. split; [now apply fortran_packed|]. left. split; [|split].
  - apply Forall_forall. intros i Hi. apply in_seq in Hi. lia.
  - apply Forall_forall. intros i Hi. apply in_seq in Hi. lia.
  - intros H2. rewrite E. rewrite !zn_map_seq by lia. destruct Hp as (_ & P2 & P3 & _).
    destruct (np_shape a) as [|x r]; [cbn in Hnc; lia|]. inversion P2; subst. cbn [firstn zprod fold_right].
    assert (0 <= np_item a * (x - 1)) by (apply Z.mul_nonneg_nonneg; lia). lia.
Qed.

Lemma c_packed a : proper a -> in_c_order a ->
  packed_along (np_item a) (np_shape a) (np_strides a) (rev (seq 0 (length (np_shape a)))).
Proof.
  intros (P1 & P2 & P3 & _) E. set (n := np_shape a) in *. set (w := np_item a) in *.
  assert (Z : forall i, (i < length n)%nat -> zn (np_strides a) i = w * zprod (skipn (S i) n)).
  { intros i Hi. rewrite E. fold n w. now rewrite zn_map_seq. }
  split; [exact P1|]. split; [symmetry; apply Permutation_rev|].
  assert (Nr : forall k, (k < length n)%nat -> nth k (rev (seq 0 (length n))) 0%nat = (length n - S k)%nat).
  { intros k Hk. rewrite rev_nth by (rewrite seq_length; lia). rewrite seq_length, seq_nth by lia. lia. }
  split.
  - intros x r Hx. pose proof (f_equal (@length nat) Hx) as Hl. rewrite rev_length, seq_length in Hl. cbn [length] in Hl.
    assert (x = (length n - 1)%nat) as ->.
    { rewrite <- (Nr 0%nat) by lia. rewrite Hx. reflexivity. }
    rewrite Z by lia. replace (S (length n - 1)) with (length n) by lia. rewrite skipn_all. cbn. lia.
  - rewrite rev_length, seq_length. intros k Hk. rewrite !Nr by lia. rewrite !Z by lia.
    replace (S (length n - S (S k))) with (length n - S k)%nat by lia.
    rewrite (skipn_zn n (length n - S k)) by lia. rewrite zprod_cons.
    split; [exists (zn n (length n - S k)); ring|]. apply Z.eq_le_incl. ring.
Qed.

Lemma c_regular nc a : proper a -> in_c_order a -> (nc <= length (np_shape a))%nat -> regular nc a.
Proof.
  intros Hp E Hnc. exists (rev (seq nc (length (np_shape a) - nc))), (rev (seq 0 nc)).
  rewrite <- rev_app_distr, <- seq_split by assumption. split; [now apply c_packed|]. right. split; [|split].
  - apply Forall_rev, Forall_forall. intros i Hi. apply in_seq in Hi. lia.
  - apply Forall_rev, Forall_forall. intros i Hi. apply in_seq in Hi. lia.
  - intros H2. rewrite E. rewrite !zn_map_seq by lia. destruct Hp as (_ & P2 & P3 & _).
    destruct (np_shape a) as [|x [|y r]]; [cbn in Hnc; lia|cbn in Hnc; lia|].
    inversion P2 as [|? ? _ P4]; subst. inversion P4 as [|? ? Hy P5]; subst. cbn [skipn]. rewrite zprod_cons.
    pose proof (zprod_pos r P5). assert (0 <= np_item a * ((y - 1) * zprod r)) by (repeat apply Z.mul_nonneg_nonneg; lia). lia.
Qed.
