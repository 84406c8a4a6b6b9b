(** Sorting of axes, contiguity, pixel iteration and buffer sizes. *)
From Verif Require Import Base CIntModel GridModel GridProofs.
From Coq Require Import Sorting.Sorted.

(** ** The executable sort is one of the permitted outcomes *)

Lemma axes_lt_asym shape s a b :
  axes_lt shape s a b = true -> axes_lt shape s b a = false.
Proof. unfold axes_lt. lia. Qed.

Lemma axes_le_trans shape s a b c :
  axes_lt shape s b a = false -> axes_lt shape s c b = false -> axes_lt shape s c a = false.
Proof. unfold axes_lt. lia. Qed.

Lemma insert_axis_perm shape s a l : Permutation (insert_axis shape s a l) (a :: l).
Proof.
  induction l as [|b r IH]; simpl; [reflexivity|].
  destruct (axes_lt shape s a b); [reflexivity|].
  rewrite IH. apply perm_swap.
Qed.

Definition ax_le (shape s : list Z) (a b : nat) : Prop := axes_lt shape s b a = false.

Lemma insert_axis_sorted shape s a l :
  StronglySorted (ax_le shape s) l -> StronglySorted (ax_le shape s) (insert_axis shape s a l).
Proof.
  induction 1 as [|b r Hs IH Hf]; simpl; [repeat constructor|].
  destruct (axes_lt shape s a b) eqn:E.
  - constructor; [constructor; assumption|]. constructor.
    + now apply axes_lt_asym.
    + rewrite Forall_forall in *. intros x Hx. specialize (Hf x Hx).
      unfold ax_le in *. apply (axes_le_trans shape s a b x); [|exact Hf]. now apply axes_lt_asym.
  - constructor; [exact IH|].
    rewrite Forall_forall in *. intros x Hx.
    apply (Permutation_in _ (insert_axis_perm shape s a r)) in Hx. destruct Hx as [<-|Hx]; [exact E|now apply Hf].
Qed.

Lemma insert_fold_perm shape s l acc :
  Permutation (fold_left (fun acc a => insert_axis shape s a acc) l acc) (acc ++ l).
Proof.
  revert acc; induction l as [|a r IH]; intros acc; simpl; [now rewrite app_nil_r|].
  rewrite IH, insert_axis_perm. simpl. apply Permutation_middle.
Qed.

Lemma insert_fold_sorted shape s l acc :
  StronglySorted (ax_le shape s) acc ->
  StronglySorted (ax_le shape s) (fold_left (fun acc a => insert_axis shape s a acc) l acc).
Proof.
  revert acc; induction l as [|a r IH]; intros acc H; simpl; [exact H|].
  apply IH, insert_axis_sorted, H.
Qed.

Lemma StronglySorted_nth {A} (R : A -> A -> Prop) l d :
  StronglySorted R l -> forall i j, (i < j < length l)%nat -> R (nth i l d) (nth j l d).
Proof.
  induction 1 as [|a r Hs IH Hf]; simpl; intros i j Hij; [lia|].
  destruct i as [|i], j as [|j]; try lia.
  - rewrite Forall_forall in Hf. apply Hf, nth_In; lia.
  - apply IH; lia.
Qed.

Lemma nth_StronglySorted {A} (R : A -> A -> Prop) l d :
  (forall i j, (i < j < length l)%nat -> R (nth i l d) (nth j l d)) -> StronglySorted R l.
Proof.
  induction l as [|a r IH]; intros H; [constructor|]. constructor.
  - apply IH. intros i j Hij. apply (H (S i) (S j)). simpl; lia.
  - rewrite Forall_forall. intros x Hx. apply (In_nth _ _ d) in Hx. destruct Hx as (k & Hk & <-).
    apply (H 0%nat (S k)). simpl; lia.
Qed.

Lemma compute_axes_order_outcome shape s : sort_outcome shape s (compute_axes_order shape s).
Proof.
  split.
  - unfold compute_axes_order. now rewrite insert_fold_perm.
  - apply (StronglySorted_nth (ax_le shape s)). apply insert_fold_sorted. constructor.
Qed.

(** ** Contiguity: soundness *)

Lemma Forall_pos_zn n axes :
  Forall (fun x => 0 < x) n -> Permutation axes (seq 0 (length n)) ->
  forall a, In a axes -> 0 < zn n a.
Proof.
  intros Hpos Hp a Ha. apply (perm_seq_In _ _ Hp) in Ha. rewrite Forall_forall in Hpos.
  apply Hpos. unfold zn. now apply nth_In.
Qed.

Lemma is_contiguous_ax_dense n s axes :
  Forall (fun x => 0 < x) n -> zprod n < 2 ^ 31 ->
  Permutation axes (seq 0 (length n)) -> length s = length n ->
  is_buffer_contiguous_ax n s axes = Ok true <-> dense n s axes 1.
Proof.
  intros Hpos Hv Hp Hs. unfold is_buffer_contiguous_ax.
  destruct n as [|x n'] eqn:En.
  { simpl. simpl in Hp. apply Permutation_sym, Permutation_nil in Hp. subst axes. simpl. tauto. }
  rewrite <- En in *. assert (Hlen : (length n =? 0)%nat = false) by (subst n; reflexivity).
  rewrite Hlen. unfold compute_volume. rewrite fold_left_mul, Z.mul_1_l.
  pose proof (zprod_pos n Hpos). destruct (Z.eqb_spec (zprod n) 0); [lia|].
  rewrite Hs, Nat.eqb_refl. cbn [negb].
  rewrite <- (contiguous_walk_dense n s axes 1).
  - split; [intros H1; injection H1; auto|intros ->; reflexivity].
  - lia.
  - now apply Forall_pos_zn.
  - rewrite Z.mul_1_l, (aprod_perm n axes _ Hp), aprod_seq. exact Hv.
Qed.

(** ** Contiguity: completeness when no extent is 1 *)

Lemma dense_strides_ge n s axes cur :
  (forall a, In a axes -> 2 <= zn n a) -> 0 < cur -> dense n s axes cur ->
  forall a, In a axes -> cur <= zn s a.
Proof.
  revert cur; induction axes as [|b r IH]; intros cur Hn Hc; simpl; [easy|].
  intros [Hb Hr] a [<-|Ha]; [lia|].
  assert (Pb : 2 <= zn n b) by (apply Hn; now left).
  specialize (IH (cur * zn n b) (fun x Hx => Hn x (or_intror Hx)) ltac:(nia) Hr a Ha). nia.
Qed.

Lemma dense_strict n s axes cur :
  (forall a, In a axes -> 2 <= zn n a) -> 0 < cur -> dense n s axes cur ->
  StronglySorted (fun a b => zn s a < zn s b) axes.
Proof.
  revert cur; induction axes as [|b r IH]; intros cur Hn Hc; simpl; [constructor|].
  intros [Hb Hr]. assert (Pb : 2 <= zn n b) by (apply Hn; now left). constructor.
  - apply (IH (cur * zn n b)); try assumption; [|nia]. intros x Hx; apply Hn; now right.
  - rewrite Forall_forall. intros a Ha.
    pose proof (dense_strides_ge n s r (cur * zn n b) (fun x Hx => Hn x (or_intror Hx)) ltac:(nia) Hr a Ha). nia.
Qed.

Lemma strict_sort_unique (s : list Z) l1 l2 :
  StronglySorted (fun a b => zn s a < zn s b) l1 ->
  StronglySorted (fun a b => zn s a <= zn s b) l2 ->
  Permutation l2 l1 -> l2 = l1.
Proof.
  revert l2; induction l1 as [|a r IH]; intros l2 H1 H2 Hp.
  - apply Permutation_sym, Permutation_nil in Hp. exact Hp.
  - destruct l2 as [|b r2]; [apply Permutation_nil in Hp; discriminate|].
    inversion H1 as [|? ? S1 F1]; subst. inversion H2 as [|? ? S2 F2]; subst.
    rewrite Forall_forall in F1, F2.
    assert (a = b) as ->.
    { assert (Ia : In a (b :: r2)) by (apply (Permutation_in _ (Permutation_sym Hp)); now left).
      assert (Ib : In b (a :: r)) by (apply (Permutation_in _ Hp); now left).
      destruct Ib as [E|Ib]; [exact E|]. destruct Ia as [E|Ia]; [congruence|].
      specialize (F1 b Ib). specialize (F2 a Ia). lia. }
    f_equal. apply IH; try assumption. now apply Permutation_cons_inv in Hp.
Qed.

Lemma sort_outcome_le shape s axes :
  sort_outcome shape s axes -> StronglySorted (fun a b => zn s a <= zn s b) axes.
Proof.
  intros [_ H]. apply (nth_StronglySorted _ _ 0%nat). intros i j Hij.
  specialize (H i j Hij). unfold axes_lt in H. lia.
Qed.

Lemma contiguous_complete n s axes axes0 :
  Forall (fun x => 2 <= x) n -> zprod n < 2 ^ 31 -> length s = length n ->
  Permutation axes0 (seq 0 (length n)) -> dense n s axes0 1 ->
  sort_outcome n s axes ->
  is_buffer_contiguous_ax n s axes = Ok true.
Proof.
  intros Hn Hv Hs Hp0 Hd Ho.
  assert (Hpos : Forall (fun x => 0 < x) n) by (eapply Forall_impl; [|exact Hn]; simpl; intros; lia).
  assert (Hn2 : forall a, In a axes0 -> 2 <= zn n a).
  { intros a Ha. apply (perm_seq_In _ _ Hp0) in Ha. rewrite Forall_forall in Hn.
    apply Hn. unfold zn. now apply nth_In. }
  assert (axes = axes0) as ->.
  { apply (strict_sort_unique s); [now apply (dense_strict n s axes0 1)|now apply sort_outcome_le in Ho|].
    destruct Ho as [Hp _]. now rewrite Hp, Hp0. }
  apply is_contiguous_ax_dense; try assumption.
Qed.

(** ** Column-major and row-major strides are dense *)

Lemma firstn_S_zn l k : (k < length l)%nat -> firstn (S k) l = firstn k l ++ [zn l k].
Proof.
  revert k; induction l as [|x l IH]; intros [|k]; simpl; intros H; try lia; [reflexivity|].
  f_equal. apply IH. lia.
Qed.

Lemma col_major_stride_prod n i : col_major_stride n i = zprod (firstn i n).
Proof. unfold col_major_stride. rewrite fold_left_mul. ring. Qed.

Lemma zprod_rev l : zprod (rev l) = zprod l.
Proof. apply zprod_perm. symmetry. apply Permutation_rev. Qed.

Lemma row_major_stride_prod n i : row_major_stride n i = zprod (skipn (S i) n).
Proof. unfold row_major_stride. rewrite fold_left_mul, zprod_rev. ring. Qed.

Lemma zn_col_major n i : (i < length n)%nat -> zn (col_major_strides n) i = zprod (firstn i n).
Proof. intros H. unfold col_major_strides. rewrite zn_map_seq by assumption. apply col_major_stride_prod. Qed.

Lemma zn_row_major n i : (i < length n)%nat -> zn (row_major_strides n) i = zprod (skipn (S i) n).
Proof. intros H. unfold row_major_strides. rewrite zn_map_seq by assumption. apply row_major_stride_prod. Qed.

Lemma col_major_strides_length n : length (col_major_strides n) = length n.
Proof. unfold col_major_strides. now rewrite map_length, seq_length. Qed.

Lemma row_major_strides_length n : length (row_major_strides n) = length n.
Proof. unfold row_major_strides. now rewrite map_length, seq_length. Qed.

Lemma col_major_dense_from n k d :
  (k + d <= length n)%nat ->
  dense n (col_major_strides n) (seq k d) (zprod (firstn k n)).
Proof.
  revert k; induction d as [|d IH]; intros k H; simpl; [exact I|].
  split; [apply zn_col_major; lia|].
  replace (zprod (firstn k n) * zn n k) with (zprod (firstn (S k) n)).
  - apply IH. lia.
  - rewrite firstn_S_zn by lia. rewrite zprod_app. simpl. ring.
Qed.

Lemma col_major_dense n : dense n (col_major_strides n) (seq 0 (length n)) 1.
Proof. apply (col_major_dense_from n 0 (length n)). lia. Qed.

Lemma skipn_zn l k : (k < length l)%nat -> skipn k l = zn l k :: skipn (S k) l.
Proof.
  revert k; induction l as [|x l IH]; intros [|k]; simpl; intros H; try lia; [reflexivity|].
  apply IH. lia.
Qed.

Lemma row_major_dense_upto n k :
  (k <= length n)%nat ->
  dense n (row_major_strides n) (rev (seq (length n - k) k)) 1 /\
  aprod n (rev (seq (length n - k) k)) = zprod (skipn (length n - k) n).
Proof.
  induction k as [|k IH]; intros H.
  - simpl. split; [exact I|]. rewrite Nat.sub_0_r, skipn_all. reflexivity.
  - destruct IH as [IH1 IH2]; [lia|].
    replace (seq (length n - S k) (S k)) with ((length n - S k)%nat :: seq (length n - k) k).
    2:{ simpl. f_equal. f_equal. lia. }
    cbn [rev]. rewrite dense_app. split.
    + split; [exact IH1|]. simpl. split; [|exact I].
      rewrite IH2. rewrite zn_row_major by lia.
      replace (S (length n - S k)) with (length n - k)%nat by lia.
      destruct (zprod (skipn (length n - k) n)); reflexivity.
    + unfold aprod in *. rewrite map_app, zprod_app, IH2. simpl.
      rewrite (skipn_zn n (length n - S k)) by lia.
      replace (S (length n - S k)) with (length n - k)%nat by lia.
      unfold zprod; cbn [fold_right]. ring.
Qed.

Lemma row_major_dense n : dense n (row_major_strides n) (rev (seq 0 (length n))) 1.
Proof.
  destruct (row_major_dense_upto n (length n) (le_n _)) as [H _].
  replace (length n - length n)%nat with 0%nat in H by lia. exact H.
Qed.

(** With the stable sort, column-major grids are always recognised. *)
Lemma insert_axis_last shape s a l :
  (forall b, In b l -> axes_lt shape s a b = false) -> insert_axis shape s a l = l ++ [a].
Proof.
  induction l as [|b r IH]; intros H; simpl; [reflexivity|].
  rewrite (H b (or_introl eq_refl)). f_equal. apply IH. intros x Hx; apply H; now right.
Qed.

Lemma zprod_firstn_mono n i j :
  Forall (fun x => 0 < x) n -> (i <= j)%nat -> 0 < zprod (firstn i n) <= zprod (firstn j n).
Proof.
  intros Hpos Hij. revert i j Hij. induction Hpos as [|x l Hx Hl IH]; intros i j Hij.
  - rewrite !firstn_nil. simpl. lia.
  - destruct i as [|i], j as [|j]; try lia; simpl; try lia.
    + pose proof (IH 0%nat j ltac:(lia)) as E. simpl in E. nia.
    + pose proof (IH i j ltac:(lia)) as E. nia.
Qed.

Lemma col_major_not_lt n a b :
  Forall (fun x => 0 < x) n -> (b < a < length n)%nat ->
  axes_lt n (col_major_strides n) a b = false.
Proof.
  intros Hpos Hab. unfold axes_lt. rewrite !zn_col_major by lia.
  pose proof (zprod_firstn_mono n b a Hpos ltac:(lia)) as M.
  pose proof (zprod_firstn_mono n (S b) a Hpos ltac:(lia)) as M2.
  rewrite firstn_S_zn in M2 by lia. rewrite zprod_app in M2. simpl in M2.
  assert (Pa : 0 < zn n a) by (rewrite Forall_forall in Hpos; apply Hpos; unfold zn; apply nth_In; lia).
  assert (Pb : 0 < zn n b) by (rewrite Forall_forall in Hpos; apply Hpos; unfold zn; apply nth_In; lia).
  nia.
Qed.

Lemma compute_axes_order_col_major n :
  Forall (fun x => 0 < x) n -> compute_axes_order n (col_major_strides n) = seq 0 (length n).
Proof.
  intros Hpos. unfold compute_axes_order.
  assert (H : forall k d, (k + d <= length n)%nat ->
     fold_left (fun acc a => insert_axis n (col_major_strides n) a acc) (seq k d) (seq 0 k) = seq 0 (k + d)).
  { intros k d; revert k; induction d as [|d IH]; intros k Hk; simpl; [now rewrite Nat.add_0_r|].
    rewrite insert_axis_last.
    - replace (seq 0 k ++ [k]) with (seq 0 (S k)) by (rewrite seq_S; reflexivity).
      rewrite IH by lia. f_equal. lia.
    - intros b Hb. apply in_seq in Hb. apply col_major_not_lt; [assumption|lia]. }
  exact (H 0%nat (length n) ltac:(lia)).
Qed.

Lemma col_major_recognised n :
  Forall (fun x => 0 < x) n -> zprod n < 2 ^ 31 ->
  is_buffer_contiguous n (col_major_strides n) = Ok true.
Proof.
  intros Hpos Hv. unfold is_buffer_contiguous. rewrite compute_axes_order_col_major by assumption.
  apply is_contiguous_ax_dense; try assumption; [reflexivity|apply col_major_strides_length|].
  apply col_major_dense.
Qed.

(** Three-dimensional row-major grids: exactly which are recognised. *)
Lemma row_major3_strides a b c : row_major_strides [a; b; c] = [c * b; c; 1].
Proof. unfold row_major_strides, row_major_stride. cbn [length seq map skipn rev app fold_left].
  rewrite ?Z.mul_1_l. reflexivity. Qed.

Lemma row_major3_recognised a b c :
  0 < a -> 0 < b -> 0 < c -> a * b * c < 2 ^ 31 ->
  is_buffer_contiguous [a; b; c] (row_major_strides [a; b; c]) =
  Ok (negb ((b =? 1) && (1 <? a) && (1 <? c))).
Proof.
  intros Ha Hb Hc Hv. rewrite row_major3_strides.
  unfold is_buffer_contiguous, is_buffer_contiguous_ax. cbn [length Nat.eqb].
  unfold compute_volume; cbn [fold_left].
  replace (1 * a * b * c) with (a * b * c) by ring.
  assert (Hv2 : 0 < a * b * c) by nia.
  destruct (Z.eqb_spec (a * b * c) 0); [lia|]. cbn [negb]. f_equal.
  assert (Hb1 : 1 <= a * b < 2^31) by nia. assert (Hb2 : 1 <= b * c < 2^31) by nia. assert (Hb3 : 1 <= a * c < 2 ^ 31) by nia.
  assert (Hcb : c * b = 1 <-> c = 1 /\ b = 1) by nia.
  assert (Hcb2 : c * b < c <-> False) by nia.
  assert (Hcb3 : c < c * b <-> 2 <= b) by nia.
  assert (Hcb4 : 1 < c * b <-> 2 <= b \/ 2 <= c) by nia.
  unfold compute_axes_order. cbn [length seq fold_left insert_axis].
  unfold axes_lt, zn; cbn [nth].
  destruct (Z.eq_dec a 1) as [Ea|Ea], (Z.eq_dec b 1) as [Eb|Eb], (Z.eq_dec c 1) as [Ec|Ec];
  repeat match goal with
  | |- context[?x =? ?y] =>
      first [ rewrite (proj2 (Z.eqb_eq x y)) by lia | rewrite (proj2 (Z.eqb_neq x y)) by lia ];
      cbn [insert_axis andb orb nth negb]; unfold axes_lt, zn; cbn [nth]
  | |- context[?x <? ?y] =>
      first [ rewrite (proj2 (Z.ltb_lt x y)) by lia | rewrite (proj2 (Z.ltb_ge x y)) by lia ];
      cbn [insert_axis andb orb nth negb]; unfold axes_lt, zn; cbn [nth]
  end; cbn [contiguous_walk]; unfold zn; cbn [nth];
  rewrite ?Z.mul_1_l; repeat (rewrite wrap32_id by nia); subst; rewrite ?Z.mul_1_l, ?Z.mul_1_r in *; try nia.
Qed.

(** ** Pixel iteration visits every pixel of the box exactly once *)

Lemma mapM_ok {A B} (f : A -> res B) (g : A -> B) l :
  (forall x, In x l -> f x = Ok (g x)) -> mapM f l = Ok (map g l).
Proof.
  induction l as [|x r IH]; intros H; simpl; [reflexivity|].
  rewrite (H x (or_introl eq_refl)). simpl. rewrite IH; [reflexivity|].
  intros y Hy; apply H; now right.
Qed.

Lemma mapM_Forall2 {A B} (f : A -> res B) l :
  (forall x, In x l -> exists y, f x = Ok y) ->
  exists l', mapM f l = Ok l' /\ Forall2 (fun x y => f x = Ok y) l l'.
Proof.
  induction l as [|x r IH]; intros H; simpl.
  - exists []; split; [reflexivity|constructor].
  - destruct (H x (or_introl eq_refl)) as [y Hy].
    destruct IH as (l' & E & F); [intros z Hz; apply H; now right|].
    exists (y :: l'). rewrite Hy; simpl. rewrite E. split; [reflexivity|now constructor].
Qed.

Lemma Forall2_len {A B} (R : A -> B -> Prop) l l' : Forall2 R l l' -> length l = length l'.
Proof. induction 1; simpl; congruence. Qed.

Lemma Forall2_nth {A B} (R : A -> B -> Prop) l l' da db i :
  Forall2 R l l' -> (i < length l)%nat -> R (nth i l da) (nth i l' db).
Proof.
  intros H; revert i; induction H as [|x y l l' Hxy H IH]; intros [|i]; simpl; intros Hi; try lia; [exact Hxy|].
  apply IH; lia.
Qed.

Lemma iterate_dense p axes0 :
  length (px_loc p) = length (px_nb p) -> length (px_strides p) = length (px_nb p) ->
  px_axes p = axes0 ->
  Permutation axes0 (seq 0 (length (px_nb p))) -> dense (px_nb p) (px_strides p) axes0 1 ->
  Forall (fun x => 0 < x) (px_nb p) -> px_contiguous p = true ->
  exists cs, px_iterate p = Ok cs /\ NoDup cs /\
    length cs = Z.to_nat (zprod (px_nb p)) /\
    (forall c, In c cs <-> in_box (px_nb p) (px_loc p) c) /\
    (forall k, (k < length cs)%nat -> px_get_index p (nth k cs []) = Ok (Z.of_nat k)) /\
    px_enumerate p = Ok (combine (zrange (length cs)) cs).
Proof.
  intros Hl Hs Hax Hp Hde Hpos Hcont.
  set (N := Z.to_nat (zprod (px_nb p))).
  pose proof (zprod_pos _ Hpos) as HP.
  assert (Hst : forall i, In i (zrange N) -> exists c, px_get_ccoord p i = Ok c /\
             in_box (px_nb p) (px_loc p) c /\ px_get_index p c = Ok i).
  { intros i Hi. apply zrange_In in Hi. unfold px_get_ccoord, px_get_index. rewrite Hax.
    apply index_of_ccoord; try assumption. lia. }
  destruct (mapM_Forall2 (px_get_ccoord p) (zrange N)) as (cs & E & F).
  { intros i Hi. destruct (Hst i Hi) as (c & H & _). now exists c. }
  pose proof (Forall2_len _ _ _ F) as HL. rewrite zrange_length in HL.
  assert (Hk : forall k, (k < N)%nat ->
     px_get_ccoord p (Z.of_nat k) = Ok (nth k cs []) /\
     in_box (px_nb p) (px_loc p) (nth k cs []) /\ px_get_index p (nth k cs []) = Ok (Z.of_nat k)).
  { intros k Hk. pose proof (Forall2_nth _ _ _ 0 [] k F) as H. rewrite zrange_length in H.
    specialize (H Hk). cbn beta in H. rewrite zrange_nth in H by assumption.
    split; [exact H|]. destruct (Hst (Z.of_nat k)) as (c & H1 & H2 & H3).
    - apply zrange_In. lia.
    - rewrite H in H1. injection H1 as <-. auto. }
  exists cs. split; [|split; [|split; [|split; [|split]]]].
  - unfold px_iterate. rewrite Hcont. unfold get_size. rewrite fold_left_mul, Z.mul_1_l. exact E.
  - apply (NoDup_nth cs []). intros i j Hi Hj Hij.
    destruct (Hk i ltac:(lia)) as (_ & _ & Ei). destruct (Hk j ltac:(lia)) as (_ & _ & Ej).
    rewrite Hij in Ei. rewrite Ei in Ej. injection Ej as Ej. lia.
  - symmetry; exact HL.
  - intros c. split.
    + intros Hin. apply (In_nth _ _ []) in Hin. destruct Hin as (k & Hk1 & <-). apply Hk. lia.
    + intros Hin.
      destruct (ccoord_of_index (px_nb p) (px_loc p) (px_strides p) axes0 c) as (i & Ei & Ec); try assumption.
      { apply dense_superinc; exact Hde. }
      assert (Hi : 0 <= i < zprod (px_nb p)).
      { rewrite (px_index_asum _ _ _ axes0) in Ei; [|congruence|destruct Hin; congruence|now rewrite Hs].
        injection Ei as <-.
        assert (Hd : digits_ok (px_nb p) (rel (px_loc p) c) axes0).
        { intros a Ha. apply (perm_seq_In _ _ Hp) in Ha. destruct Hin as [Hc Hb].
          rewrite zn_rel by lia. specialize (Hb a Ha). lia. }
        assert (Hsp : forall a, In a axes0 -> 0 <= zn (px_strides p) a).
        { intros a Ha. apply dense_superinc in Hde.
          enough (0 < zn (px_strides p) a) by lia.
          apply (superinc_stride_pos (px_nb p) _ (rel (px_loc p) c) (rev axes0)); [|exact Hde|now apply -> in_rev].
          intros x Hx. apply Hd. now apply in_rev. }
        pose proof (asum_bounds _ _ _ _ Hd Hsp) as B.
        rewrite (dense_maxoff _ _ _ 1 Hde), (aprod_perm _ _ _ Hp), aprod_seq in B. lia. }
      destruct (Hk (Z.to_nat i) ltac:(lia)) as (H & _ & _).
      rewrite Z2Nat.id in H by lia. unfold px_get_ccoord in H. rewrite Hax in H. rewrite Ec in H. injection H as ->.
      apply nth_In. lia.
  - intros k Hk1. apply Hk. lia.
  - unfold px_enumerate, px_iterate. rewrite Hcont. unfold get_size. rewrite fold_left_mul, Z.mul_1_l.
    fold N. rewrite E. cbn [bind].
    assert (Hgen : forall cs' o, (forall k, (k < length cs')%nat -> px_get_index p (nth k cs' []) = Ok (Z.of_nat (o + k))) ->
        mapM (fun c => let! i := px_get_index p c in Ok (i, c)) cs' = Ok (combine (map Z.of_nat (seq o (length cs'))) cs')).
    { induction cs' as [|c r IH]; intros o H; [reflexivity|]. cbn [mapM].
      pose proof (H 0%nat ltac:(simpl; lia)) as H0. cbn [nth] in H0. rewrite H0. cbn [bind].
      rewrite (IH (S o)).
      - cbn [bind length seq map combine]. rewrite Nat.add_0_r. reflexivity.
      - intros k Hk1. specialize (H (S k) ltac:(simpl; lia)). cbn [nth] in H. rewrite H. f_equal. lia. }
    unfold zrange. apply Hgen. intros k Hk1. cbn [Nat.add]. apply Hk. lia.
Qed.

(** ** Column-major conversions agree with the strided ones *)

Lemma get_ccoord_loop_spec n loc i f :
  length loc = length n -> 0 < f -> 0 <= i -> Forall (fun x => 0 < x) n ->
  exists c, get_ccoord_loop n loc i f = Ok c /\ length c = length n /\
    forall k, (k < length n)%nat ->
      zn c k = (i / (f * zprod (firstn k n))) mod zn n k + zn loc k.
Proof.
  revert loc f; induction n as [|x n IH]; intros [|l loc] f Hl Hf Hi Hpos; simpl in Hl; try lia.
  - exists []; simpl; repeat split; lia.
  - inversion Hpos as [|? ? Hx Hn]; subst. cbn [get_ccoord_loop].
    destruct (Z.eqb_spec f 0); [lia|]. destruct (Z.eqb_spec x 0); [lia|]. cbn [orb].
    destruct (IH loc (f * x)) as (c & E & L & H); try assumption; try lia; try nia.
    rewrite E. cbn [bind]. eexists; split; [reflexivity|]. split; [simpl; congruence|].
    intros [|k] Hk.
    + cbn [firstn zprod fold_right zn nth]. rewrite Z.mul_1_r.
      unfold zn; cbn [nth]. rewrite Z.quot_div_nonneg by lia. rewrite Z.rem_mod_nonneg; [reflexivity| |lia].
      apply Z.div_pos; lia.
    + cbn [length] in Hk. rewrite !zn_cons_S, H by lia. cbn [firstn]. 
      change (zprod (x :: firstn k n)) with (x * zprod (firstn k n)). now rewrite Z.mul_assoc.
Qed.

Lemma get_index_loop_spec n loc c acc f :
  length loc = length n -> in_box n loc c ->
  0 <= acc -> 0 < f -> f * zprod n < 2 ^ 31 -> acc < f ->
  get_index_loop n loc c acc f = acc + f * asum (col_major_strides n) (rel loc c) (seq 0 (length n)).
Proof.
  revert loc c acc f; induction n as [|x n IH]; intros [|l loc] [|y c] acc f Hl [Hc Hb] Ha Hf Hv Haf; simpl in Hl, Hc; try lia.
  - simpl. unfold asum; simpl. lia.
  - pose proof (Hb 0%nat ltac:(simpl; lia)) as H0. unfold zn in H0; cbn [nth] in H0.
    assert (Hb' : in_box n loc c).
    { split; [lia|]. intros i Hi. apply (Hb (S i)). simpl; lia. }
    assert (Hpn : 0 < zprod n).
    { apply zprod_pos, Forall_forall. intros z Hz. apply (In_nth _ _ 0) in Hz. destruct Hz as (k & Hk & <-).
      destruct Hb' as [_ Hb']. specialize (Hb' k Hk). unfold zn in Hb'. lia. }
    change (zprod (x :: n)) with (x * zprod n) in Hv.
    cbn [get_index_loop].
    assert (Hacc : acc + (y - l) * f < f * x) by nia.
    rewrite (wrap32_id (acc + (y - l) * f)) by nia.
    assert (Erest : asum (col_major_strides (x :: n)) (rel (l :: loc) (y :: c)) (seq 0 (length (x :: n))) =
                    (y - l) + x * asum (col_major_strides n) (rel loc c) (seq 0 (length n))).
    { cbn [length seq]. rewrite asum_cons. f_equal.
      - rewrite zn_rel by (simpl; lia). rewrite zn_col_major by (simpl; lia). unfold zn; cbn [nth firstn zprod fold_right]. lia.
      - unfold asum. rewrite <- seq_shift, map_map.
        rewrite <- (Z.add_0_r (x * _)).
        assert (G : forall l0, (forall a, In a l0 -> (a < length n)%nat) ->
           zsum (map (fun a => zn (col_major_strides (x :: n)) (S a) * zn (rel (l :: loc) (y :: c)) (S a)) l0) =
           x * zsum (map (fun a => zn (col_major_strides n) a * zn (rel loc c) a) l0) + 0).
        { induction l0 as [|a l0 IHl]; intros Hl0; [simpl; lia|]. cbn [map zsum fold_right].
          unfold zsum in IHl. rewrite IHl by (intros z Hz; apply Hl0; now right).
          pose proof (Hl0 a (or_introl eq_refl)).
          rewrite !zn_col_major by (simpl; lia). rewrite !zn_rel by (simpl; lia). rewrite !zn_cons_S.
          cbn [firstn]. change (zprod (x :: firstn a n)) with (x * zprod (firstn a n)). ring. }
        apply G. intros a Ha'. apply in_seq in Ha'. lia. }
    rewrite Erest. destruct n as [|x2 n'] eqn:En.
    + destruct loc; [|simpl in Hl; lia]. destruct c; [|simpl in Hc; lia]. cbn [get_index_loop].
      unfold asum; simpl. lia.
    + rewrite <- En in *. rewrite (wrap32_id (f * x)) by nia.
      rewrite IH; try assumption; try nia.
Qed.

(** ** Buffer size *)

Lemma get_buffer_size_ge n s v :
  length s = length n -> get_buffer_size n s = Ok v ->
  0 <= v /\ forall a, (a < length n)%nat -> zn n a * zn s a <= v.
Proof.
  intros Hs. unfold get_buffer_size. rewrite Hs, Nat.eqb_refl. cbn [negb]. intros H; injection H as <-.
  assert (G : forall l acc, acc <= fold_left (fun a (p : Z * Z) => Z.max a (fst p * snd p)) l acc /\
     forall p, In p l -> fst p * snd p <= fold_left (fun a (p : Z * Z) => Z.max a (fst p * snd p)) l acc).
  { induction l as [|p l IH]; intros acc; cbn [fold_left].
    - split; [lia|easy].
    - destruct (IH (Z.max acc (fst p * snd p))) as [H1 H2]. split; [lia|].
      intros q [<-|Hq]; [lia|now apply H2]. }
  destruct (G (combine n s) 0) as [G1 G2]. split; [exact G1|].
  intros a Ha. specialize (G2 (zn n a, zn s a)). cbn [fst snd] in G2. apply G2.
  unfold zn. rewrite <- combine_nth by congruence. apply nth_In. rewrite combine_length. lia.
Qed.

Lemma buffer_size_covers n s axes v :
  length s = length n -> Permutation axes (seq 0 (length n)) -> superinc n s (rev axes) ->
  Forall (fun x => 0 < x) n -> n <> [] ->
  get_buffer_size n s = Ok v ->
  forall loc c i, length loc = length n -> in_box n loc c ->
    get_index_from_strides s loc c = Ok i -> 0 <= i < v.
Proof.
  intros Hs Hp Hsi Hpos Hne Hv loc c i Hl [Hc Hb] Hi.
  destruct (get_buffer_size_ge n s v Hs Hv) as [_ Hge].
  rewrite (px_index_asum s loc c axes) in Hi by congruence. injection Hi as <-.
  assert (Hd : digits_ok n (rel loc c) (rev axes)).
  { intros a Ha. apply in_rev, (perm_seq_In _ _ Hp) in Ha. rewrite zn_rel by lia. specialize (Hb a Ha). lia. }
  assert (Hsp : forall a, In a (rev axes) -> 0 < zn s a) by (now apply (superinc_stride_pos n s (rel loc c))).
  rewrite (asum_perm s (rel loc c) axes (rev axes) (Permutation_rev axes)).
  pose proof (asum_bounds n s (rel loc c) (rev axes) Hd ltac:(intros a Ha; specialize (Hsp a Ha); lia)) as B.
  split; [lia|]. enough (maxoff n s (rev axes) < v) by lia.
  destruct (rev axes) as [|a r] eqn:Er.
  - exfalso. apply Hne. apply length_zero_iff_nil. apply Permutation_length in Hp. rewrite seq_length in Hp.
    apply (f_equal (@length nat)) in Er. rewrite rev_length in Er. simpl in Er. lia.
  - destruct Hsi as [Hsa _]. unfold maxoff in *. cbn [map zsum fold_right]. fold (zsum (map (fun a0 => zn s a0 * (zn n a0 - 1)) r)).
    assert (Ha : (a < length n)%nat).
    { apply (perm_seq_In _ _ Hp). apply in_rev. rewrite Er. now left. }
    specialize (Hge a Ha). nia.
Qed.
