(** Strides: dense strides in increasing or decreasing order, smallest and
    largest strides. *)
From Verif Require Import Base CIntModel GridModel GridSpec GridProofs GridProofs2 GridProofs3
  LayoutModel LayoutProofs LayoutProofs2 NumpyModel NumpySpec.
From Coq Require Import Sorting.Sorted.

(** ** Dense strides along an order of the axes *)

Lemma aprod_pos n l : (forall x, In x l -> 0 < zn n x) -> 0 < aprod n l.
Proof. intros H. apply zprod_pos, Forall_map, Forall_forall. exact H. Qed.

Lemma aprod_app n l1 l2 : aprod n (l1 ++ l2) = aprod n l1 * aprod n l2.
Proof. unfold aprod. now rewrite map_app, zprod_app. Qed.

Lemma aprod_filter n l : (forall x, In x l -> 0 < zn n x) ->
  aprod n l = aprod n (filter (fun j => 1 <? zn n j) l).
Proof.
  induction l as [|x l IH]; intros H; [reflexivity|]. cbn [filter].
  rewrite aprod_cons, IH by (intros y Hy; apply H; now right).
  specialize (H x (or_introl eq_refl)). destruct (Z.ltb_spec 1 (zn n x)); [now rewrite aprod_cons|].
  replace (zn n x) with 1 by lia. lia.
Qed.

Lemma dense_before n s l1 i l2 j : (forall x, In x (l1 ++ i :: l2) -> 0 < zn n x) ->
  dense n s (l1 ++ i :: l2) 1 -> In j l1 -> zn n j * zn s j <= zn s i /\ 0 < zn s j.
Proof.
  intros Hp Hd Hj. apply in_split in Hj. destruct Hj as (a & b & ->).
  rewrite <- app_assoc in Hd. cbn [app] in Hd.
  apply dense_app in Hd. destruct Hd as [Ha Hd]. cbn [dense] in Hd. destruct Hd as [Ej Hd].
  apply dense_app in Hd. destruct Hd as [_ Hd]. cbn [dense] in Hd. destruct Hd as [Ei _].
  assert (0 < aprod n a) by (apply aprod_pos; intros x Hx; apply Hp, in_or_app; left; apply in_or_app; now left).
  assert (0 < aprod n b).
  { apply aprod_pos; intros x Hx; apply Hp, in_or_app; left; apply in_or_app; right; now right. }
  assert (0 < zn n j) by (apply Hp, in_or_app; left; apply in_or_app; right; now left).
  rewrite Ei, Ej. split; [|lia].
  assert (E : 1 * aprod n a * zn n j * aprod n b - zn n j * (1 * aprod n a) = (aprod n a * zn n j) * (aprod n b - 1)) by ring.
  assert (0 <= (aprod n a * zn n j) * (aprod n b - 1)) by (apply Z.mul_nonneg_nonneg; [apply Z.mul_nonneg_nonneg|]; lia). lia.
Qed.

Lemma dense_at n s l1 i l2 : dense n s (l1 ++ i :: l2) 1 -> zn s i = aprod n l1.
Proof. intros H. apply dense_app in H. destruct H as [_ [H _]]. lia. Qed.

(** An axis of extent at least 2 in dense strides: its stride is the product of
    the extents of the axes that are faster. *)
Lemma dense_stride n s axes i B :
  Permutation axes (seq 0 (length n)) -> Forall (fun x => 0 < x) n -> dense n s axes 1 ->
  (i < length n)%nat -> 1 < zn n i -> NoDup B -> ~ In i B -> (forall j, In j B -> (j < length n)%nat) ->
  (forall j, (j < length n)%nat -> j <> i -> 1 < zn n j -> (In j B <-> zn s j < zn s i)) ->
  zn s i = aprod n B.
Proof.
  intros Hp Hpos Hd Hi Hni HB HiB HBl HBs.
  assert (Hz : forall x, In x axes -> 0 < zn n x) by now apply Forall_pos_zn.
  assert (Hin : In i axes) by now apply (perm_seq_In _ _ Hp).
  pose proof (perm_seq_NoDup _ _ Hp) as Hnd.
  apply in_split in Hin. destruct Hin as (l1 & l2 & ->).
  rewrite (dense_at _ _ _ _ _ Hd).
  rewrite (aprod_filter n l1), (aprod_filter n B).
  2:{ intros x Hx. apply Hz, (perm_seq_In _ _ Hp). auto. }
  2:{ intros x Hx. apply Hz, in_or_app. now left. }
  apply aprod_perm, NoDup_Permutation.
  - apply NoDup_filter. clear -Hnd. induction l1 as [|x l IH]; [constructor|]. inversion Hnd as [|? ? H1 H2]; subst. constructor; [|now apply IH]. intros H. apply H1, in_or_app. now left.
  - now apply NoDup_filter.
  - intros j. rewrite !filter_In. split; intros [Hj Hj1]; (split; [|exact Hj1]); apply Z.ltb_lt in Hj1.
    + assert (Hji : j <> i) by (intros ->; apply NoDup_remove_2 in Hnd; apply Hnd, in_or_app; now left).
      assert (Hjl : (j < length n)%nat) by (apply (perm_seq_In _ _ Hp), in_or_app; now left).
      apply HBs; try assumption. destruct (dense_before _ _ _ _ _ _ Hz Hd Hj) as [H1 H2].
      assert (0 < (zn n j - 1) * zn s j) by (apply Z.mul_pos_pos; lia). lia.
    + pose proof (HBl j Hj) as Hjl. assert (Hji : j <> i) by (intros ->; contradiction).
      assert (Hlt : zn s j < zn s i) by now apply HBs.
      assert (Hja : In j (l1 ++ i :: l2)) by now apply (perm_seq_In _ _ Hp).
      apply in_app_or in Hja. destruct Hja as [Hja|[Hja|Hja]]; [assumption|congruence|exfalso].
      apply in_split in Hja. destruct Hja as (m1 & m2 & ->).
      assert (E : l1 ++ i :: m1 ++ j :: m2 = (l1 ++ i :: m1) ++ j :: m2) by (now rewrite <- app_assoc).
      rewrite E in Hd, Hz. destruct (dense_before n s (l1 ++ i :: m1) j m2 i Hz Hd) as [H1 H2].
      { apply in_or_app; right; now left. }
      assert (0 < (zn n i - 1) * zn s i) by (apply Z.mul_pos_pos; lia). lia.
Qed.

(** Two axes of extent at least 2 never have the same stride. *)
Lemma dense_distinct n s axes i j :
  Permutation axes (seq 0 (length n)) -> Forall (fun x => 0 < x) n -> dense n s axes 1 ->
  (i < length n)%nat -> (j < length n)%nat -> i <> j -> 1 < zn n i -> 1 < zn n j -> zn s i <> zn s j.
Proof.
  intros Hp Hpos Hd Hi Hj Hij Hni Hnj.
  assert (Hz : forall x, In x axes -> 0 < zn n x) by now apply Forall_pos_zn.
  assert (Hin : In i axes) by now apply (perm_seq_In _ _ Hp).
  assert (Hjn : In j axes) by now apply (perm_seq_In _ _ Hp).
  apply in_split in Hin. destruct Hin as (l1 & l2 & ->).
  apply in_app_or in Hjn. destruct Hjn as [Hja|[Hja|Hja]]; [|congruence|].
  - destruct (dense_before _ _ _ _ _ _ Hz Hd Hja) as [H1 H2].
    assert (0 < (zn n j - 1) * zn s j) by (apply Z.mul_pos_pos; lia). lia.
  - apply in_split in Hja. destruct Hja as (m1 & m2 & ->).
    assert (E : l1 ++ i :: m1 ++ j :: m2 = (l1 ++ i :: m1) ++ j :: m2) by (now rewrite <- app_assoc).
    rewrite E in Hd, Hz. destruct (dense_before n s (l1 ++ i :: m1) j m2 i Hz Hd) as [H1 H2].
    { apply in_or_app; right; now left. }
    assert (0 < (zn n i - 1) * zn s i) by (apply Z.mul_pos_pos; lia). lia.
Qed.

Lemma adj_le (s : list Z) d : (forall i, (S i < d)%nat -> zn s i <= zn s (S i)) ->
  forall i j, (i <= j < d)%nat -> zn s i <= zn s j.
Proof.
  intros H i j [Hij Hj]. induction j as [|j IH]; [replace i with 0%nat by lia; lia|].
  destruct (Nat.eq_dec i (S j)) as [->|]; [lia|]. specialize (IH ltac:(lia) ltac:(lia)). specialize (H j Hj). lia.
Qed.
Lemma adj_ge (s : list Z) d : (forall i, (S i < d)%nat -> zn s (S i) <= zn s i) ->
  forall i j, (i <= j < d)%nat -> zn s j <= zn s i.
Proof.
  intros H i j [Hij Hj]. induction j as [|j IH]; [replace i with 0%nat by lia; lia|].
  destruct (Nat.eq_dec i (S j)) as [->|]; [lia|]. specialize (IH ltac:(lia) ltac:(lia)). specialize (H j Hj). lia.
Qed.

Lemma off_same s t n c : length s = length n -> length t = length n -> in_shape n c ->
  (forall i, (i < length n)%nat -> 1 < zn n i -> zn s i = zn t i) -> off s c = off t c.
Proof.
  intros Hs Ht [Hc Hb] H. unfold off. rewrite Hs, Ht. apply zsum_map_ext. intros i Hi. apply in_seq in Hi.
  specialize (Hb i ltac:(lia)). destruct (Z_lt_le_dec 1 (zn n i)) as [H1|H1].
  - rewrite H by lia. reflexivity.
  - assert (zn c i = 0) as -> by lia. lia.
Qed.

Lemma map_zn_firstn n i : (i <= length n)%nat -> map (zn n) (seq 0 i) = firstn i n.
Proof.
  revert n. induction i as [|i IH]; intros n H; [reflexivity|]. destruct n as [|x n]; [cbn in H; lia|].
  cbn [seq map firstn]. f_equal. rewrite <- seq_shift, map_map. rewrite <- (IH n) by (cbn in H; lia).
  apply map_ext. intros a. apply zn_cons_S.
Qed.

Lemma map_zn_skipn n i : (i <= length n)%nat -> map (zn n) (seq i (length n - i)) = skipn i n.
Proof.
  revert n. induction i as [|i IH]; intros n H.
  - rewrite Nat.sub_0_r. cbn [skipn]. rewrite map_zn_firstn by lia. apply firstn_all.
  - destruct n as [|x n]; [cbn in H; lia|]. cbn [length] in *. cbn [skipn Nat.sub].
    rewrite <- (IH n) by lia. rewrite <- seq_shift, map_map. apply map_ext. intros a. apply zn_cons_S.
Qed.

Lemma dense_col n s axes c :
  Permutation axes (seq 0 (length n)) -> Forall (fun x => 0 < x) n -> length s = length n -> dense n s axes 1 ->
  (forall i, (S i < length n)%nat -> zn s i <= zn s (S i)) -> in_shape n c ->
  off s c = off (running 1 n) c.
Proof.
  intros Hp Hpos Hs Hd Hmono Hc. rewrite <- col_major_running.
  apply (off_same _ _ n); [assumption|apply col_major_strides_length|assumption|].
  intros i Hi Hni. rewrite zn_col_major by assumption.
  rewrite (dense_stride n s axes i (seq 0 i)); try assumption.
  - unfold aprod. rewrite map_zn_firstn by lia. reflexivity.
  - apply seq_NoDup.
  - rewrite in_seq. lia.
  - intros j Hj. apply in_seq in Hj. lia.
  - intros j Hj Hji Hnj. rewrite in_seq.
    pose proof (dense_distinct n s axes i j Hp Hpos Hd Hi Hj ltac:(lia) Hni Hnj) as Hne.
    split; intros H.
    + pose proof (adj_le s _ Hmono j i ltac:(lia)). lia.
    + destruct (Nat.lt_ge_cases j i); [lia|]. pose proof (adj_le s _ Hmono i j ltac:(lia)). lia.
Qed.

Lemma dense_row n s axes c :
  Permutation axes (seq 0 (length n)) -> Forall (fun x => 0 < x) n -> length s = length n -> dense n s axes 1 ->
  (forall i, (S i < length n)%nat -> zn s (S i) <= zn s i) -> in_shape n c ->
  off s c = off (rev (running 1 (rev n))) c.
Proof.
  intros Hp Hpos Hs Hd Hmono Hc. rewrite <- row_major_running.
  apply (off_same _ _ n); [assumption|apply row_major_strides_length|assumption|].
  intros i Hi Hni. rewrite zn_row_major by assumption.
  rewrite (dense_stride n s axes i (seq (S i) (length n - S i))); try assumption.
  - unfold aprod. rewrite map_zn_skipn by lia. reflexivity.
  - apply seq_NoDup.
  - rewrite in_seq. lia.
  - intros j Hj. apply in_seq in Hj. lia.
  - intros j Hj Hji Hnj. rewrite in_seq.
    pose proof (dense_distinct n s axes i j Hp Hpos Hd Hi Hj ltac:(lia) Hni Hnj) as Hne.
    split; intros H.
    + pose proof (adj_ge s _ Hmono i j ltac:(lia)). lia.
    + destruct (Nat.lt_ge_cases i j); [lia|]. pose proof (adj_ge s _ Hmono j i ltac:(lia)). lia.
Qed.

(** The slowest axis of dense strides: extent times stride is the volume. *)
Lemma dense_top n s axes : n <> [] -> Permutation axes (seq 0 (length n)) -> Forall (fun x => 0 < x) n ->
  dense n s axes 1 ->
  exists b, (b < length n)%nat /\ zn n b * zn s b = zprod n /\
    (forall i, (i < length n)%nat -> zn s i <= zn s b) /\ forall i, (i < length n)%nat -> zn n i * zn s i <= zprod n.
Proof.
  intros Hne Hp Hpos Hd.
  assert (Hax : axes <> []).
  { intros ->. apply Permutation_nil in Hp. destruct n; [now apply Hne|discriminate]. }
  assert (Hz : forall x, In x axes -> 0 < zn n x) by now apply Forall_pos_zn.
  destruct (exists_last Hax) as (l & b & ->). exists b.
  assert (Eb : zn n b * zn s b = zprod n).
  { rewrite (dense_at _ _ _ _ _ Hd). rewrite <- aprod_seq, <- (aprod_perm n _ _ Hp), aprod_app.
    unfold aprod at 3. cbn. ring. }
  assert (Hall : forall i, (i < length n)%nat -> zn s i <= zn s b /\ (i = b \/ zn n i * zn s i <= zn s b) /\ 0 < zn s b).
  { assert (Hb0 : 0 < zn s b).
    { rewrite (dense_at _ _ _ _ _ Hd). apply aprod_pos. intros x Hx. apply Hz, in_or_app. now left. }
    intros i Hi. apply (perm_seq_In _ _ Hp) in Hi. apply in_app_or in Hi. destruct Hi as [Hi|[<-|[]]]; [|split; [lia|split; [now left|exact Hb0]]].
    destruct (dense_before _ _ _ _ _ _ Hz Hd Hi) as [H1 H2].
    assert (0 < zn n i) by (apply Hz, in_or_app; now left).
    assert (0 <= (zn n i - 1) * zn s i) by (apply Z.mul_nonneg_nonneg; lia). split; [lia|split; [right; lia|exact Hb0]]. }
  split; [|split; [|split]].
  - apply (perm_seq_In _ _ Hp), in_or_app; right; now left.
  - exact Eb.
  - intros i Hi. now apply Hall.
  - intros i Hi. destruct (Hall i Hi) as (H1 & [->|H2] & H3); [lia|].
    assert (Hb1 : 0 < zn n b) by (apply Hz, in_or_app; right; now left).
    assert (0 <= (zn n b - 1) * zn s b) by (apply Z.mul_nonneg_nonneg; lia). lia.
Qed.

(** ** Smallest and largest element *)

Lemma min_elt_spec x l : (exists i, (i < length (x :: l))%nat /\ zn (x :: l) i = min_elt x l) /\
  forall i, (i < length (x :: l))%nat -> min_elt x l <= zn (x :: l) i.
Proof.
  unfold min_elt. revert x. induction l as [|y l IH]; intros x; cbn [fold_left].
  - split; [exists 0%nat; cbn; split; [lia|reflexivity]|]. intros [|i] Hi; cbn in *; [lia|lia].
  - destruct (IH (Z.min x y)) as [(i & Hi & Ei) Hall]. split.
    + destruct i as [|i].
      * cbn in Ei. rewrite <- Ei. destruct (Z.min_spec x y) as [[_ E]|[_ E]]; rewrite E.
        -- exists 0%nat. split; [cbn; lia|reflexivity].
        -- exists 1%nat. split; [cbn; lia|reflexivity].
      * exists (S (S i)). split; [cbn in *; lia|]. rewrite <- Ei. reflexivity.
    + clear i Hi Ei. intros [|[|i]] Hi.
      * specialize (Hall 0%nat ltac:(cbn; lia)). cbn in Hall |- *. lia.
      * specialize (Hall 0%nat ltac:(cbn; lia)). cbn in Hall |- *. lia.
      * specialize (Hall (S i) ltac:(cbn in *; lia)). exact Hall.
Qed.

Lemma last_max_spec x l :
  (snd (last_max x l) < length (x :: l))%nat /\ zn (x :: l) (snd (last_max x l)) = fst (last_max x l) /\
  forall i, (i < length (x :: l))%nat -> zn (x :: l) i <= fst (last_max x l) /\
    (zn (x :: l) i = fst (last_max x l) -> (i <= snd (last_max x l))%nat).
Proof.
  unfold last_max.
  set (f := fun (st : nat * (Z * nat)) y => let '(i, (bv, bi)) := st in (S i, if bv <=? y then (y, i) else (bv, bi))).
  assert (G : forall r done bv bi,
     (bi < length done)%nat -> zn done bi = bv ->
     (forall i, (i < length done)%nat -> zn done i <= bv /\ (zn done i = bv -> (i <= bi)%nat)) ->
     let res := snd (fold_left f r (length done, (bv, bi))) in
     (snd res < length (done ++ r))%nat /\ zn (done ++ r) (snd res) = fst res /\
     forall i, (i < length (done ++ r))%nat -> zn (done ++ r) i <= fst res /\
       (zn (done ++ r) i = fst res -> (i <= snd res)%nat)).
  { induction r as [|y r IH]; intros done bv bi H1 H2 H3; cbn [fold_left].
    - rewrite app_nil_r. cbn. auto.
    - assert (E : done ++ y :: r = (done ++ [y]) ++ r) by (now rewrite <- app_assoc).
      assert (Ef : f (length done, (bv, bi)) y = (length (done ++ [y]), if bv <=? y then (y, length done) else (bv, bi))).
      { unfold f. rewrite app_length, Nat.add_1_r. reflexivity. }
      assert (Zl : forall i, (i < length done)%nat -> zn (done ++ [y]) i = zn done i) by (intros i Hi; unfold zn; now rewrite app_nth1).
      assert (Zr : zn (done ++ [y]) (length done) = y) by (unfold zn; rewrite app_nth2, Nat.sub_diag; [reflexivity|lia]).
      rewrite E, Ef. destruct (Z.leb_spec bv y) as [Hby|Hby]; apply IH; rewrite ?app_length, ?Nat.add_1_r.
      + lia.
      + exact Zr.
      + intros i Hi. destruct (Nat.eq_dec i (length done)) as [->|Hni]; [rewrite Zr; lia|].
        rewrite Zl by lia. specialize (H3 i ltac:(lia)). lia.
      + lia.
      + now rewrite Zl.
      + intros i Hi. destruct (Nat.eq_dec i (length done)) as [->|Hni]; [rewrite Zr; lia|].
        rewrite Zl by lia. apply H3. lia. }
  apply (G l [x] x 0%nat); [cbn; lia|reflexivity|]. intros [|i] Hi; cbn in *; lia.
Qed.

Lemma zn_map_quot d l i : zn (map (fun s => Z.quot s d) l) i = Z.quot (zn l i) d.
Proof. unfold zn. rewrite <- (map_nth (fun s => Z.quot s d)). now f_equal. Qed.

Lemma any_decrease_false l : any_decrease l = false -> forall i, (S i < length l)%nat -> zn l i <= zn l (S i).
Proof.
  induction l as [|x [|y r] IH]; intros H i Hi; [cbn in Hi; lia|cbn in Hi; lia|].
  cbn [any_decrease] in H. apply orb_false_iff in H. destruct H as [H1 H2]. apply Z.ltb_ge in H1.
  destruct i as [|i]; [exact H1|]. apply (IH H2 i). cbn [length] in *; lia.
Qed.
Lemma any_increase_false l : any_increase l = false -> forall i, (S i < length l)%nat -> zn l (S i) <= zn l i.
Proof.
  induction l as [|x [|y r] IH]; intros H i Hi; [cbn in Hi; lia|cbn in Hi; lia|].
  cbn [any_increase] in H. apply orb_false_iff in H. destruct H as [H1 H2]. apply Z.ltb_ge in H1.
  destruct i as [|i]; [exact H1|]. apply (IH H2 i). cbn [length] in *; lia.
Qed.
