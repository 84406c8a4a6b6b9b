(** Lemmas about field maps, pushing values, reshaping with storage. *)
From Verif Require Import Base CIntModel GridModel GridSpec GridProofs GridProofs2 GridProofs3 StridedModel StridedProofs.
From Verif Require Import LayoutModel LayoutSpec LayoutProofs LayoutProofs2 FieldModel FieldSpec FieldProofs.

Section Maps.
Context {A : Type}.
Implicit Types f g : field A.

(** ** Blocks of a list *)
Definition block (v : list A) (st i : nat) : list A := firstn st (skipn (i * st) v).

Lemma skipn_skipn' (v : list A) a b : skipn a (skipn b v) = skipn (b + a) v.
Proof. revert v; induction b as [|b IH]; intros v; [reflexivity|]. destruct v; [now rewrite !skipn_nil|]. apply IH. Qed.

Lemma blocks_concat (v : list A) st n : (n * st <= length v)%nat ->
  concat (map (block v st) (seq 0 n)) = firstn (n * st) v.
Proof.
  revert v; induction n as [|n IH]; intros v H; [reflexivity|]. cbn [seq map concat]. unfold block at 1. rewrite Nat.mul_0_l. cbn [skipn].
  rewrite <- seq_shift, map_map. rewrite (map_ext _ (block (skipn st v) st)).
  - rewrite IH by (rewrite skipn_length; cbn in H; lia). rewrite <- (firstn_skipn st v) at 3.
    cbn [Nat.mul]. rewrite firstn_app. cbn [Nat.mul] in H.
    rewrite firstn_length_le by lia. rewrite (firstn_all2 (firstn st v)) by (rewrite firstn_length_le; lia).
    f_equal. f_equal. lia.
  - intros i. unfold block. rewrite skipn_skipn'. reflexivity.
Qed.

Lemma block_length (v : list A) st n i : (n * st <= length v)%nat -> (i < n)%nat -> length (block v st i) = st.
Proof. intros H Hi. unfold block. rewrite firstn_length, skipn_length. assert (S i * st <= n * st)%nat by (apply Nat.mul_le_mono_r; lia). cbn [Nat.mul] in *. lia. Qed.

Lemma nth_firstn' (v : list A) n k d : (k < n)%nat -> nth k (firstn n v) d = nth k v d.
Proof. revert v k; induction n as [|n IH]; intros v k H; [lia|]. destruct v, k; cbn; try reflexivity. apply IH; lia. Qed.
Lemma nth_skipn' (v : list A) n k d : nth k (skipn n v) d = nth (n + k) v d.
Proof. revert v; induction n as [|n IH]; intros v; [reflexivity|]. destruct v; [now destruct k|]. apply IH. Qed.
Lemma block_nth (v : list A) st i k d : (k < st)%nat -> nth k (block v st i) d = nth (i * st + k) v d.
Proof. intros H. unfold block. rewrite nth_firstn' by assumption. apply nth_skipn'. Qed.

Lemma mapM_ok {B C} (g : B -> res C) (h : B -> C) l : (forall x, In x l -> g x = Ok (h x)) -> mapM g l = Ok (map h l).
Proof.
  induction l as [|x r IH]; intros H; [reflexivity|]. cbn [mapM map]. rewrite H by (now left). cbn [bind].
  rewrite IH by (intros; apply H; now right). reflexivity.
Qed.

(** ** Construction *)
Lemma new_map_shape f u rows m : new_map f u rows = Ok m ->
  l_order (f_lay f) = ColMajor /\ m_unit m = u /\ m_rows m * m_cols m = m_stride m /\
  m_stride m = l_nbc (f_lay f) * (match u with Pixel => l_nsub (f_lay f) | SubPt => 1 end) /\
  m_init m = f_init f /\ m_ptr m = (if f_init f then f_ptr f else None).
Proof.
  unfold new_map, map_rows, get_stride.
  assert (O : forall (X : res fmap), (if negb (storder_eqb (l_order (f_lay f)) ColMajor) then Err RuntimeError else X) = Ok m -> l_order (f_lay f) = ColMajor /\ X = Ok m).
  { intros X. destruct (storder_eqb _ _) eqn:E; [apply storder_eqb_eq in E; cbn; auto|discriminate]. }
  destruct u; [destruct (has_nsub f); [|discriminate]|]; cbn [bind].
  - destruct rows as [r|]; [destruct (Z.eqb_spec r 0); [discriminate|]|]; cbn [bind]; intros H; apply O in H; destruct H as [H1 H].
    + destruct (Z.eqb_spec (r * Z.quot (l_nbc (f_lay f) * l_nsub (f_lay f)) r) (l_nbc (f_lay f) * l_nsub (f_lay f))); [|discriminate].
      apply Ok_inj in H. subst m. cbn. auto 10.
    + apply Ok_inj in H. subst m. cbn. auto 10.
  - destruct rows as [r|]; [destruct (Z.eqb_spec r 0); [discriminate|]|]; cbn [bind]; intros H; apply O in H; destruct H as [H1 H].
    + destruct (Z.eqb_spec (r * Z.quot (l_nbc (f_lay f)) r) (l_nbc (f_lay f))); [|discriminate].
      apply Ok_inj in H. subst m. cbn. rewrite Z.mul_1_r. auto 10.
    + apply Ok_inj in H. subst m. cbn. rewrite Z.mul_1_r. auto 10.
Qed.

Lemma quot_divide s r : r <> 0 -> (r * Z.quot s r = s <-> (r | s)).
Proof.
  intros H. split.
  - intros E. exists (Z.quot s r). lia.
  - intros [k ->]. rewrite Z.quot_mul by assumption. ring.
Qed.

Lemma new_map_rows_iff f u r : l_order (f_lay f) = ColMajor -> (u = Pixel -> has_nsub f = true) -> r <> 0 ->
  ((r | scalars_per_entry f u) -> exists m, new_map f u (Some r) = Ok m /\ m_rows m = r /\ r * m_cols m = scalars_per_entry f u) /\
  (~ (r | scalars_per_entry f u) -> new_map f u (Some r) = Err FieldMapError).
Proof.
  intros O K Hr. unfold new_map, map_rows, get_stride, scalars_per_entry. rewrite O. cbn [storder_eqb negb].
  destruct u; [rewrite K by reflexivity|]; cbn [bind]; destruct (Z.eqb_spec r 0); try contradiction; cbn [bind].
  - destruct (Z.eqb_spec (r * Z.quot (l_nbc (f_lay f) * l_nsub (f_lay f)) r) (l_nbc (f_lay f) * l_nsub (f_lay f))) as [E|E]; cbn [negb].
    + split; [intros _; eexists; split; [reflexivity|]; cbn; auto|]. intros N. exfalso. apply N. now apply quot_divide.
    + split; [intros D; exfalso; apply E; now apply quot_divide|reflexivity].
  - destruct (Z.eqb_spec (r * Z.quot (l_nbc (f_lay f)) r) (l_nbc (f_lay f))) as [E|E]; cbn [negb].
    + split; [intros _; eexists; split; [reflexivity|]; cbn; auto|]. intros N. exfalso. apply N. now apply quot_divide.
    + split; [intros D; exfalso; apply E; now apply quot_divide|reflexivity].
Qed.

Lemma new_map_default f u : l_order (f_lay f) = ColMajor -> (u = Pixel -> has_nsub f = true) ->
  exists m, new_map f u None = Ok m /\ m_rows m = l_nbc (f_lay f) /\
            m_cols m = match u with Pixel => l_nsub (f_lay f) | SubPt => 1 end.
Proof.
  intros O K. unfold new_map, map_rows, get_stride. rewrite O. destruct u; [rewrite K by reflexivity|]; cbn; eexists; split; try reflexivity; cbn; auto.
Qed.

Lemma new_map_row_major f u rows : l_order (f_lay f) = RowMajor -> (u = Pixel -> has_nsub f = true) -> rows <> Some 0 ->
  new_map f u rows = Err RuntimeError.
Proof.
  intros O K R. unfold new_map, map_rows, get_stride. rewrite O.
  destruct u; [rewrite K by reflexivity|]; cbn [bind]; (destruct rows as [r|]; [destruct (Z.eqb_spec r 0); [congruence|]|]); reflexivity.
Qed.

(** A map created before the collection is initialised becomes, by the
    initialisation callback, the map one would create afterwards. *)
Lemma early_map f0 f u rows m0 : f_init f0 = false -> f_init f = true ->
  l_nbc (f_lay f) = l_nbc (f_lay f0) -> l_order (f_lay f) = l_order (f_lay f0) ->
  (u = Pixel -> l_nsub (f_lay f) = l_nsub (f_lay f0)) -> new_map f0 u rows = Ok m0 ->
  m_init m0 = false /\ map_iterate m0 f = Err FieldMapError /\
  exists m, initialise_map m0 f = Ok m /\ new_map f u rows = Ok m.
Proof.
  intros I0 I E1 E2 E3 H. destruct (new_map_shape _ _ _ _ H) as (_ & _ & _ & _ & M & _). rewrite I0 in M.
  split; [exact M|]. split; [unfold map_iterate; now rewrite M|].
  unfold initialise_map. rewrite I. cbn [negb]. eexists; split; [reflexivity|].
  unfold new_map, map_rows, get_stride, has_nsub in *. rewrite E1, E2, I, I0 in *.
  destruct u; [rewrite E3 in * by reflexivity; destruct (negb (l_nsub (f_lay f0) =? unknown)); [|discriminate]|]; cbn [bind] in *.
  - destruct rows as [r|]; [destruct (r =? 0); [discriminate|]|]; cbn [bind] in *; destruct (storder_eqb _ _); cbn [negb] in *; try discriminate.
    + destruct (_ =? _); cbn [negb] in *; [|discriminate]. apply Ok_inj in H. subst m0. reflexivity.
    + apply Ok_inj in H. subst m0. reflexivity.
  - destruct rows as [r|]; [destruct (r =? 0); [discriminate|]|]; cbn [bind] in *; destruct (storder_eqb _ _); cbn [negb] in *; try discriminate.
    + destruct (_ =? _); cbn [negb] in *; [|discriminate]. apply Ok_inj in H. subst m0. reflexivity.
    + apply Ok_inj in H. subst m0. reflexivity.
Qed.

(** ** Iteration *)
Lemma map_size_ready f u rows m : ready f -> unpadded f -> new_map f u rows = Ok m -> map_size m f = entries_of f u.
Proof.
  intros R U H. destruct (new_map_shape _ _ _ _ H) as (_ & M & _). unfold map_size, nb_entries. rewrite (nsub_known f R), M.
  unfold entries_of. destruct R as ((_ & _ & Hs & _) & _ & _ & _ & _ & _ & C & _). rewrite C. unfold unpadded in U. rewrite U.
  destruct (Z.eqb_spec (l_nsub (f_lay f) * l_npix (f_lay f)) 0) as [E|E]; [|reflexivity].
  destruct u; [nia|lia].
Qed.

Lemma count_nonneg f u : ready f -> 0 <= entries_of f u.
Proof. intros ((_ & _ & Hs & _) & _ & _ & _ & _ & [H _] & _). unfold entries_of. destruct u; [assumption|]. now apply Z.mul_nonneg_nonneg; [lia|]. Qed.

Lemma count_per f u : ready f -> unpadded f -> entries_of f u * scalars_per_entry f u = buffer_scalars (f_lay f).
Proof. intros R U. unfold entries_of, scalars_per_entry, buffer_scalars, unpadded in *. rewrite U. destruct u; ring. Qed.

Lemma per_pos f u : ready f -> 0 < scalars_per_entry f u.
Proof.
  intros ((Hc & Hp & Hs & _) & _). unfold scalars_per_entry. pose proof (zprod_pos _ Hp). rewrite <- Hc in H.
  destruct u; [now apply Z.mul_pos_pos|assumption].
Qed.

Lemma m_stride_per f u rows m : new_map f u rows = Ok m -> m_stride m = scalars_per_entry f u /\ m_rows m * m_cols m = scalars_per_entry f u.
Proof. intros H. destruct (new_map_shape _ _ _ _ H) as (_ & _ & E & S & _). rewrite E, S. unfold scalars_per_entry. destruct u; split; ring. Qed.

Lemma fits f u : ready f -> unpadded f -> (Z.to_nat (entries_of f u) * Z.to_nat (scalars_per_entry f u) <= length (f_vals f))%nat.
Proof.
  intros R U. pose proof (count_per f u R U) as E. pose proof (count_nonneg f u R). pose proof (per_pos f u R).
  assert (N : len (f_vals f) = buffer_scalars (f_lay f) + f_pad f) by apply R. assert (0 <= f_pad f) by apply R. unfold len in N.
  apply Nat2Z.inj_le. rewrite Nat2Z.inj_mul, !Z2Nat.id by lia. lia.
Qed.

Lemma entry_block f u rows m i : ready f -> unpadded f -> new_map f u rows = Ok m -> 0 <= i < entries_of f u ->
  map_entry m f i = Ok (block (f_vals f) (Z.to_nat (scalars_per_entry f u)) (Z.to_nat i)).
Proof.
  intros R U H Hi. destruct (m_stride_per _ _ _ _ H) as [E1 E2]. destruct (new_map_shape _ _ _ _ H) as (_ & _ & _ & _ & _ & P).
  assert (I : f_init f = true) by apply R. rewrite I in P. unfold map_entry. rewrite E1, E2.
  pose proof (per_pos f u R). pose proof (count_per f u R U).
  assert (N : len (f_vals f) = buffer_scalars (f_lay f) + f_pad f) by apply R. assert (0 <= f_pad f) by apply R.
  rewrite span_ready; [|apply R|exact P|nia|nia]. unfold block. repeat f_equal. rewrite Z2Nat.inj_mul by lia. reflexivity.
Qed.

Lemma iterate_blocks f u rows m : ready f -> unpadded f -> new_map f u rows = Ok m ->
  map_iterate m f = Ok (map (block (f_vals f) (Z.to_nat (scalars_per_entry f u))) (seq 0 (Z.to_nat (entries_of f u)))).
Proof.
  intros R U H. unfold map_iterate. destruct (new_map_shape _ _ _ _ H) as (_ & _ & _ & _ & I & _).
  assert (I' : f_init f = true) by apply R. rewrite I, I'. cbn [negb].
  rewrite (map_size_ready f u rows m R U H). unfold zrange.
  rewrite (mapM_ok _ (fun i => block (f_vals f) (Z.to_nat (scalars_per_entry f u)) (Z.to_nat i))).
  - rewrite map_map. f_equal. apply map_ext. intros k. now rewrite Nat2Z.id.
  - intros x Hx. apply in_map_iff in Hx. destruct Hx as (k & <- & Hk). apply in_seq in Hk.
    apply entry_block with (rows := rows); try assumption. pose proof (count_nonneg f u R). lia.
Qed.

Lemma map_partition f u rows m : ready f -> unpadded f -> new_map f u rows = Ok m ->
  exists es, map_iterate m f = Ok es /\ Z.of_nat (length es) = entries_of f u /\ map_size m f = entries_of f u /\
    Forall (fun e => Z.of_nat (length e) = m_rows m * m_cols m) es /\
    concat es = firstn (Z.to_nat (buffer_scalars (f_lay f))) (f_vals f).
Proof.
  intros R U H. rewrite (iterate_blocks f u rows m R U H). eexists; split; [reflexivity|].
  pose proof (count_nonneg f u R). pose proof (per_pos f u R). pose proof (fits f u R U) as F.
  split; [rewrite map_length, seq_length; lia|]. split; [now apply map_size_ready with (rows := rows)|]. split.
  - apply Forall_forall. intros e He. apply in_map_iff in He. destruct He as (k & <- & Hk). apply in_seq in Hk.
    rewrite (block_length _ _ (Z.to_nat (entries_of f u))) by (assumption || lia). rewrite (proj2 (m_stride_per _ _ _ _ H)). lia.
  - rewrite blocks_concat by assumption. f_equal. rewrite <- (count_per f u R U), Z2Nat.inj_mul by lia. reflexivity.
Qed.

(** Meaning of the entries. *)
Lemma sub_pt_entry_value f rows m c q p : ready f -> unpadded f -> new_map f SubPt rows = Ok m ->
  in_shape (l_comp (f_lay f)) c -> 0 <= q < l_nsub (f_lay f) -> in_shape (l_pix (f_lay f)) p ->
  let i := q + l_nsub (f_lay f) * off (l_pstr (f_lay f)) p in
  0 <= i < map_size m f /\
  exists e, map_entry m f i = Ok e /\ rd e (off (running 1 (l_comp (f_lay f))) c) = value f (c ++ [q] ++ p).
Proof.
  intros R U H Hc Hq Hp i. rewrite (map_size_ready f SubPt rows m R U H).
  assert (S : sane (f_lay f)) by apply R. assert (O : l_order (f_lay f) = ColMajor) by (now destruct (new_map_shape _ _ _ _ H)).
  assert (Wp : 0 <= off (l_pstr (f_lay f)) p < l_nbuf (f_lay f)) by (destruct S as (_ & _ & _ & _ & _ & W & _); now apply W).
  unfold unpadded in U. rewrite U in Wp.
  assert (Hi : 0 <= i < entries_of f SubPt) by (unfold i, entries_of; nia). split; [exact Hi|].
  rewrite (entry_block f SubPt rows m i R U H Hi). eexists; split; [reflexivity|].
  destruct (ready_strides f R) as (s & Es & _). unfold value. rewrite Es. cbn [bind].
  rewrite (sub_pt_offset _ _ _ _ _ S Es Hc Hp), O.
  assert (B := bij_running (l_comp (f_lay f)) ltac:(apply S)). destruct B as (_ & W & _). specialize (W c Hc).
  assert (Ec : l_nbc (f_lay f) = zprod (l_comp (f_lay f))) by apply S. rewrite <- Ec in W.
  set (k := off (running 1 (l_comp (f_lay f))) c) in *.
  assert (F := fits f SubPt R U). cbn [scalars_per_entry entries_of] in F |- *.
  assert (Q : forall d, nth (Z.to_nat k) (block (f_vals f) (Z.to_nat (l_nbc (f_lay f))) (Z.to_nat i)) d = nth (Z.to_nat (k + l_nbc (f_lay f) * i)) (f_vals f) d).
  { intros d. rewrite block_nth by lia. f_equal. rewrite (Z.mul_comm _ i), Z2Nat.inj_add, Z2Nat.inj_mul by nia. lia. }
  assert (Lb : length (block (f_vals f) (Z.to_nat (l_nbc (f_lay f))) (Z.to_nat i)) = Z.to_nat (l_nbc (f_lay f)))
    by (apply (block_length _ _ (Z.to_nat (entries_of f SubPt))); [exact F|lia]).
  assert (Bd : 0 <= k + l_nbc (f_lay f) * i < Z.of_nat (length (f_vals f))).
  { apply Nat2Z.inj_le in F. rewrite Nat2Z.inj_mul, !Z2Nat.id in F by (unfold entries_of in Hi; lia). unfold entries_of in Hi. cbn [entries_of] in F. nia. }
  destruct (f_vals f) as [|d v] eqn:EV; [cbn [length] in Bd; lia|]. rewrite <- EV in *.
  rewrite (rd_ok _ _ d) by lia. rewrite Q. fold i. rewrite (rd_ok (f_vals f) _ d) by lia. reflexivity.
Qed.

Lemma pixel_entry_value f rows m c q p : ready f -> unpadded f -> new_map f Pixel rows = Ok m ->
  in_shape (l_comp (f_lay f)) c -> 0 <= q < l_nsub (f_lay f) -> in_shape (l_pix (f_lay f)) p ->
  let i := off (l_pstr (f_lay f)) p in
  0 <= i < map_size m f /\
  exists e, map_entry m f i = Ok e /\
    rd e (off (running 1 (l_comp (f_lay f))) c + l_nbc (f_lay f) * q) = value f (c ++ [q] ++ p).
Proof.
  intros R U H Hc Hq Hp i. rewrite (map_size_ready f Pixel rows m R U H).
  assert (S : sane (f_lay f)) by apply R. assert (O : l_order (f_lay f) = ColMajor) by (now destruct (new_map_shape _ _ _ _ H)).
  assert (Wp : 0 <= off (l_pstr (f_lay f)) p < l_nbuf (f_lay f)) by (destruct S as (_ & _ & _ & _ & _ & W & _); now apply W).
  unfold unpadded in U. rewrite U in Wp. fold i in Wp. split; [exact Wp|].
  rewrite (entry_block f Pixel rows m i R U H Wp). eexists; split; [reflexivity|].
  destruct (ready_strides f R) as (s & Es & _). unfold value. rewrite Es. cbn [bind].
  rewrite (sub_pt_offset _ _ _ _ _ S Es Hc Hp), O.
  assert (B := bij_running (l_comp (f_lay f)) ltac:(apply S)). destruct B as (_ & W & _). specialize (W c Hc).
  assert (Ec : l_nbc (f_lay f) = zprod (l_comp (f_lay f))) by apply S. rewrite <- Ec in W.
  set (k := off (running 1 (l_comp (f_lay f))) c) in *.
  assert (F := fits f Pixel R U). cbn [scalars_per_entry entries_of] in F |- *.
  remember (l_nbc (f_lay f)) as nb. remember (l_nsub (f_lay f)) as ns. fold i.
  assert (HH : 0 <= k + nb * q < nb * ns) by (clear -W Hq; nia).
  assert (Q : forall d, nth (Z.to_nat (k + nb * q)) (block (f_vals f) (Z.to_nat (nb * ns)) (Z.to_nat i)) d = nth (Z.to_nat (k + nb * (q + ns * i))) (f_vals f) d).
  { intros d. rewrite block_nth by lia. f_equal. rewrite <- Z2Nat.inj_mul, <- Z2Nat.inj_add by (clear -HH Wp; nia). f_equal. ring. }
  assert (Lb : length (block (f_vals f) (Z.to_nat (nb * ns)) (Z.to_nat i)) = Z.to_nat (nb * ns)).
  { apply (block_length _ _ (Z.to_nat (l_npix (f_lay f)))); [exact F|lia]. }
  assert (Bd : 0 <= k + nb * (q + ns * i) < Z.of_nat (length (f_vals f))).
  { apply Nat2Z.inj_le in F. rewrite Nat2Z.inj_mul, !Z2Nat.id in F by lia. clear -F HH Wp. nia. }
  destruct (f_vals f) as [|d v] eqn:EV; [cbn [length] in Bd; lia|]. rewrite <- EV in *.
  rewrite (rd_ok _ _ d) by lia. rewrite Q. rewrite (rd_ok (f_vals f) _ d) by lia. reflexivity.
Qed.

(** ** Sum and mean *)
Lemma fold_zip_nth (zero : A) (add : A -> A -> A) (es : list (list A)) : forall s0 st k,
  length s0 = st -> Forall (fun e => length e = st) es -> (k < st)%nat ->
  length (fold_left (zip_with add) es s0) = st /\
  nth k (fold_left (zip_with add) es s0) zero = fold_left add (map (fun e => nth k e zero) es) (nth k s0 zero).
Proof.
  induction es as [|e es IH]; intros s0 st k L F Hk; [auto|]. apply Forall_cons_iff in F. destruct F as [Le F].
  cbn [fold_left map]. rewrite <- (nth_zip add s0 e k zero zero zero) by lia. apply IH; [|assumption|assumption].
  rewrite zip_length; congruence.
Qed.

Lemma map_sum_spec (zero : A) (add : A -> A -> A) f u rows m : ready f -> unpadded f -> new_map f u rows = Ok m ->
  exists s, map_sum zero add m f = Ok s /\ Z.of_nat (length s) = m_rows m * m_cols m /\
  forall k, 0 <= k < m_rows m * m_cols m ->
    nth (Z.to_nat k) s zero =
    fold_left add (map (fun i => nth (Z.to_nat (Z.of_nat i * m_stride m + k)) (f_vals f) zero) (seq 0 (Z.to_nat (entries_of f u)))) zero.
Proof.
  intros R U H. destruct (m_stride_per _ _ _ _ H) as [E1 E2]. pose proof (per_pos f u R) as Pp.
  unfold map_sum, vzero. rewrite E1, E2.
  assert (Z0 : nb_entries f = 0 -> entries_of f u = 0).
  { unfold nb_entries. rewrite nsub_known by assumption. assert (0 < l_nsub (f_lay f)) by apply R. unfold entries_of. destruct u; nia. }
  assert (G : forall es s0, es = map (block (f_vals f) (Z.to_nat (scalars_per_entry f u))) (seq 0 (Z.to_nat (entries_of f u))) -> s0 = repeat zero (Z.to_nat (scalars_per_entry f u)) ->
     Z.of_nat (length (fold_left (zip_with add) es s0)) = scalars_per_entry f u /\
     forall k, 0 <= k < scalars_per_entry f u -> nth (Z.to_nat k) (fold_left (zip_with add) es s0) zero =
       fold_left add (map (fun i => nth (Z.to_nat (Z.of_nat i * scalars_per_entry f u + k)) (f_vals f) zero) (seq 0 (Z.to_nat (entries_of f u)))) zero).
  { intros es s0 -> ->. pose proof (fits f u R U) as F.
    assert (FA : Forall (fun e : list A => length e = Z.to_nat (scalars_per_entry f u)) (map (block (f_vals f) (Z.to_nat (scalars_per_entry f u))) (seq 0 (Z.to_nat (entries_of f u))))).
    { apply Forall_forall. intros e He. apply in_map_iff in He. destruct He as (i & <- & Hi). apply in_seq in Hi.
      apply (block_length _ _ (Z.to_nat (entries_of f u))); [exact F|lia]. }
    split.
    - destruct (fold_zip_nth zero add _ _ _ 0%nat (repeat_length zero (Z.to_nat (scalars_per_entry f u))) FA ltac:(lia)) as [L _]. lia.
    - intros k Hk. destruct (fold_zip_nth zero add _ _ _ (Z.to_nat k) (repeat_length zero (Z.to_nat (scalars_per_entry f u))) FA ltac:(lia)) as [_ ->].
      rewrite nth_repeat, map_map. f_equal. apply map_ext. intros i. rewrite block_nth by lia. f_equal.
      rewrite Z2Nat.inj_add, Z2Nat.inj_mul, Nat2Z.id by nia. reflexivity. }
  destruct (Z.eqb_spec (nb_entries f) 0) as [E|E].
  - eexists; split; [reflexivity|]. specialize (G [] (repeat zero (Z.to_nat (scalars_per_entry f u)))). rewrite (Z0 E) in *. apply G; reflexivity.
  - rewrite (iterate_blocks f u rows m R U H). cbn [bind]. eexists; split; [reflexivity|]. now apply G.
Qed.

Lemma map_mean_spec (zero : A) (add : A -> A -> A) div f u rows m : ready f -> unpadded f -> new_map f u rows = Ok m ->
  exists s, map_sum zero add m f = Ok s /\
    map_mean zero add div m f = Ok (if entries_of f u =? 0 then repeat zero (Z.to_nat (m_rows m * m_cols m)) else map (fun x => div x (entries_of f u)) s).
Proof.
  intros R U H. destruct (map_sum_spec zero add f u rows m R U H) as (s & E & _). exists s. split; [exact E|].
  unfold map_mean. rewrite E. cbn [bind]. rewrite (map_size_ready f u rows m R U H).
  assert (Z0 : (nb_entries f =? 0) = (entries_of f u =? 0)).
  { unfold nb_entries. rewrite nsub_known by assumption. assert (0 < l_nsub (f_lay f)) by apply R. unfold entries_of. destruct u; nia. }
  rewrite Z0. destruct (entries_of f u =? 0); reflexivity.
Qed.

(** ** Writing one value to every entry *)
Lemma write_at_length (v w : list A) n : (n + length w <= length v)%nat -> length (write_at v n w) = length v.
Proof. intros H. unfold write_at. rewrite !app_length, firstn_length, skipn_length. lia. Qed.

Lemma nth_write_at (v w : list A) n k d : (n + length w <= length v)%nat ->
  nth k (write_at v n w) d = if (n <=? k)%nat && (k <? n + length w)%nat then nth (k - n) w d else nth k v d.
Proof.
  intros H. unfold write_at. destruct (Nat.leb_spec n k) as [H1|H1]; cbn [andb].
  - rewrite app_nth2 by (rewrite firstn_length; lia). rewrite firstn_length, Nat.min_l by lia.
    destruct (Nat.ltb_spec k (n + length w)).
    + now rewrite app_nth1 by lia.
    + rewrite app_nth2 by lia. rewrite nth_skipn'. f_equal. lia.
  - rewrite app_nth1 by (rewrite firstn_length; lia). now apply nth_firstn'.
Qed.

Lemma map_write_loop_spec op m u rows val : forall k i f, ready f -> unpadded f -> new_map f u rows = Ok m ->
  Z.of_nat (length val) = scalars_per_entry f u -> 0 <= i -> i + Z.of_nat k = entries_of f u ->
  exists f', map_write_loop m op val k i f = Ok f' /\ ready f' /\ f_lay f' = f_lay f /\ length (f_vals f') = length (f_vals f) /\
    (forall j d, nth j (f_vals f') d =
       if (Z.to_nat (i * scalars_per_entry f u) <=? j)%nat && (j <? Z.to_nat (buffer_scalars (f_lay f)))%nat
       then op (nth j (f_vals f) d) (nth (j mod Z.to_nat (scalars_per_entry f u)) val d) else nth j (f_vals f) d).
Proof.
  induction k as [|k IH]; intros i f R U H Lv Hi Hk.
  - exists f. split; [reflexivity|]. repeat (split; [assumption || reflexivity|]). intros j d.
    assert (i = entries_of f u) by lia. subst i. rewrite (count_per f u R U).
    destruct (Nat.leb_spec (Z.to_nat (buffer_scalars (f_lay f))) j), (Nat.ltb_spec j (Z.to_nat (buffer_scalars (f_lay f)))); cbn [andb]; try reflexivity; lia.
  - cbn [map_write_loop]. rewrite (entry_block f u rows m i R U H) by lia. cbn [bind].
    destruct (m_stride_per _ _ _ _ H) as [E1 E2]. rewrite E1.
    pose proof (per_pos f u R) as Pp. pose proof (fits f u R U) as F. pose proof (count_per f u R U) as CP.
    assert (Lb : length (block (f_vals f) (Z.to_nat (scalars_per_entry f u)) (Z.to_nat i)) = Z.to_nat (scalars_per_entry f u)) by (apply (block_length _ _ (Z.to_nat (entries_of f u))); [exact F|lia]).
    set (w := zip_with op (block (f_vals f) (Z.to_nat (scalars_per_entry f u)) (Z.to_nat i)) val).
    assert (Lw : length w = Z.to_nat (scalars_per_entry f u)) by (unfold w; rewrite zip_length; lia).
    assert (N : len (f_vals f) = buffer_scalars (f_lay f) + f_pad f) by apply R. assert (0 <= f_pad f) by apply R. unfold len in N.
    assert (Fi : (Z.to_nat (i * scalars_per_entry f u) + length w <= length (f_vals f))%nat) by (rewrite Lw; nia).
    set (f1 := with_vals f (write_at (f_vals f) (Z.to_nat (i * scalars_per_entry f u)) w)).
    assert (R1 : ready f1) by (apply with_vals_ready; [assumption|now apply write_at_length]).
    assert (Hk' : i + 1 + Z.of_nat k = entries_of f1 u) by (change (entries_of f1 u) with (entries_of f u); lia).
    destruct (IH (i + 1) f1 R1 U H Lv ltac:(lia) Hk') as (f' & E & R' & L' & Ln & V).
    exists f'. split; [exact E|]. split; [exact R'|]. split; [exact L'|].
    split; [rewrite Ln; unfold f1; cbn; now apply write_at_length|].
    intros j d. rewrite V. change (scalars_per_entry f1 u) with (scalars_per_entry f u). change (f_lay f1) with (f_lay f). unfold f1; cbn [with_vals f_vals].
    rewrite nth_write_at by assumption. rewrite Lw.
    assert (Zi : Z.to_nat ((i + 1) * scalars_per_entry f u) = (Z.to_nat (i * scalars_per_entry f u) + Z.to_nat (scalars_per_entry f u))%nat) by nia. rewrite Zi.
    set (a := Z.to_nat (i * scalars_per_entry f u)) in *. set (st := Z.to_nat (scalars_per_entry f u)) in *. set (B := Z.to_nat (buffer_scalars (f_lay f))) in *.
    assert (HB : (a + st <= B)%nat) by (unfold a, st, B; rewrite <- CP, <- Z2Nat.inj_add by nia; apply Z2Nat.inj_le; [nia|nia|]; clear -Hk Pp; nia).
    destruct (Nat.leb_spec (a + st) j) as [J1|J1], (Nat.ltb_spec j B) as [J2|J2], (Nat.leb_spec a j) as [J3|J3], (Nat.ltb_spec j (a + st)) as [J4|J4]; cbn [andb]; try lia; try reflexivity.
    unfold w. rewrite (nth_zip op _ _ _ d d) by lia.
    assert (Ea : a = (Z.to_nat i * st)%nat) by (unfold a, st; rewrite Z2Nat.inj_mul by lia; reflexivity).
    rewrite block_nth by lia. f_equal; [f_equal; lia|]. f_equal. subst a. rewrite Ea in *.
    apply (Nat.mod_unique _ _ (Z.to_nat i)); [lia|]. rewrite (Nat.mul_comm st). lia.
Qed.

Lemma map_update_spec op f u rows m r c val : ready f -> unpadded f -> new_map f u rows = Ok m ->
  r = m_rows m -> c = m_cols m -> Z.of_nat (length val) = r * c ->
  exists f' es, map_update op m r c val f = Ok f' /\ ready f' /\ f_lay f' = f_lay f /\
    map_iterate m f = Ok es /\ map_iterate m f' = Ok (map (fun e => zip_with op e val) es) /\
    (forall j, buffer_scalars (f_lay f) <= j -> rd (f_vals f') j = rd (f_vals f) j).
Proof.
  intros R U H -> -> Lv. unfold map_update. rewrite !Z.eqb_refl. cbn [andb negb].
  destruct (new_map_shape _ _ _ _ H) as (_ & _ & _ & _ & I & MP). assert (I' : f_init f = true) by apply R. rewrite I, I'. cbn [negb].
  rewrite (map_size_ready f u rows m R U H). rewrite (proj2 (m_stride_per _ _ _ _ H)) in Lv.
  pose proof (count_nonneg f u R) as Cn. pose proof (per_pos f u R) as Pp. pose proof (fits f u R U) as F. pose proof (count_per f u R U) as CP.
  destruct (map_write_loop_spec op m u rows val (Z.to_nat (entries_of f u)) 0 f R U H Lv ltac:(lia) ltac:(lia)) as (f' & E & R' & L' & Ln & V).
  assert (U' : unpadded f') by (unfold unpadded; now rewrite L').
  assert (Bp : forall j, (j < Z.to_nat (entries_of f u) * Z.to_nat (scalars_per_entry f u))%nat -> forall d, nth j (f_vals f') d = op (nth j (f_vals f) d) (nth (j mod Z.to_nat (scalars_per_entry f u)) val d)).
  { intros j Hj d. rewrite V. rewrite Z.mul_0_l. cbn [Z.to_nat Nat.leb andb].
    replace (j <? Z.to_nat (buffer_scalars (f_lay f)))%nat with true; [reflexivity|]. symmetry. apply Nat.ltb_lt. rewrite <- CP, Z2Nat.inj_mul by lia. exact Hj. }
  exists f', (map (block (f_vals f) (Z.to_nat (scalars_per_entry f u))) (seq 0 (Z.to_nat (entries_of f u)))).
  split; [exact E|]. split; [exact R'|]. split; [exact L'|]. split; [now apply iterate_blocks with (rows := rows)|]. split.
  - assert (En : forall i, 0 <= i < entries_of f u -> map_entry m f' i = Ok (block (f_vals f') (Z.to_nat (scalars_per_entry f u)) (Z.to_nat i))).
    { intros i Hi. destruct (m_stride_per _ _ _ _ H) as [E1 E2]. unfold map_entry. rewrite E1, E2.
      assert (N' : len (f_vals f') = buffer_scalars (f_lay f') + f_pad f') by apply R'. rewrite L' in N'. assert (0 <= f_pad f') by apply R'.
      assert (G' : f_gen f' = f_gen f /\ f_ptr f' = f_ptr f).
      { clear -E. revert E. generalize 0 as i. generalize (Z.to_nat (entries_of f u)) as k. intros k; revert f; induction k as [|k IH]; intros f i E.
        - apply Ok_inj in E. now subst.
        - cbn [map_write_loop] in E. destruct (map_entry m f i); cbn [bind] in E; try discriminate. apply IH in E. exact E. }
      rewrite I' in MP. rewrite span_ready; [|apply R'|now rewrite MP, (proj2 G')|nia|nia].
      unfold block. repeat f_equal. rewrite Z2Nat.inj_mul by lia. reflexivity. }
    assert (SZ : map_size m f' = entries_of f u).
    { unfold map_size, nb_entries. rewrite nsub_known by assumption.
      pose proof (map_size_ready f u rows m R U H) as X. unfold map_size, nb_entries in X. rewrite nsub_known in X by assumption.
      assert (C1 : f_cur f = l_nsub (f_lay f) * l_nbuf (f_lay f)) by apply R.
      assert (C2 : f_cur f' = l_nsub (f_lay f') * l_nbuf (f_lay f')) by apply R'. rewrite L' in *. rewrite C2, <- C1. exact X. }
    unfold map_iterate. rewrite I, I'. cbn [negb]. rewrite SZ. unfold zrange.
    rewrite (mapM_ok _ (fun i => block (f_vals f') (Z.to_nat (scalars_per_entry f u)) (Z.to_nat i))).
    + f_equal. rewrite !map_map. apply map_ext_in. intros k Hk. apply in_seq in Hk. rewrite Nat2Z.id.
      assert (Lb : length (block (f_vals f) (Z.to_nat (scalars_per_entry f u)) k) = Z.to_nat (scalars_per_entry f u)) by (apply (block_length _ _ (Z.to_nat (entries_of f u))); [exact F|lia]).
      assert (Lb' : length (block (f_vals f') (Z.to_nat (scalars_per_entry f u)) k) = Z.to_nat (scalars_per_entry f u)) by (apply (block_length _ _ (Z.to_nat (entries_of f u))); [rewrite Ln; exact F|lia]).
      destruct val as [|d0 val]; [cbn [length] in Lv; lia|]. apply (nth_ext _ _ d0 d0); [rewrite zip_length; cbn [length] in *; lia|].
      intros t Ht. rewrite Lb' in Ht. rewrite (nth_zip op _ _ _ d0 d0) by lia. rewrite !block_nth by lia.
      rewrite Bp by nia. f_equal. f_equal. symmetry. apply (Nat.mod_unique _ _ k); [lia|]. rewrite (Nat.mul_comm _ k). reflexivity.
    + intros x Hx. apply in_map_iff in Hx. destruct Hx as (k & <- & Hk). apply in_seq in Hk. apply En. lia.
  - intros j Hj. unfold rd. destruct (Z.ltb_spec j 0); [reflexivity|].
    assert (X : nth_error (f_vals f') (Z.to_nat j) = nth_error (f_vals f) (Z.to_nat j)); [|now rewrite X].
    destruct (nth_error (f_vals f) (Z.to_nat j)) as [x|] eqn:EE.
    + assert (Lj : (Z.to_nat j < length (f_vals f))%nat) by (apply nth_error_Some; congruence).
      rewrite (nth_error_nth' _ x) by lia. f_equal. rewrite V. rewrite Z.mul_0_l. cbn [Z.to_nat Nat.leb andb].
      replace (Z.to_nat j <? Z.to_nat (buffer_scalars (f_lay f)))%nat with false by (symmetry; apply Nat.ltb_ge; lia).
      now apply nth_error_nth.
    + apply nth_error_None in EE. apply nth_error_None. lia.
Qed.

Lemma map_update_mismatch op f m r c val : r <> m_rows m \/ c <> m_cols m -> map_update (A:=A) op m r c val f = Err FieldMapError.
Proof. intros H. unfold map_update. destruct (Z.eqb_spec r (m_rows m)), (Z.eqb_spec c (m_cols m)); cbn; try reflexivity. tauto. Qed.
End Maps.
