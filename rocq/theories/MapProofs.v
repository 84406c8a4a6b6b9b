(** Proofs about statically sized maps, self-combination and enumeration. *)
From Coq Require Import String.
From Verif Require Import Base GridSpec GridModel StridedModel LayoutModel LayoutSpec LayoutProofs FieldModel FieldSpec FieldProofs FieldProofs2 RegistryModel MapModel.
Local Open Scope Z_scope.
Local Open Scope list_scope.

Section S.
Context {A : Type}.
Implicit Types (f : field A) (m : fmap) (t : iterate_type).

(** ** Static maps are dynamic maps with a fixed shape *)
Lemma new_static_inv f u t m : 0 < it_rows t -> new_static f u t = Ok m ->
  new_map f u (Some (it_rows t)) = Ok m /\ m_stride m = it_stride t /\ m_rows m = it_rows t /\ m_cols m = it_cols t /\ it_stride t = scalars_per_entry f u.
Proof.
  intros P. unfold new_static. destruct (new_map f u (Some (it_rows t))) as [m0| |] eqn:E; cbn [bind]; try discriminate.
  destruct (Z.eqb_spec (m_stride m0) (it_stride t)) as [S|S]; cbn [negb]; [|discriminate]. intros H. apply Ok_inj in H. subst m0.
  split; [reflexivity|]. split; [exact S|]. destruct (m_stride_per _ _ _ _ E) as [E1 E2].
  assert (Rw : m_rows m = it_rows t).
  { clear -E. unfold new_map, map_rows in E. destruct (get_stride _ _ _); cbn [bind] in E; try discriminate.
    destruct (it_rows t =? 0); cbn [bind] in E; try discriminate. destruct (negb _); [discriminate|]. destruct (negb _); [discriminate|]. apply Ok_inj in E. now subst. }
  split; [exact Rw|]. split; [|congruence].
  rewrite Rw in E2. rewrite <- E1, S in E2. unfold it_stride in E2. apply (Z.mul_cancel_l _ _ (it_rows t)); lia.
Qed.

Lemma new_static_iff f u t : l_order (f_lay f) = ColMajor -> (u = Pixel -> has_nsub f = true) -> 0 < it_rows t -> 0 < it_cols t ->
  (it_stride t = scalars_per_entry f u -> exists m, new_static f u t = Ok m /\ m_rows m = it_rows t /\ m_cols m = it_cols t) /\
  (it_stride t <> scalars_per_entry f u -> new_static f u t = Err FieldMapError).
Proof.
  intros O K Pr Pc. destruct (new_map_rows_iff f u (it_rows t) O K ltac:(lia)) as [Y N]. split.
  - intros E. destruct Y as (m & Em & R1 & R2). { exists (it_cols t). unfold it_stride in E. lia. }
    exists m. assert (X : new_static f u t = Ok m).
    { unfold new_static. rewrite Em. cbn [bind]. rewrite (proj1 (m_stride_per _ _ _ _ Em)), <- E, Z.eqb_refl. reflexivity. }
    split; [exact X|]. apply new_static_inv in X; tauto.
  - intros E. unfold new_static. destruct (new_map f u (Some (it_rows t))) as [m| |] eqn:Em; cbn [bind].
    + rewrite (proj1 (m_stride_per _ _ _ _ Em)). destruct (Z.eqb_spec (scalars_per_entry f u) (it_stride t)); [congruence|reflexivity].
    + destruct (Znumtheory.Zdivide_dec (it_rows t) (scalars_per_entry f u)) as [D|D]; [destruct (Y D) as (m1 & X & _); congruence|]. specialize (N D). congruence.
    + destruct (Znumtheory.Zdivide_dec (it_rows t) (scalars_per_entry f u)) as [D|D]; [destruct (Y D) as (m1 & X & _); congruence|]. specialize (N D). congruence.
Qed.

Lemma static_entry_same t m f i : m_stride m = it_stride t -> m_rows m * m_cols m = it_stride t -> static_entry t m f i = map_entry m f i.
Proof. intros E1 E2. unfold static_entry, map_entry. now rewrite E1, E2. Qed.

Lemma static_loop_same t m f : m_stride m = it_stride t -> m_rows m * m_cols m = it_stride t -> forall k i,
  static_loop t m f k (mk_static_iter i (i * it_stride t)) = mapM (map_entry m f) (map (fun j => i + Z.of_nat j) (seq 0 k)).
Proof.
  intros E1 E2. induction k as [|k IH]; intros i; [reflexivity|]. cbn [static_loop seq map mapM]. unfold static_deref. cbn [si_start].
  change (span f (m_ptr m) (i * it_stride t) (it_stride t)) with (static_entry t m f i). rewrite static_entry_same by assumption. rewrite Z.add_0_r.
  destruct (map_entry m f i); cbn [bind]; [|reflexivity|reflexivity]. unfold static_next. cbn [si_index]. rewrite IH.
  rewrite <- seq_shift, map_map. replace (map (fun x => i + Z.of_nat (S x)) (seq 0 k)) with (map (fun j => i + 1 + Z.of_nat j) (seq 0 k)); [reflexivity|].
  apply map_ext. intros x. lia.
Qed.

Lemma unsigned_size_ok m f : 0 <= map_size m f < 2 ^ 64 -> unsigned_size m f = Z.to_nat (map_size m f).
Proof. intros H. unfold unsigned_size. now rewrite Z.mod_small. Qed.

Lemma static_iterate_same t m f : m_stride m = it_stride t -> m_rows m * m_cols m = it_stride t -> m_init m = true -> 0 <= map_size m f < 2 ^ 64 ->
  static_iterate t m f = map_iterate m f /\ static_const_iterate t m f = map_iterate m f.
Proof.
  intros E1 E2 I Z. unfold static_iterate, static_const_iterate, map_iterate. rewrite I. cbn [negb]. rewrite unsigned_size_ok by exact Z.
  unfold static_first. change (mk_static_iter 0 0) with (mk_static_iter 0 (0 * it_stride t)). rewrite static_loop_same by assumption.
  unfold zrange. split; f_equal; apply map_ext; intros x; apply Z.add_0_l.
Qed.

Lemma static_write_same t op val m : m_stride m = it_stride t -> m_rows m * m_cols m = it_stride t -> forall k i f,
  static_write_loop t op val m k (mk_static_iter i (i * it_stride t)) f = map_write_loop m op val k i f.
Proof.
  intros E1 E2. induction k as [|k IH]; intros i f; [reflexivity|]. cbn [static_write_loop map_write_loop]. unfold static_deref. cbn [si_start].
  change (span f (m_ptr m) (i * it_stride t) (it_stride t)) with (static_entry t m f i). rewrite static_entry_same by assumption.
  destruct (map_entry m f i); cbn [bind]; [|reflexivity|reflexivity]. unfold static_next. cbn [si_index]. rewrite IH. now rewrite E1.
Qed.

Lemma static_update_same op t m val f : m_stride m = it_stride t -> m_rows m = it_rows t -> m_cols m = it_cols t -> m_init m = true -> 0 <= map_size m f < 2 ^ 64 ->
  static_update op t m val f = map_update op m (it_rows t) (it_cols t) val f.
Proof.
  intros E1 E2 E3 I Z. unfold static_update, map_update. rewrite E2, E3, !Z.eqb_refl, I. cbn [andb negb]. rewrite unsigned_size_ok by exact Z.
  unfold static_first. change (mk_static_iter 0 0) with (mk_static_iter 0 (0 * it_stride t)). apply static_write_same; [exact E1|]. rewrite E2, E3. reflexivity.
Qed.

(** ** No data pointer *)
Lemma static_loop_null t m f k : m_ptr m = None -> 0 < it_stride t -> static_loop t m f (S k) static_first = UB.
Proof.
  intros P S. cbn [static_loop]. unfold static_deref, span. rewrite P. destruct (Z.leb_spec (it_stride t) 0); [lia|]. reflexivity.
Qed.

(** ** One entry written *)
Lemma block_write (v w : list A) st n i j : (n * st <= length v)%nat -> (i < n)%nat -> (j < n)%nat -> length w = st ->
  block (write_at v (i * st) w) st j = if (j =? i)%nat then w else block v st j.
Proof.
  intros H Hi Hj Lw.
  assert (Fi : (i * st + length w <= length v)%nat) by (rewrite Lw; nia).
  assert (Lx : length (write_at v (i * st) w) = length v) by now apply write_at_length.
  assert (L1 : length (block (write_at v (i * st) w) st j) = st) by (apply (block_length _ _ n); [rewrite Lx|]; assumption).
  assert (L2 : length (block v st j) = st) by now apply (block_length _ _ n).
  destruct st as [|st].
  - destruct w; [|discriminate]. unfold block. destruct (j =? i)%nat; reflexivity.
  - destruct v as [|d v]; [cbn [length] in H; nia|]. remember (d :: v) as vv. clear Heqvv v.
    destruct (Nat.eqb_spec j i) as [->|Hne].
    + apply (nth_ext _ _ d d); [lia|]. intros k Hk. rewrite L1 in Hk. rewrite block_nth by lia. rewrite nth_write_at by assumption. rewrite Lw.
      destruct (Nat.leb_spec (i * S st) (i * S st + k)); [|lia]. destruct (Nat.ltb_spec (i * S st + k) (i * S st + S st)); [|lia]. cbn [andb]. f_equal. lia.
    + apply (nth_ext _ _ d d); [lia|]. intros k Hk. rewrite L1 in Hk. rewrite !block_nth by lia. rewrite nth_write_at by assumption. rewrite Lw.
      destruct (Nat.leb_spec (i * S st) (j * S st + k)); [|reflexivity]. destruct (Nat.ltb_spec (j * S st + k) (i * S st + S st)); [|reflexivity]. nia.
Qed.

Lemma tail_write (v w : list A) st n i : (n * st <= length v)%nat -> (i < n)%nat -> length w = st ->
  skipn (n * st) (write_at v (i * st) w) = skipn (n * st) v.
Proof.
  intros H Hi Lw. unfold write_at.
  assert (Hl : (i * st + st <= n * st)%nat) by nia.
  rewrite skipn_app, skipn_all2 by (rewrite firstn_length; lia). rewrite firstn_length, Nat.min_l by lia. cbn [app].
  rewrite skipn_app, skipn_all2 by lia. cbn [app]. rewrite Lw, skipn_skipn'. f_equal. lia.
Qed.

(** The part of a state the loop depends on. *)
Definition alike f f' : Prop :=
  ready f' /\ f_lay f' = f_lay f /\ f_gen f' = f_gen f /\ f_ptr f' = f_ptr f /\ f_init f' = f_init f /\ f_cur f' = f_cur f /\ f_pad f' = f_pad f /\ f_glob f' = f_glob f /\
  length (f_vals f') = length (f_vals f).

Lemma alike_refl f : ready f -> alike f f.
Proof. intros R. unfold alike. auto 10. Qed.
Lemma alike_trans f g h : alike f g -> alike g h -> alike f h.
Proof. unfold alike. intros (?&?&?&?&?&?&?&?&?) (?&?&?&?&?&?&?&?&?). repeat (split; [assumption || congruence|]); congruence. Qed.
Lemma alike_map f f' u rows : alike f f' -> new_map f' u rows = new_map f u rows.
Proof. intros (_ & E1 & _ & E2 & E3 & _). unfold new_map, map_rows, has_nsub. now rewrite E1, E2, E3. Qed.
Lemma alike_entries f f' u : alike f f' -> entries_of f' u = entries_of f u /\ scalars_per_entry f' u = scalars_per_entry f u.
Proof. intros (_ & E1 & _). unfold entries_of, scalars_per_entry. now rewrite E1. Qed.
Lemma alike_unpadded f f' : alike f f' -> unpadded f -> unpadded f'.
Proof. intros (_ & E1 & _). unfold unpadded. now rewrite E1. Qed.

Definition blk f u (j : nat) : list A := block (f_vals f) (Z.to_nat (scalars_per_entry f u)) j.

Lemma write_entry f u rows m i w : ready f -> unpadded f -> new_map f u rows = Ok m -> 0 <= i < entries_of f u ->
  length w = Z.to_nat (scalars_per_entry f u) ->
  let f' := with_vals f (write_at (f_vals f) (Z.to_nat (i * m_stride m)) w) in
  alike f f' /\ (forall j, (j < Z.to_nat (entries_of f u))%nat -> blk f' u j = if (j =? Z.to_nat i)%nat then w else blk f u j) /\
  skipn (Z.to_nat (buffer_scalars (f_lay f))) (f_vals f') = skipn (Z.to_nat (buffer_scalars (f_lay f))) (f_vals f).
Proof.
  intros R U H Hi Lw f'. unfold f' in *. clear f'. destruct (m_stride_per _ _ _ _ H) as [E1 _]. rewrite E1.
  pose proof (per_pos f u R) as Pp. pose proof (fits f u R U) as F. pose proof (count_per f u R U) as CP. pose proof (count_nonneg f u R) as Cn.
  replace (Z.to_nat (i * scalars_per_entry f u)) with (Z.to_nat i * Z.to_nat (scalars_per_entry f u))%nat by (rewrite Z2Nat.inj_mul by lia; reflexivity).
  replace (Z.to_nat (buffer_scalars (f_lay f))) with (Z.to_nat (entries_of f u) * Z.to_nat (scalars_per_entry f u))%nat by (rewrite <- CP, Z2Nat.inj_mul by lia; reflexivity).
  assert (Hn : (Z.to_nat i < Z.to_nat (entries_of f u))%nat) by lia.
  assert (Lx : length (write_at (f_vals f) (Z.to_nat i * Z.to_nat (scalars_per_entry f u)) w) = length (f_vals f)) by (apply write_at_length; rewrite Lw; nia).
  split; [|split].
  - unfold alike. split; [now apply with_vals_ready|]. cbn. auto 10.
  - intros j Hj. unfold blk. cbn [with_vals f_vals]. change (scalars_per_entry (with_vals f _) u) with (scalars_per_entry f u).
    now apply block_write with (n := Z.to_nat (entries_of f u)).
  - cbn [with_vals f_vals]. now apply tail_write.
Qed.

Lemma blk_length f u j : ready f -> unpadded f -> (j < Z.to_nat (entries_of f u))%nat -> length (blk f u j) = Z.to_nat (scalars_per_entry f u).
Proof. intros R U Hj. apply (block_length _ _ (Z.to_nat (entries_of f u))); [now apply fits|exact Hj]. Qed.

(** ** The loop with an aliased argument *)
Lemma self_loop_spec m op u rows src : forall k i f, ready f -> unpadded f -> new_map f u rows = Ok m -> 0 <= src < entries_of f u ->
  0 <= i -> i + Z.of_nat k = entries_of f u ->
  exists f', self_loop m op src k i f = Ok f' /\ alike f f' /\
    (forall j, (j < Z.to_nat (entries_of f u))%nat -> blk f' u j =
       if (j <? Z.to_nat i)%nat then blk f u j
       else zip_with op (blk f u j)
              (if (Z.to_nat i <=? Z.to_nat src)%nat && (Z.to_nat src <? j)%nat then zip_with op (blk f u (Z.to_nat src)) (blk f u (Z.to_nat src))
               else blk f u (Z.to_nat src))) /\
    skipn (Z.to_nat (buffer_scalars (f_lay f))) (f_vals f') = skipn (Z.to_nat (buffer_scalars (f_lay f))) (f_vals f).
Proof.
  induction k as [|k IH]; intros i f R U H Hs Hi Hk.
  - exists f. split; [reflexivity|]. split; [now apply alike_refl|]. split; [|reflexivity]. intros j Hj.
    destruct (Nat.ltb_spec j (Z.to_nat i)); [reflexivity|lia].
  - cbn [self_loop]. rewrite (entry_block f u rows m i R U H) by lia. cbn [bind]. rewrite (entry_block f u rows m src R U H) by lia. cbn [bind].
    fold (blk f u (Z.to_nat i)). fold (blk f u (Z.to_nat src)).
    assert (Lw : length (zip_with op (blk f u (Z.to_nat i)) (blk f u (Z.to_nat src))) = Z.to_nat (scalars_per_entry f u)).
    { rewrite zip_length; rewrite ?blk_length; auto; lia. }
    destruct (write_entry f u rows m i _ R U H ltac:(lia) Lw) as (Al & Bl & Tl).
    set (f1 := with_vals f (write_at (f_vals f) (Z.to_nat (i * m_stride m)) (zip_with op (blk f u (Z.to_nat i)) (blk f u (Z.to_nat src))))) in *.
    destruct (alike_entries f f1 u Al) as [En Sp]. assert (R1 : ready f1) by apply Al. assert (U1 := alike_unpadded _ _ Al U).
    destruct (IH (i + 1) f1 R1 U1) as (f' & E & Al' & Bl' & Tl'); try lia.
    { now rewrite (alike_map f f1 u rows Al). }
    exists f'. split; [exact E|]. split; [now apply alike_trans with f1|]. rewrite En in Bl'. split.
    + intros j Hj. rewrite Bl' by exact Hj. rewrite !Bl by lia.
      replace (Z.to_nat (i + 1)) with (S (Z.to_nat i)) by lia.
      destruct (Nat.ltb_spec j (Z.to_nat i)), (Nat.ltb_spec j (S (Z.to_nat i))), (Nat.leb_spec (S (Z.to_nat i)) (Z.to_nat src)), (Nat.leb_spec (Z.to_nat i) (Z.to_nat src)), (Nat.ltb_spec (Z.to_nat src) j),
        (Nat.eqb_spec j (Z.to_nat i)), (Nat.eqb_spec (Z.to_nat src) (Z.to_nat i)); cbn [andb]; try lia; try reflexivity; try (subst j); try reflexivity;
        try (match goal with H : Z.to_nat src = _ |- _ => rewrite H end); reflexivity.
    + assert (EL : f_lay f1 = f_lay f) by apply Al. rewrite EL in Tl'. now rewrite Tl'.
Qed.

Lemma iterate_blk f f' u rows m : ready f -> unpadded f -> new_map f u rows = Ok m -> alike f f' ->
  map_iterate m f' = Ok (map (blk f' u) (seq 0 (Z.to_nat (entries_of f u)))).
Proof.
  intros R U H Al. destruct (alike_entries f f' u Al) as [En _]. rewrite <- En. rewrite <- (alike_map f f' u rows Al) in H.
  rewrite (iterate_blocks f' u rows m); [reflexivity|apply Al|now apply (alike_unpadded f)|exact H].
Qed.

Lemma self_update_spec m op u rows src f : ready f -> unpadded f -> new_map f u rows = Ok m -> 0 <= src < entries_of f u ->
  exists f', self_update op m src f = Ok f' /\ alike f f' /\
    (forall j, (j < Z.to_nat (entries_of f u))%nat -> blk f' u j = zip_with op (blk f u j)
              (if (Z.to_nat src <? j)%nat then zip_with op (blk f u (Z.to_nat src)) (blk f u (Z.to_nat src)) else blk f u (Z.to_nat src))) /\
    skipn (Z.to_nat (buffer_scalars (f_lay f))) (f_vals f') = skipn (Z.to_nat (buffer_scalars (f_lay f))) (f_vals f).
Proof.
  intros R U H Hs. unfold self_update. destruct (new_map_shape _ _ _ _ H) as (_ & _ & _ & _ & I & _). assert (I' : f_init f = true) by apply R.
  rewrite I, I'. cbn [negb]. rewrite (map_size_ready f u rows m R U H). pose proof (count_nonneg f u R).
  destruct (self_loop_spec m op u rows src (Z.to_nat (entries_of f u)) 0 f R U H Hs ltac:(lia) ltac:(lia)) as (f' & E & Al & Bl & Tl).
  exists f'. split; [exact E|]. split; [exact Al|]. split; [|exact Tl]. intros j Hj. rewrite Bl by exact Hj. reflexivity.
Qed.

(** ** Mean *)
Lemma static_mean_same (zero : A) (add : A -> A -> A) scale t f u m : ready f -> unpadded f -> 0 < it_rows t -> new_static f u t = Ok m -> entries_of f u < 2 ^ 64 ->
  exists s, map_sum zero add m f = Ok s /\ static_mean zero add scale t m f = Ok (map (fun x => scale x (entries_of f u)) s).
Proof.
  intros R U P H Z. destruct (new_static_inv _ _ _ _ P H) as (Hm & E1 & E2 & E3 & E4).
  assert (I : m_init m = true). { destruct (new_map_shape _ _ _ _ Hm) as (_ & _ & _ & _ & I & _). rewrite I. apply R. }
  pose proof (map_size_ready _ _ _ _ R U Hm) as Sz. pose proof (count_nonneg f u R).
  destruct (static_iterate_same t m f E1 ltac:(rewrite E2, E3; reflexivity) I ltac:(lia)) as [_ C].
  unfold static_mean. rewrite C, (iterate_blocks f u _ m R U Hm). cbn [bind]. unfold map_sum. rewrite (iterate_blocks f u _ m R U Hm). cbn [bind].
  unfold vzero. rewrite E2, E3. change (it_rows t * it_cols t) with (it_stride t). rewrite Sz.
  destruct (Z.eqb_spec (nb_entries f) 0) as [E|E]; [|eexists; split; reflexivity].
  assert (Z0 : entries_of f u = 0).
  { revert E. unfold nb_entries. rewrite nsub_known by assumption. assert (0 < l_nsub (f_lay f)) by apply R. unfold entries_of. destruct u; nia. }
  rewrite Z0. eexists; split; reflexivity.
Qed.

(** ** Enumeration *)
Lemma paired_ok (ix : list Z) n (entry : Z -> res (list A)) (g : nat -> list A) : (forall k, (k < n)%nat -> entry (Z.of_nat k) = Ok (g k)) ->
  paired ix (Z.of_nat n) entry = Ok (combine ix (map g (seq 0 n))).
Proof.
  intros H. unfold paired. rewrite Nat2Z.id. unfold zrange.
  rewrite (mapM_ok _ (fun p => (fst p, g (Z.to_nat (snd p))))).
  - f_equal. generalize (seq 0 n). clear. induction ix as [|x ix IH]; intros [|y l]; cbn; try reflexivity. f_equal; [now rewrite Nat2Z.id|apply IH].
  - intros [a b] Hx. apply in_combine_r in Hx. apply in_map_iff in Hx. destruct Hx as (k & <- & Hk). apply in_seq in Hk. cbn [fst snd].
    rewrite H by lia. cbn [bind]. now rewrite Nat2Z.id.
Qed.
End S.
