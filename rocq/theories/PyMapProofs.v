(** Proofs for PyMapProps.v. *)
From Coq Require Import String.
From Verif Require Import Base CIntModel GridModel GridSpec GridProofs GridProofs2 GridProofs3 StridedModel StridedProofs UnitsModel LayoutModel LayoutSpec LayoutProofs FieldModel FieldSpec FieldProofs FieldProofs2.
From Verif Require Import RegistryModel RegistrySpec RegistryProofs RegistryProofs2 RegistryProofs3 StateModel PyCommModel PyArgModel.
From Verif Require Import NumpyModel PyArrayModel PyArraySpec PyArrayProofs PyMapModel PyMapSpec.
Local Open Scope Z_scope.
Local Open Scope list_scope.

(** ** Typed getters *)
Lemma ftype_eqb_true a b : ftype_eqb a b = true <-> a = b.
Proof. destruct a, b; cbn; split; congruence. Qed.
Lemma typed_ok {A} ty (c : coll A) name r : py_get_field ty c name = Ok r <-> get_field c name = Ok r /\ rf_type r = ty.
Proof.
  unfold py_get_field. destruct (get_field c name) as [r0| |]; cbn [bind].
  - destruct (ftype_eqb (rf_type r0) ty) eqn:E; cbn [negb].
    + apply ftype_eqb_true in E. split; [intros H; apply Ok_inj in H; subst; auto|intros [H _]; exact H].
    + split; [discriminate|]. intros [H T]. apply Ok_inj in H. subst r0. apply ftype_eqb_true in T. congruence.
  - split; [discriminate|intros [H _]; discriminate].
  - split; [discriminate|intros [H _]; discriminate].
Qed.
Lemma typed_other {A} ty (c : coll A) name r : get_field c name = Ok r -> rf_type r <> ty -> py_get_field ty c name = Err RuntimeError.
Proof.
  intros G T. unfold py_get_field. rewrite G. cbn [bind]. destruct (ftype_eqb (rf_type r) ty) eqn:E; [|reflexivity].
  apply ftype_eqb_true in E. contradiction.
Qed.
Lemma typed_unknown {A} ty (c : coll A) name : (forall r, get_field c name <> Ok r) -> py_get_field ty c name = Err FieldCollectionError.
Proof.
  intros G. unfold py_get_field. unfold get_field in *. destruct (lookup name (c_fields c)) as [r|]; [|reflexivity].
  exfalso. exact (G r eq_refl).
Qed.

Section Programs.
Context {A : Type} (zero junk : A).
Notation coll := (coll A).
Lemma pystep_type s k name r : get_field (p_coll s) name = Ok r ->
  exists r', get_field (p_coll (fst (pystep zero junk s k))) name = Ok r' /\ rf_type r' = rf_type r.
Proof.
  intros G. destruct (pystep_coll zero junk s k) as [(o & -> & F & ->)|[(n & opf & V & ->)| ->]].
  - destruct (step_keeps zero (p_coll s) o name r G) as (r' & G' & K); [intros ->; discriminate F|].
    exists r'. split; [exact G'|]. apply K.
  - unfold on_field. destruct (lookup n (c_fields (p_coll s))) as [r1|] eqn:L; [|exists r; split; [exact G|reflexivity]].
    destruct (opf (rf_field r1)) as [f' o]. unfold get_field, with_fields in *. cbn [fst c_fields]. rewrite lookup_insert.
    destruct (String.eqb_spec name n) as [->|N].
    + rewrite L in G. apply Ok_inj in G. subst r1. eexists. split; [reflexivity|]. reflexivity.
    + exists r. split; [exact G|reflexivity].
  - exists r. split; [exact G|reflexivity].
Qed.
Lemma pyrun_type l : forall s name r, get_field (p_coll s) name = Ok r ->
  exists r', get_field (p_coll (pyrun zero junk s l)) name = Ok r' /\ rf_type r' = rf_type r.
Proof.
  induction l as [|k l IH]; intros s name r G; [exists r; split; [exact G|reflexivity]|].
  destruct (pystep_type s k name r G) as (r1 & G1 & T1). destruct (IH _ _ _ G1) as (r2 & G2 & T2).
  exists r2. split; [exact G2|congruence].
Qed.
Lemma registered_type s name ty comp tag u al s1 : pystep zero junk s (PColl (ORegister name ty comp tag u al)) = (s1, Ok tt) ->
  exists r, get_field (p_coll s1) name = Ok r /\ rf_type r = ty.
Proof.
  cbn [pystep from_python step]. destruct (register_field zero (p_coll s) name ty comp tag u al) as [c' o] eqn:E.
  intros H. injection H as <- ->. cbn [p_coll].
  destruct (lookup name (c_fields (p_coll s))) as [r0|] eqn:L.
  - assert (G : get_field (p_coll s) name = Ok r0) by (unfold get_field; now rewrite L).
    destruct (register_existing zero (p_coll s) name ty comp tag u al r0 G) as [X Y]. rewrite E in X, Y. cbn [fst snd] in X, Y.
    subst c'. exists r0. split; [exact G|]. now destruct (proj1 Y eq_refl) as (_ & T & _).
  - pose proof (register_fresh zero (p_coll s) name ty comp tag u al L) as X. rewrite E in X.
    destruct X as [_ X]. destruct (X eq_refl) as ((r & G & _ & _ & T & _) & _). exists r. split; assumption.
Qed.
Lemma typed_program s name ty comp tag u al s1 l : pystep zero junk s (PColl (ORegister name ty comp tag u al)) = (s1, Ok tt) ->
  exists r, get_field (p_coll (pyrun zero junk s1 l)) name = Ok r /\
    forall ty', py_get_field ty' (p_coll (pyrun zero junk s1 l)) name = if ftype_eqb ty' ty then Ok r else Err RuntimeError.
Proof.
  intros H. destruct (registered_type _ _ _ _ _ _ _ _ H) as (r & G & T). destruct (pyrun_type l _ _ _ G) as (r' & G' & T').
  exists r'. split; [exact G'|]. intros ty'. destruct (ftype_eqb ty' ty) eqn:E.
  - apply ftype_eqb_true in E. apply typed_ok. split; [exact G'|congruence].
  - apply (typed_other ty' _ _ r' G'). intros X. assert (ftype_eqb ty' ty = true) by (apply ftype_eqb_true; congruence). congruence.
Qed.
End Programs.

(** ** Matrices *)
Lemma nth_error_ext_ {B} : forall (a b : list B), (forall n, nth_error a n = nth_error b n) -> a = b.
Proof.
  induction a as [|x a IH]; intros [|y b] H; [reflexivity|discriminate (H 0%nat)|discriminate (H 0%nat)|].
  pose proof (H 0%nat) as E. cbn in E. injection E as ->. apply f_equal. apply IH. intros n. exact (H (S n)).
Qed.
Lemma blocks_nth {B} (g : nat -> nat -> B) r k : forall a n, (n < r * k)%nat ->
  nth_error (flat_map (fun j => map (g j) (seq 0 r)) (seq a k)) n = Some (g (a + n / r) (n mod r))%nat.
Proof.
  induction k as [|k IH]; intros a n H; [lia|]. cbn [seq flat_map].
  assert (R : (r <> 0)%nat) by lia.
  destruct (Nat.lt_ge_cases n r) as [L|L].
  - rewrite nth_error_app1 by (rewrite map_length, seq_length; exact L). rewrite nth_error_map.
    rewrite (nth_error_nth' (seq 0 r) 0%nat) by (rewrite seq_length; exact L). rewrite seq_nth by exact L. cbn [option_map].
    rewrite Nat.div_small, Nat.mod_small by exact L. now rewrite Nat.add_0_r.
  - rewrite nth_error_app2 by (rewrite map_length, seq_length; exact L). rewrite map_length, seq_length.
    rewrite IH by lia. replace n with ((n - r) + 1 * r)%nat at 3 4 by lia. rewrite Nat.div_add, Nat.mod_add by exact R.
    do 2 f_equal. lia.
Qed.
Lemma blocks_length {B} (g : nat -> nat -> B) r k : forall a, length (flat_map (fun j => map (g j) (seq 0 r)) (seq a k)) = (r * k)%nat.
Proof. induction k as [|k IH]; intros a; cbn [seq flat_map]; [cbn; lia|]. rewrite app_length, map_length, seq_length, IH. lia. Qed.
Lemma columns_nth {A} (zero : A) r k l n : (n < r * k)%nat -> nth_error (by_columns zero r k l) n = Some (nth ((n mod r) * k + n / r) l zero).
Proof. intros H. unfold by_columns. now rewrite (blocks_nth (fun j i => nth (i * k + j) l zero)) by exact H. Qed.
Lemma columns_length {A} (zero : A) r k l : length (by_columns zero r k l) = (r * k)%nat.
Proof. apply (blocks_length (fun j i => nth (i * k + j) l zero)). Qed.
Lemma rows_nth {A} (zero : A) r k l n : (n < r * k)%nat -> nth_error (by_rows zero r k l) n = Some (nth (n / k + r * (n mod k)) l zero).
Proof. intros H. unfold by_rows. now rewrite (blocks_nth (fun i j => nth (i + r * j) l zero)) by lia. Qed.
Lemma rows_length {A} (zero : A) r k l : length (by_rows zero r k l) = (r * k)%nat.
Proof. unfold by_rows. rewrite (blocks_length (fun i j => nth (i + r * j) l zero)). lia. Qed.
Lemma in_block i j r k : (i < r)%nat -> (j < k)%nat -> (i * k + j < r * k)%nat.
Proof. intros Hi Hj. assert (S i * k <= r * k)%nat by (apply Nat.mul_le_mono_r; lia). lia. Qed.
Lemma rows_of_columns {A} (zero : A) r k l : length l = (r * k)%nat -> by_rows zero r k (by_columns zero r k l) = l.
Proof.
  intros L. apply nth_error_ext_. intros n. destruct (Nat.lt_ge_cases n (r * k)) as [H|H].
  - rewrite rows_nth by exact H. assert (K : (k <> 0)%nat) by lia. assert (R : (r <> 0)%nat) by lia.
    assert (D : (n / k < r)%nat) by (apply Nat.div_lt_upper_bound; lia). pose proof (Nat.mod_upper_bound n k K) as M.
    assert (B : (n / k + r * (n mod k) < r * k)%nat).
    { pose proof (in_block (n mod k) (n / k) k r M D). lia. }
    rewrite (nth_error_nth _ _ _ (columns_nth zero r k l _ B)).
    replace (n / k + r * (n mod k))%nat with (n / k + (n mod k) * r)%nat by lia.
    rewrite Nat.mod_add, Nat.div_add by exact R. rewrite (Nat.mod_small _ _ D), (Nat.div_small _ _ D). cbn [Nat.add].
    rewrite (nth_error_nth' l zero) by lia. f_equal. f_equal. pose proof (Nat.div_mod n k K). lia.
  - rewrite !(proj2 (nth_error_None _ _)); [reflexivity|lia|rewrite rows_length; lia].
Qed.

(** ** Maps *)
Section Maps.
Context {A : Type} (zero : A).
Lemma write_loop_vals m op val : forall k i (f f' : field A), map_write_loop m op val k i f = Ok f' -> exists v, f' = with_vals f v.
Proof.
  induction k as [|k IH]; intros i f f' H; cbn [map_write_loop] in H.
  - apply Ok_inj in H. exists (f_vals f). subst f'. now destruct f.
  - destruct (map_entry m f i) as [e| |]; [|discriminate|discriminate]. cbn [bind] in H. destruct (IH _ _ _ H) as (v & ->). exists v. reflexivity.
Qed.
Lemma mapM_nth {B C} (g : B -> res C) : forall l es i x, mapM g l = Ok es -> nth_error l i = Some x -> exists e, g x = Ok e /\ nth_error es i = Some e.
Proof.
  induction l as [|y l IH]; intros es i x H N; [destruct i; discriminate|]. cbn [mapM] in H.
  destruct (g y) as [e| |] eqn:E; [|discriminate|discriminate]. cbn [bind] in H.
  destruct (mapM g l) as [es'| |] eqn:E'; [|discriminate|discriminate]. cbn [bind] in H. apply Ok_inj in H. subst es.
  destruct i as [|i]; [injection N as <-; exists e; split; [exact E|reflexivity]|]. exact (IH es' i x eq_refl N).
Qed.
Lemma zip_second : forall (e val : list A), length e = length val -> zip_with (fun _ x => x) e val = val.
Proof.
  unfold zip_with. induction e as [|x e IH]; intros [|y val] H; cbn in *; try discriminate; [reflexivity|]. now rewrite IH by lia.
Qed.
Lemma new_map_vals (f : field A) v u rows : new_map (with_vals f v) u rows = new_map f u rows.
Proof. reflexivity. Qed.
Lemma rows_none_unknown a rows : rows_argument a = Some rows -> rows <> Some (-1).
Proof.
  unfold rows_argument. destruct a as [x|]; [|congruence]. destruct (overloads _) as [n|]; [|discriminate]. cbn [option_map].
  intros H. injection H as <-. destruct (Z.eqb_spec n unknown); unfold unknown in *; congruence.
Qed.
Lemma py_map_ok (c : coll A) name u a m : py_map c name u a = Some (Ok m) ->
  exists r rows, rows_argument a = Some rows /\ get_field c name = Ok r /\ new_map (rf_field r) u rows = Ok (q_map m) /\ q_name m = name /\ q_type m = rf_type r.
Proof.
  unfold py_map. destruct (rows_argument a) as [rows|]; [|discriminate]. cbn [option_map]. intros H. injection H as H.
  destruct (get_field c name) as [r| |]; [|discriminate|discriminate]. cbn [bind] in H.
  destruct (new_map (rf_field r) u rows) as [fm| |] eqn:E; [|discriminate|discriminate]. cbn [bind] in H. apply Ok_inj in H. subst m.
  exists r, rows. auto.
Qed.
Lemma suits_loads (a : ndarray A) ty rows cols : suits a ty rows cols -> load_value ty (VArray a) = Some (Z.to_nat rows, Z.to_nat cols, d_entries a).
Proof.
  intros (T & W & R & D & L). unfold load_value. rewrite T, W, R. rewrite (proj2 (ftype_eqb_true ty ty) eq_refl). cbn [andb negb].
  destruct D as [-> | [-> ->]]; reflexivity.
Qed.
Lemma block_bounds (f : field A) u m rows : ready f -> new_map f u rows = Ok m -> m_rows m * m_cols m = scalars_per_entry f u /\ 0 < scalars_per_entry f u.
Proof. intros R N. split; [exact (proj2 (m_stride_per _ _ _ _ N))|now apply per_pos]. Qed.

Theorem uniform (c : coll A) name r u a m x : get_field c name = Ok r -> ready (rf_field r) -> unpadded (rf_field r) ->
  py_map c name u a = Some (Ok m) -> 0 < m_rows (q_map m) -> suits x (rf_type r) (m_rows (q_map m)) (m_cols (q_map m)) ->
  exists c' r', py_set_uniform zero c m (VArray x) = Some (c', Ok tt) /\ get_field c' name = Ok r' /\
    (forall n, n <> name -> get_field c' n = get_field c n) /\ ready (rf_field r') /\ unpadded (rf_field r') /\
    f_lay (rf_field r') = f_lay (rf_field r) /\ rf_type r' = rf_type r /\ py_map c' name u a = Some (Ok m) /\
    (forall i, 0 <= i < entries_of (rf_field r) u -> map_entry (q_map m) (rf_field r') i = Ok (by_columns zero (Z.to_nat (m_rows (q_map m))) (Z.to_nat (m_cols (q_map m))) (d_entries x))).
Proof.
  intros G R U P Pos S. destruct (py_map_ok _ _ _ _ _ P) as (r0 & rows & RA & G0 & N & Q & T). rewrite G in G0. apply Ok_inj in G0. subst r0.
  destruct (block_bounds _ _ _ _ R N) as [BE BP]. set (fm := q_map m) in *.
  assert (PC : 0 < m_cols fm) by (clear - BE BP Pos; nia).
  set (val := by_columns zero (Z.to_nat (m_rows fm)) (Z.to_nat (m_cols fm)) (d_entries x)).
  assert (LV : Z.of_nat (length val) = m_rows fm * m_cols fm) by (unfold val; rewrite columns_length; nia).
  destruct (map_update_spec (fun _ x => x) (rf_field r) u rows fm (m_rows fm) (m_cols fm) val R U N eq_refl eq_refl LV)
    as (f' & es & MU & R' & L' & MI & MI' & _).
  assert (V : exists v, f' = with_vals (rf_field r) v).
  { unfold map_update in MU. rewrite !Z.eqb_refl in MU. cbn [andb negb] in MU. destruct (m_init fm); [|discriminate]. cbn [negb] in MU.
    now apply write_loop_vals in MU. }
  assert (LK : lookup name (c_fields c) = Some r).
  { unfold get_field in G. destruct (lookup name (c_fields c)); [|discriminate]. apply Ok_inj in G. now subst. }
  exists (with_fields c (insert name (set_field r f') (c_fields c))), (set_field r f').
  assert (G' : get_field (with_fields c (insert name (set_field r f') (c_fields c))) name = Ok (set_field r f')).
  { unfold get_field, with_fields. cbn [c_fields]. now rewrite lookup_insert_same. }
  split.
  { unfold py_set_uniform. rewrite T, (suits_loads _ _ _ _ S). cbn [option_map]. rewrite Q. unfold on_field. rewrite LK. unfold keep.
    fold fm. rewrite !Z2Nat.id by lia. fold val. rewrite MU. reflexivity. }
  split; [exact G'|]. split.
  { intros n Hn. unfold get_field, with_fields. cbn [c_fields]. now rewrite lookup_insert_other. }
  cbn [rf_field set_field]. split; [exact R'|]. split; [unfold unpadded in *; now rewrite L'|]. split; [exact L'|]. split; [reflexivity|]. split.
  { unfold py_map. rewrite RA. cbn [option_map]. rewrite G'. cbn [bind rf_field set_field rf_type]. destruct V as (v & ->). rewrite new_map_vals, N. cbn [bind].
    rewrite <- Q, <- T. now destruct m. }
  intros i Hi. destruct (map_partition _ _ _ _ R U N) as (es0 & MI0 & LE & SZ & FA & _). rewrite MI in MI0. apply Ok_inj in MI0. subst es0.
  assert (U' : unpadded f') by (unfold unpadded in *; now rewrite L').
  unfold map_iterate in MI'. destruct (m_init fm); [|discriminate]. cbn [negb] in MI'.
  assert (SZ' : map_size fm f' = entries_of (rf_field r) u).
  { rewrite <- SZ. destruct V as (v & ->). reflexivity. }
  rewrite SZ' in MI'.
  assert (NE : nth_error (zrange (Z.to_nat (entries_of (rf_field r) u))) (Z.to_nat i) = Some i).
  { unfold zrange. rewrite nth_error_map. rewrite (nth_error_nth' (seq 0 (Z.to_nat (entries_of (rf_field r) u))) 0%nat) by (rewrite seq_length; lia).
    rewrite seq_nth by lia. cbn [option_map Nat.add]. apply f_equal. lia. }
  destruct (mapM_nth _ _ _ _ _ MI' NE) as (e & E & X). rewrite E. apply f_equal. rewrite nth_error_map in X.
  destruct (nth_error es (Z.to_nat i)) as [e0|] eqn:X0; [|discriminate]. cbn [option_map] in X. injection X as <-.
  apply zip_second. rewrite Forall_forall in FA. apply nth_error_In in X0. apply FA in X0. lia.
Qed.

Lemma zin_block i j r k : 0 <= i < r -> 0 <= j < k -> 0 <= i * k + j < r * k.
Proof. intros Hi Hj. split; [apply Z.add_nonneg_nonneg; [apply Z.mul_nonneg_nonneg|]; lia|]. assert ((i + 1) * k <= r * k) by (apply Z.mul_le_mono_nonneg_r; lia). lia. Qed.
Lemma columns_rd rows cols (l : list A) k : 0 < rows -> 0 < cols -> length l = (Z.to_nat rows * Z.to_nat cols)%nat -> 0 <= k < rows * cols ->
  exists x, rd (by_columns zero (Z.to_nat rows) (Z.to_nat cols) l) k = Ok x /\ nth_error l (Z.to_nat (k mod rows * cols + k / rows)) = Some x.
Proof.
  intros Hr Hc L H. unfold rd. rewrite (proj2 (Z.ltb_ge k 0)) by lia.
  assert (B : (Z.to_nat k < Z.to_nat rows * Z.to_nat cols)%nat) by (rewrite <- Z2Nat.inj_mul by lia; apply Z2Nat.inj_lt; lia).
  rewrite columns_nth by exact B. eexists. split; [reflexivity|].
  pose proof (Z.mod_pos_bound k rows Hr) as M. assert (D : 0 <= k / rows < cols) by (split; [apply Z.div_pos; lia|apply Z.div_lt_upper_bound; lia]).
  assert (E : Z.to_nat (k mod rows * cols + k / rows) = (Z.to_nat k mod Z.to_nat rows * Z.to_nat cols + Z.to_nat k / Z.to_nat rows)%nat).
  { rewrite Z2Nat.inj_add by (try apply Z.mul_nonneg_nonneg; lia). rewrite Z2Nat.inj_mul by lia. now rewrite Z2Nat.inj_mod, Z2Nat.inj_div by lia. }
  pose proof (zin_block _ _ _ _ M D) as ZB. rewrite <- E. apply nth_error_nth'. rewrite L. rewrite <- Z2Nat.inj_mul by lia. apply Z2Nat.inj_lt; lia.
Qed.
Lemma place_bound (f : field A) u comp q : ready f -> in_shape (l_comp (f_lay f)) comp -> 0 <= q < l_nsub (f_lay f) ->
  0 <= place f u comp q < scalars_per_entry f u.
Proof.
  intros R Hc Hq. assert (S : sane (f_lay f)) by apply R.
  assert (B := bij_running (l_comp (f_lay f)) ltac:(apply S)). destruct B as (_ & W & _). specialize (W comp Hc).
  assert (Ec : l_nbc (f_lay f) = zprod (l_comp (f_lay f))) by apply S. rewrite <- Ec in W.
  unfold place, scalars_per_entry. destruct u; [|lia]. clear -W Hq. nia.
Qed.

(** Every value of the field is the element of the array at its place. *)
Theorem uniform_values (c : coll A) name r u a m x : get_field c name = Ok r -> ready (rf_field r) -> unpadded (rf_field r) ->
  py_map c name u a = Some (Ok m) -> 0 < m_rows (q_map m) -> suits x (rf_type r) (m_rows (q_map m)) (m_cols (q_map m)) ->
  exists c' r', py_set_uniform zero c m (VArray x) = Some (c', Ok tt) /\ get_field c' name = Ok r' /\
    (forall n, n <> name -> get_field c' n = get_field c n) /\ f_lay (rf_field r') = f_lay (rf_field r) /\ rf_type r' = rf_type r /\
    forall comp q p, in_shape (l_comp (f_lay (rf_field r))) comp -> 0 <= q < l_nsub (f_lay (rf_field r)) -> in_shape (l_pix (f_lay (rf_field r))) p ->
      let k := place (rf_field r) u comp q in
      exists v, value (rf_field r') (comp ++ [q] ++ p) = Ok v /\ element x (m_cols (q_map m)) (k mod m_rows (q_map m)) (k / m_rows (q_map m)) = Some v.
Proof.
  intros G R U P Pos S. destruct (uniform c name r u a m x G R U P Pos S) as (c' & r' & SU & G' & O & R' & U' & L' & T' & P' & E).
  exists c', r'. split; [exact SU|]. split; [exact G'|]. split; [exact O|]. split; [exact L'|]. split; [exact T'|].
  intros comp q p Hc Hq Hp k. destruct (py_map_ok _ _ _ _ _ P') as (r0 & rows & RA & G0 & N & Q & T). rewrite G' in G0. apply Ok_inj in G0. subst r0.
  pose proof (place_bound (rf_field r) u comp q R Hc Hq) as B.
  destruct (block_bounds _ _ _ _ R' N) as [BE BP].
  assert (SE : scalars_per_entry (rf_field r') u = scalars_per_entry (rf_field r) u) by (unfold scalars_per_entry; now rewrite L').
  assert (EE : entries_of (rf_field r') u = entries_of (rf_field r) u) by (unfold entries_of; now rewrite L').
  rewrite SE in BE. assert (PC : 0 < m_cols (q_map m)) by (clear - BE BP Pos SE; rewrite SE in BP; nia).
  destruct (columns_rd (m_rows (q_map m)) (m_cols (q_map m)) (d_entries x) k Pos PC ltac:(apply S) ltac:(unfold k; lia)) as (v & RD & NV).
  exists v. split; [|exact NV]. rewrite <- L' in Hc, Hq, Hp. destruct u.
  - destruct (pixel_entry_value (rf_field r') rows (q_map m) comp q p R' U' N Hc Hq Hp) as (Hi & e & En & V).
    rewrite (map_size_ready _ _ _ _ R' U' N) in Hi. rewrite EE in Hi. rewrite (E _ Hi) in En. apply Ok_inj in En. subst e.
    rewrite <- V. rewrite L'. exact RD.
  - destruct (sub_pt_entry_value (rf_field r') rows (q_map m) comp q p R' U' N Hc Hq Hp) as (Hi & e & En & V).
    rewrite (map_size_ready _ _ _ _ R' U' N) in Hi. rewrite EE in Hi. rewrite (E _ Hi) in En. apply Ok_inj in En. subst e.
    rewrite <- V. rewrite L'. unfold k, place in RD. rewrite Z.add_0_r in RD. exact RD.
Qed.

(** The mean, entry by entry. *)
Theorem mean_elements (add : A -> A -> A) (div : A -> Z -> A) (c : coll A) name r u a m : get_field c name = Ok r -> ready (rf_field r) -> unpadded (rf_field r) ->
  py_map c name u a = Some (Ok m) -> 0 < m_rows (q_map m) ->
  exists s, py_mean zero add div c m = Ok s /\ d_type s = Some (rf_type r) /\ d_writeable s = true /\ d_reversed s = false /\
    d_dims s = [Z.to_nat (m_rows (q_map m)); Z.to_nat (m_cols (q_map m))] /\
    length (d_entries s) = (Z.to_nat (m_rows (q_map m)) * Z.to_nat (m_cols (q_map m)))%nat /\
    exists es, map_iterate (q_map m) (rf_field r) = Ok es /\ Z.of_nat (length es) = entries_of (rf_field r) u /\
    forall i j, 0 <= i < m_rows (q_map m) -> 0 <= j < m_cols (q_map m) ->
      element s (m_cols (q_map m)) i j =
      Some (match es with [] => zero | _ => div (fold_left add (map (fun e => nth (Z.to_nat (i + m_rows (q_map m) * j)) e zero) es) zero) (entries_of (rf_field r) u) end).
Proof.
  intros G R U P Pos. destruct (py_map_ok _ _ _ _ _ P) as (r0 & rows & RA & G0 & N & Q & T). rewrite G in G0. apply Ok_inj in G0. subst r0.
  destruct (block_bounds _ _ _ _ R N) as [BE BP]. set (fm := q_map m) in *. assert (PC : 0 < m_cols fm) by (clear - BE BP Pos; nia).
  destruct (map_sum_spec zero add (rf_field r) u rows fm R U N) as (s & ES & LS & NS).
  destruct (map_mean_spec zero add div (rf_field r) u rows fm R U N) as (s' & ES' & EM). rewrite ES in ES'. apply Ok_inj in ES'. subst s'.
  unfold py_mean. rewrite Q, G. cbn [bind]. fold fm. rewrite EM. cbn [bind]. eexists. split; [reflexivity|]. cbn [d_type d_writeable d_reversed d_dims d_entries].
  split; [now rewrite T|]. split; [reflexivity|]. split; [reflexivity|]. split; [reflexivity|]. split; [apply rows_length|].
  pose proof (iterate_blocks (rf_field r) u rows fm R U N) as IB. eexists. split; [exact IB|].
  pose proof (count_nonneg (rf_field r) u R) as CN. split; [rewrite map_length, seq_length; lia|].
  intros i j Hi Hj. unfold element. cbn [d_entries].
  assert (BN : (Z.to_nat (i * m_cols fm + j) < Z.to_nat (m_rows fm) * Z.to_nat (m_cols fm))%nat).
  { pose proof (zin_block _ _ _ _ Hi Hj) as ZB. rewrite <- Z2Nat.inj_mul by lia. apply Z2Nat.inj_lt; lia. }
  rewrite rows_nth by exact BN. apply f_equal.
  assert (EI : (Z.to_nat (i * m_cols fm + j) / Z.to_nat (m_cols fm) + Z.to_nat (m_rows fm) * (Z.to_nat (i * m_cols fm + j) mod Z.to_nat (m_cols fm)))%nat
             = Z.to_nat (i + m_rows fm * j)).
  { pose proof (zin_block _ _ _ _ Hi Hj) as ZB. rewrite <- Z2Nat.inj_div, <- Z2Nat.inj_mod by lia. rewrite Z.add_comm, Z.mod_add, Z.div_add by lia. rewrite Z.mod_small, Z.div_small by lia.
    rewrite Z.add_0_l. rewrite (Z2Nat.inj_add i) by (try apply Z.mul_nonneg_nonneg; lia). rewrite Z2Nat.inj_mul by lia. reflexivity. }
  rewrite EI. set (k := i + m_rows fm * j) in *. assert (HK : 0 <= k < m_rows fm * m_cols fm) by (unfold k; pose proof (zin_block _ _ _ _ Hj Hi); lia).
  destruct (Z.eqb_spec (entries_of (rf_field r) u) 0) as [E0|E0].
  - rewrite E0. cbn [Z.to_nat seq map]. rewrite nth_repeat. reflexivity.
  - destruct (seq 0 (Z.to_nat (entries_of (rf_field r) u))) as [|z0 zs] eqn:SQ; [apply f_equal with (f := @length nat) in SQ; rewrite seq_length in SQ; cbn in SQ; lia|].
    rewrite <- SQ in *. replace (map (block (f_vals (rf_field r)) (Z.to_nat (scalars_per_entry (rf_field r) u))) (seq 0 (Z.to_nat (entries_of (rf_field r) u))))
      with (map (block (f_vals (rf_field r)) (Z.to_nat (scalars_per_entry (rf_field r) u))) (z0 :: zs)) at 1 by (now rewrite SQ).
    cbn [map]. rewrite (nth_indep _ zero (div zero (entries_of (rf_field r) u))) by (rewrite map_length; lia).
    rewrite (map_nth (fun x => div x (entries_of (rf_field r) u))). rewrite (NS k HK). apply (f_equal (fun x => div x (entries_of (rf_field r) u))).
    apply (f_equal (fun l => fold_left add l zero)). rewrite map_map. apply map_ext_in. intros b Hb. apply in_seq in Hb.
    rewrite block_nth by lia. apply (f_equal (fun n => nth n (f_vals (rf_field r)) zero)).
    rewrite (proj1 (m_stride_per _ _ _ _ N)). rewrite Z2Nat.inj_add by (try apply Z.mul_nonneg_nonneg; lia). rewrite Z2Nat.inj_mul, Nat2Z.id by lia. reflexivity.
Qed.

(** The mean after [set_uniform] is what was set. *)
Theorem uniform_mean (add : A -> A -> A) (div : A -> Z -> A) (c : coll A) name r u a m x : (forall n v, 0 < n -> div (copies zero add n v) n = v) ->
  get_field c name = Ok r -> ready (rf_field r) -> unpadded (rf_field r) -> 0 < entries_of (rf_field r) u ->
  py_map c name u a = Some (Ok m) -> 0 < m_rows (q_map m) -> suits x (rf_type r) (m_rows (q_map m)) (m_cols (q_map m)) ->
  exists c' s, py_set_uniform zero c m (VArray x) = Some (c', Ok tt) /\ py_mean zero add div c' m = Ok s /\ d_entries s = d_entries x /\
    d_dims s = [Z.to_nat (m_rows (q_map m)); Z.to_nat (m_cols (q_map m))].
Proof.
  intros DV G R U EP P Pos S. destruct (uniform c name r u a m x G R U P Pos S) as (c' & r' & SU & G' & O & R' & U' & L' & T' & P' & E).
  exists c'. destruct (py_map_ok _ _ _ _ _ P') as (r0 & rows & RA & G0 & N & Q & T). rewrite G' in G0. apply Ok_inj in G0. subst r0.
  assert (EE : entries_of (rf_field r') u = entries_of (rf_field r) u) by (unfold entries_of; now rewrite L').
  destruct (block_bounds _ _ _ _ R' N) as [BE BP]. set (fm := q_map m) in *. assert (PC : 0 < m_cols fm) by (clear - BE BP Pos; nia).
  set (val := by_columns zero (Z.to_nat (m_rows fm)) (Z.to_nat (m_cols fm)) (d_entries x)) in *.
  assert (LV : length val = Z.to_nat (m_rows fm * m_cols fm)) by (unfold val; rewrite columns_length, Z2Nat.inj_mul by lia; reflexivity).
  destruct (map_sum_spec zero add (rf_field r') u rows fm R' U' N) as (s & ES & LS & NS).
  destruct (map_mean_spec zero add div (rf_field r') u rows fm R' U' N) as (s' & ES' & EM). rewrite ES in ES'. apply Ok_inj in ES'. subst s'.
  assert (VM : map (fun y => div y (entries_of (rf_field r') u)) s = val).
  { apply nth_error_ext_. intros n. destruct (Nat.lt_ge_cases n (length val)) as [H|H].
    - rewrite nth_error_map. rewrite (nth_error_nth' s zero) by lia. cbn [option_map]. rewrite (nth_error_nth' val zero) by exact H. apply f_equal.
      specialize (NS (Z.of_nat n) ltac:(lia)). rewrite Nat2Z.id in NS. rewrite NS.
      assert (EN : map (fun i => nth (Z.to_nat (Z.of_nat i * m_stride fm + Z.of_nat n)) (f_vals (rf_field r')) zero) (seq 0 (Z.to_nat (entries_of (rf_field r') u)))
                 = repeat (nth n val zero) (Z.to_nat (entries_of (rf_field r') u))).
      { transitivity (map (fun _ : nat => nth n val zero) (seq 0 (Z.to_nat (entries_of (rf_field r') u)))).
        - apply map_ext_in. intros i Hi. apply in_seq in Hi. specialize (E (Z.of_nat i) ltac:(lia)).
          rewrite (entry_block _ _ _ _ _ R' U' N) in E by lia. apply Ok_inj in E. rewrite <- E. rewrite Nat2Z.id. rewrite block_nth by lia.
          apply (f_equal (fun z => nth z (f_vals (rf_field r')) zero)). rewrite (proj1 (m_stride_per _ _ _ _ N)). rewrite Z2Nat.inj_add by (try apply Z.mul_nonneg_nonneg; lia). rewrite Z2Nat.inj_mul, !Nat2Z.id by lia. reflexivity.
        - assert (GEN : forall b a0, map (fun _ : nat => nth n val zero) (seq a0 b) = repeat (nth n val zero) b).
          { induction b as [|b IHb]; intros a0; cbn [seq map repeat]; [reflexivity|]. now rewrite IHb. }
          apply GEN. }
      rewrite EN. apply DV. lia.
    - rewrite !(proj2 (nth_error_None _ _)); [reflexivity|exact H|rewrite map_length; lia]. }
  unfold py_mean. rewrite Q, G'. cbn [bind]. fold fm. rewrite EM. rewrite VM. destruct (Z.eqb_spec (entries_of (rf_field r') u) 0) as [X|_]; [lia|].
  cbn [bind]. eexists. split; [exact SU|]. split; [reflexivity|]. cbn [d_entries d_dims]. split; [|reflexivity].
  apply rows_of_columns. apply S.
Qed.

(** What is not taken changes nothing. *)
Lemma not_loaded (c : coll A) m v : load_value (q_type m) v = None -> py_set_uniform zero c m v = None.
Proof. intros H. unfold py_set_uniform. now rewrite H. Qed.
Lemma wrong_shape (c : coll A) name r u a m x rows cols : get_field c name = Ok r -> py_map c name u a = Some (Ok m) ->
  suits x (rf_type r) rows cols -> 0 <= rows -> 0 <= cols -> rows <> m_rows (q_map m) \/ cols <> m_cols (q_map m) ->
  exists c', py_set_uniform zero c m (VArray x) = Some (c', Err FieldMapError) /\ forall n, get_field c' n = get_field c n.
Proof.
  intros G P S Hr Hc D. destruct (py_map_ok _ _ _ _ _ P) as (r0 & rw & RA & G0 & N & Q & T). rewrite G in G0. apply Ok_inj in G0. subst r0.
  assert (LK : lookup name (c_fields c) = Some r).
  { unfold get_field in G. destruct (lookup name (c_fields c)); [|discriminate]. apply Ok_inj in G. now subst. }
  unfold py_set_uniform. rewrite T, (suits_loads _ _ _ _ S). cbn [option_map]. rewrite Q. unfold on_field. rewrite LK. unfold keep.
  rewrite !Z2Nat.id by lia. rewrite map_update_mismatch by exact D. eexists. split; [reflexivity|].
  intros n. unfold get_field, with_fields. cbn [c_fields]. rewrite lookup_insert. destruct (String.eqb_spec n name) as [->|]; [|reflexivity].
  rewrite LK. now destruct r.
Qed.
End Maps.

(** ** State fields *)
Lemma old_steps {A} (y : sys A) p n : py_old y p (Some (NInt n)) = if (0 <=? n) && (n <=? 2 ^ 64 - 1) then Some (field_at y p (Z.to_nat n)) else None.
Proof. unfold py_old, load_integer, within_type. destruct ((0 <=? n) && (n <=? 2 ^ 64 - 1)); reflexivity. Qed.
Lemma old_given {A} (y : sys A) p s : get_state y p = Ok s ->
  py_old y p (Some (NInt 0)) = Some (py_current y p) /\ py_old y p None = py_old y p (Some (NInt 1)) /\
  (forall n, 0 <= n < Z.of_nat (length (s_idx s)) -> n < 2 ^ 64 -> py_old y p (Some (NInt n)) = Some (field_at y p (Z.to_nat n))) /\
  (forall n, Z.of_nat (length (s_idx s)) <= n < 2 ^ 64 -> py_old y p (Some (NInt n)) = Some (Err OutOfRange)) /\
  (forall n, n < 0 -> py_old y p (Some (NInt n)) = None) /\
  (forall b, py_old y p (Some (NFloat b)) = None) /\ (forall re im, py_old y p (Some (NComplex re im)) = None).
Proof.
  intros G. split; [now rewrite old_steps|]. split; [reflexivity|]. split.
  { intros n H L. rewrite old_steps. rewrite (proj2 (Z.leb_le 0 n)), (proj2 (Z.leb_le n _)) by lia. reflexivity. }
  split.
  { intros n H. rewrite old_steps. rewrite (proj2 (Z.leb_le 0 n)), (proj2 (Z.leb_le n _)) by lia. cbn [andb]. apply f_equal.
    unfold field_at, name_at, slot. rewrite G. cbn [bind]. rewrite (proj2 (nth_error_None _ _)) by lia. reflexivity. }
  split; [intros n H; rewrite old_steps; now rewrite (proj2 (Z.leb_gt 0 n)) by lia|]. split; reflexivity.
Qed.
(** ** Rows *)
Lemma rows_integer n : - 2 ^ 63 <= n < 2 ^ 63 -> rows_argument (Some (ANum (NInt n))) = Some (if n =? unknown then None else Some n).
Proof.
  intros H. unfold rows_argument, overloads, first_fit, load_index, load64, load_scalar, load_integer, within_type. 
  destruct (Z.leb_spec (- 2 ^ 63) n) as [X|X]; [|lia]. destruct (Z.leb_spec n (2 ^ 63 - 1)) as [Y|Y]; [|lia]. reflexivity.
Qed.
Lemma rows_given {A} (c : coll A) name u : py_map c name u None = py_map c name u (Some (ANum (NInt (-1)))) /\
  (forall n r, n <> -1 -> - 2 ^ 63 <= n < 2 ^ 63 -> get_field c name = Ok r ->
     py_map c name u (Some (ANum (NInt n))) = Some (let! m := new_map (rf_field r) u (Some n) in Ok (mk_pymap name (rf_type r) m))) /\
  (forall b, py_map c name u (Some (ANum (NFloat b))) = None).
Proof.
  split; [unfold py_map; rewrite rows_integer by lia; reflexivity|]. split; [|reflexivity].
  intros n r N H G. unfold py_map. rewrite rows_integer by exact H. destruct (Z.eqb_spec n unknown) as [E|E]; [unfold unknown in E; lia|].
  cbn [option_map]. rewrite G. reflexivity.
Qed.
Lemma zero_rows {A} (c : coll A) name r u : get_field c name = Ok r -> (u = Pixel -> has_nsub (rf_field r) = true) ->
  py_map c name u (Some (ANum (NInt 0))) = Some UB.
Proof.
  intros G K. destruct (rows_given c name u) as (_ & H & _). rewrite (H 0 r) by (assumption || lia). apply f_equal.
  unfold new_map, map_rows, get_stride. destruct u; [rewrite K by reflexivity|]; reflexivity.
Qed.

Lemma fold_copies v : forall n z, fold_left Z.add (repeat v n) z = z + Z.of_nat n * v.
Proof. induction n as [|n IH]; intros z; cbn [repeat fold_left]; [lia|]. rewrite IH. lia. Qed.
Lemma copies_integers : forall n v, 0 < n -> Z.quot (copies 0 Z.add n v) n = v.
Proof. intros n v H. unfold copies. rewrite fold_copies, Z2Nat.id by lia. rewrite Z.add_0_l, Z.mul_comm. apply Z.quot_mul. lia. Qed.
