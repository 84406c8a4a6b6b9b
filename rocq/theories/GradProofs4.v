(** The matrix built by the constructor, and the value of the gradient. *)
From Coq Require Import ZArith Ring Permutation.
From Verif Require Import Base GridModel GridSpec GridProofs3 RingModel RingProofs GradModel GradSpec GradProofs GradProofs2 GradProofs3.
Local Open Scope list_scope.

Section Construct.
Context {R : Type} (o : ops R).

(** Column of node [i] of element [e]. *)
Definition lin (npn : nat) (d : discretisation R) (e i : nat) : nat := (node d e i + npn * Z.to_nat (bin (offset d e i)))%nat.

Lemma map_zn_seq_sd sd (l : list Z) : length l = sd -> map (fun k => zn l k) (seq 0 sd) = l.
Proof. intros <-. apply map_zn_seq. Qed.

Lemma valid_bits sd ne nen npn (d : discretisation R) e i : valid_disc sd ne nen npn d -> (e < ne)%nat -> (i < nen)%nat -> bit_list sd (offset d e i) /\ (node d e i < npn)%nat.
Proof. intros V He Hi. destruct (V e i He Hi) as (V1 & V2 & V3). split; [now split|exact V1]. Qed.

Lemma permutation_value sd ne nen npn (d : discretisation R) e : valid_disc sd ne nen npn d -> (e < ne)%nat ->
  permutation sd npn (map (fun i => Z.of_nat (node d e i)) (seq 0 nen)) (mk_mat nen sd (fun i k => zn (offset d e i) k)) = Ok (map (lin npn d e) (seq 0 nen)).
Proof.
  intros V He. unfold permutation. cbn [m_rows m_at]. apply mapM_ok. intros i Ii. apply in_seq in Ii. destruct (valid_bits _ _ _ _ _ e i V He) as (Vb & Vn); [lia|].
  rewrite (map_zn_seq_sd sd _ (proj1 Vb)), linear_index_bin. unfold zn. rewrite nth_map_seq by lia. pose proof (bin_bounds sd _ Vb) as Bb.
  assert (0 <= Z.of_nat npn * bin (offset d e i)) by (apply Z.mul_nonneg_nonneg; lia).
  assert (Z.of_nat npn * bin (offset d e i) <= Z.of_nat npn * (Z.of_nat (2 ^ sd) - 1)) by (apply Z.mul_le_mono_nonneg_l; lia).
  rewrite Nat2Z.inj_mul. destruct (Z.leb_spec 0 (Z.of_nat (node d e i) + Z.of_nat npn * bin (offset d e i))); [|lia].
  destruct (Z.ltb_spec (Z.of_nat (node d e i) + Z.of_nat npn * bin (offset d e i)) (Z.of_nat (2 ^ sd) * Z.of_nat npn)); [|lia]. cbn [andb]. f_equal. unfold lin.
  rewrite Z2Nat.inj_add, Z2Nat.inj_mul by lia. lia.
Qed.

Definition rows_of (sd nen npn : nat) (d : discretisation R) (e q : nat) : list (list R) :=
  map (product_row o (2 ^ sd * npn) (mk_mat sd nen (fun k i => deriv d e q k i)) (map (lin npn d e) (seq 0 nen))) (seq 0 sd).

Lemma construct_value sd nq ne nen npn (d : discretisation R) : valid_disc sd ne nen npn d ->
  construct o sd nq ne nen npn (grads_of sd nq ne nen d) (pts_of sd ne nen d) =
  Ok (mk_gop sd nq ne nen npn (concat (map (fun e => concat (map (rows_of sd nen npn d e) (seq 0 nq))) (seq 0 ne)))).
Proof.
  intros V. unfold construct. rewrite (mapM_ok _ (fun e => concat (map (rows_of sd nen npn d e) (seq 0 nq)))); [reflexivity|].
  intros e Ie. apply in_seq in Ie. unfold element_block, pts_of. rewrite nth_error_map, (nth_error_nth' _ 0%nat) by (rewrite seq_length; lia). rewrite seq_nth by lia. cbn [option_map Nat.add].
  rewrite map_length, seq_length, Nat.eqb_refl. cbn [negb m_rows m_cols]. rewrite !Nat.eqb_refl. cbn [negb]. rewrite (permutation_value sd ne) by (assumption || lia). cbn [bind].
  rewrite (mapM_ok _ (rows_of sd nen npn d e)); [reflexivity|]. intros q Iq. apply in_seq in Iq. unfold quad_block, grads_of.
  rewrite nth_error_map, (nth_error_nth' _ 0%nat) by (rewrite seq_length; lia). rewrite seq_nth by lia. cbn [option_map Nat.add].
  rewrite nth_error_map, (nth_error_nth' _ 0%nat) by (rewrite seq_length; lia). rewrite seq_nth by lia. cbn [option_map Nat.add m_rows m_cols]. rewrite !Nat.eqb_refl. reflexivity.
Qed.

Lemma B_value sd nq ne nen npn (d : discretisation R) g e q k col :
  valid_disc sd ne nen npn d -> construct o sd nq ne nen npn (grads_of sd nq ne nen d) (pts_of sd ne nen d) = Ok g ->
  (e < ne)%nat -> (q < nq)%nat -> (k < sd)%nat -> (col < 2 ^ sd * npn)%nat ->
  B_at o g ((e * nq + q) * sd + k) col = sum_below o nen (fun i => mul o (deriv d e q k i) (if lin npn d e i =? col then one o else zero o)%nat).
Proof.
  intros V E He Hq Hk Hc. rewrite (construct_value sd nq) in E by exact V. injection E as <-. unfold B_at. cbn [op_B].
  assert (Lr : forall e' q', length (rows_of sd nen npn d e' q') = sd) by (intros; unfold rows_of; now rewrite map_length, seq_length).
  assert (Le : forall e', length (concat (map (rows_of sd nen npn d e') (seq 0 nq))) = (nq * sd)%nat).
  { intros e'. rewrite (concat_length_uniform _ sd); [now rewrite map_length, seq_length|]. apply Forall_forall. intros x Ix. apply in_map_iff in Ix. destruct Ix as (q' & <- & _). apply Lr. }
  replace ((e * nq + q) * sd + k)%nat with (e * (nq * sd) + (q * sd + k))%nat by ring.
  assert (HB : (q * sd + k < nq * sd)%nat). { assert (S q * sd <= nq * sd)%nat by (apply Nat.mul_le_mono_r; lia). lia. }
  rewrite (concat_nth _ (nq * sd)); [|apply Forall_forall; intros x Ix; apply in_map_iff in Ix; destruct Ix as (e' & <- & _); apply Le|now rewrite map_length, seq_length|exact HB].
  rewrite nth_map_seq by exact He.
  rewrite (concat_nth _ sd); [|apply Forall_forall; intros x Ix; apply in_map_iff in Ix; destruct Ix as (q' & <- & _); apply Lr|now rewrite map_length, seq_length|exact Hk].
  rewrite nth_map_seq by exact Hq. unfold rows_of. rewrite nth_map_seq by exact Hk. unfold product_row. rewrite nth_map_seq by exact Hc. rewrite map_length, seq_length. cbn [m_at].
  apply (below_ext o). intros i Hi. now rewrite nth_map_seq by exact Hi.
Qed.
End Construct.

Section Neighbour.
Lemma wrap_length n c : length c = length n -> length (wrap n c) = length n.
Proof. intros H. unfold wrap. rewrite map_length, combine_length. lia. Qed.
Lemma wrap_zn n c i : length c = length n -> (i < length n)%nat -> zn (wrap n c) i = zn c i mod zn n i.
Proof.
  intros H Hi. unfold wrap, zn. set (h := fun q : Z * Z => fst q mod snd q). rewrite (nth_indep _ 0 (h (0, 0))) by (rewrite map_length, combine_length; lia).
  rewrite map_nth, combine_nth by exact H. reflexivity.
Qed.
Lemma zn_pos n i : Forall (fun x => 0 < x) n -> (i < length n)%nat -> 0 < zn n i.
Proof. intros F Hi. rewrite Forall_forall in F. apply F. now apply nth_In. Qed.
Lemma zn_repeat0 n i : zn (repeat 0 n) i = 0.
Proof. unfold zn. apply nth_repeat. Qed.
Lemma wrap_in_box n c : Forall (fun x => 0 < x) n -> length c = length n -> in_box n (repeat 0 (length n)) (wrap n c).
Proof.
  intros F H. split; [now apply wrap_length|]. intros i Hi. rewrite wrap_zn, zn_repeat0 by assumption. pose proof (zn_pos n i F Hi). pose proof (Z.mod_pos_bound (zn c i) (zn n i)). lia.
Qed.
Lemma add_coords_length a b : length a = length b -> length (add_coords a b) = length a.
Proof. intros H. unfold add_coords. rewrite map_length, combine_length. lia. Qed.
Lemma add_coords_zn a b i : length a = length b -> (i < length a)%nat -> zn (add_coords a b) i = zn a i + zn b i.
Proof.
  intros H Hi. unfold add_coords, zn. set (h := fun q : Z * Z => fst q + snd q). rewrite (nth_indep _ 0 (h (0, 0))) by (rewrite map_length, combine_length; lia).
  rewrite map_nth, combine_nth by exact H. reflexivity.
Qed.
Lemma ccoord_rem_wrap n c : Forall (fun x => 0 < x) n -> length c = length n -> (forall i, (i < length n)%nat -> 0 <= zn c i) -> ccoord_rem c n = Ok (wrap n c).
Proof.
  intros F H P. unfold ccoord_rem, wrap. apply mapM_ok. intros (a, b) I. cbn [fst snd].
  apply (In_nth _ _ (0, 0)) in I. destruct I as (i & Hi & E). rewrite combine_length in Hi. rewrite combine_nth in E by exact H. injection E as Ea Eb.
  assert (Hn : (i < length n)%nat) by lia. pose proof (zn_pos n i F Hn) as X. pose proof (P i Hn) as Y. unfold zn in X, Y. rewrite Eb in X. rewrite Ea in Y.
  destruct (Z.eqb_spec b 0); [lia|]. now rewrite Z.rem_mod_nonneg by lia.
Qed.
Lemma neighbour_value n p base off sd : grid_of n p -> length n = sd -> in_box n (repeat 0 (length n)) base -> bit_list sd off ->
  neighbour p base off = px_get_index p (wrap n (add_coords base off)).
Proof.
  intros G Hs (B1 & B2) (O1 & O2). destruct (grid_good n p G) as (_ & E1 & _). destruct G as (F & _). unfold neighbour. rewrite E1, B1, O1, Hs, Nat.eqb_refl. cbn [negb].
  assert (La : length (add_coords base off) = length n) by (rewrite add_coords_length; congruence).
  rewrite ccoord_rem_wrap; [reflexivity|exact F|exact La|]. intros i Hi. rewrite add_coords_zn by congruence. specialize (B2 i Hi). rewrite zn_repeat0 in B2. specialize (O2 i ltac:(congruence)). lia.
Qed.
(** Index of a pixel of the box. *)
Lemma grid_index n p c : grid_of n p -> in_box n (repeat 0 (length n)) c -> exists i, px_get_index p c = Ok i /\ 0 <= i < zprod n.
Proof.
  intros G H. destruct (grid_good n p G) as ((P & _) & E1 & E2 & _). rewrite E1, E2 in P. destruct (P c H) as (i & I1 & I2 & _). exists i. now split.
Qed.
Lemma grid_enumerate n p : grid_of n p -> exists cs, px_enumerate p = Ok (map (fun k => (Z.of_nat k, nth k cs [])) (seq 0 (Z.to_nat (zprod n)))) /\
  length cs = Z.to_nat (zprod n) /\ NoDup cs /\ (forall c, In c cs <-> in_box n (repeat 0 (length n)) c) /\ (forall k, (k < length cs)%nat -> px_get_index p (nth k cs []) = Ok (Z.of_nat k)).
Proof.
  intros G. destruct (grid_good n p G) as ((_ & _ & cs & _ & C2 & C3 & C4 & C5 & C6) & E1 & E2 & _). rewrite E1 in C3, C4. rewrite E2 in C4. exists cs. rewrite C6, (combine_zrange cs []), C3. split; [reflexivity|]. split; [reflexivity|]. split; [exact C2|]. split; [exact C4|]. rewrite <- C3. exact C5.
Qed.
End Neighbour.

Section Formula.
Context {R : Type} (o : ops R) (L : lawful o).
Definition laws4 : ring_theory (zero o) (one o) (add o) (mul o) (sub o) (opp o) eq := L.
Add Ring o_ring4 : laws4.

Lemma sum_blocks nb npn m0 i0 (F : nat -> nat -> R) : (i0 < nb)%nat -> (m0 < npn)%nat ->
  sum_below o nb (fun idx => sum_below o npn (fun m => mul o (F idx m) (if m0 + npn * i0 =? idx * npn + m then one o else zero o)%nat)) = F i0 m0.
Proof.
  intros Hi Hm. rewrite (below_single o L nb _ i0 Hi).
  - rewrite (below_single o L npn _ m0 Hm); [|intros m Hm' Ne].
    + destruct (Nat.eqb_spec (m0 + npn * i0) (i0 * npn + m0)); [ring|exfalso; apply n; ring].
    + destruct (Nat.eqb_spec (m0 + npn * i0) (i0 * npn + m)) as [E|_]; [exfalso; apply Ne; rewrite (Nat.mul_comm i0) in E; lia|ring].
  - intros idx Hx Ne. apply (below_zero o L). intros m Hm'. destruct (Nat.eqb_spec (m0 + npn * i0) (idx * npn + m)) as [E|_]; [|ring].
    exfalso. apply Ne. assert (E' : (npn * i0 + m0 = npn * idx + m)%nat) by (rewrite (Nat.mul_comm npn idx); lia).
    destruct (Nat.div_mod_unique npn i0 idx m0 m Hm Hm' E'). congruence.
Qed.

Lemma gradient_formula sd nq ne nen npn C (d : discretisation R) g n p u alpha q0 :
  (1 <= sd <= 3)%nat -> valid_disc sd ne nen npn d -> construct o sd nq ne nen npn (grads_of sd nq ne nen d) (pts_of sd ne nen d) = Ok g ->
  grid_of n p -> length n = sd -> C <> 0%nat -> is_field n C npn u -> is_field n (sd * C) (nq * ne) q0 ->
  exists q1, apply_gradient_increment o g p u alpha q0 = Ok q1 /\ is_field n (sd * C) (nq * ne) q1 /\
    forall c e q k r, in_box n (repeat 0 (length n)) c -> (e < ne)%nat -> (q < nq)%nat -> (k < sd)%nat -> (r < C)%nat ->
      value o p q1 c (e * nq + q) (k * C + r) =
      add o (value o p q0 c (e * nq + q) (k * C + r)) (mul o alpha (derivative o n nen d (fun c' m => value o p u c' m r) c e q k)).
Proof.
  intros Hsd V Eg G Hn HC (U1 & U2 & U3 & U4 & U5) (Q1 & Q2 & Q3 & Q4 & Q5).
  assert (Fg : op_dim g = sd /\ op_nq g = nq /\ op_ne g = ne /\ op_npn g = npn) by (rewrite (construct_value o sd nq) in Eg by exact V; injection Eg as <-; auto).
  destruct Fg as (G1 & G2 & G3 & G4).
  destruct (grid_enumerate n p G) as (cs & P1 & P2 & P3 & P4 & P5). pose proof (stencil_value sd Hsd) as St.
  assert (Fit : fields_fit g u q0 = Ok tt). { unfold fields_fit. rewrite Q1, U1, U2, Q2, Q3, U3, G1, Nat.eqb_refl. cbn [negb]. destruct (Nat.eqb_spec C 0); [contradiction|reflexivity]. }
  assert (Su : px_stride u = (C * npn)%nat) by (unfold px_stride; now rewrite U3, U4).
  assert (Sq : px_stride q0 = (sd * C * (nq * ne))%nat) by (unfold px_stride; now rewrite Q3, Q4).
  assert (Box : forall k, (k < Z.to_nat (zprod n))%nat -> in_box n (repeat 0 (length n)) (nth k cs [])) by (intros k Hk; apply P4, nth_In; now rewrite P2).
  set (pxs := map (fun k => (Z.of_nat k, nth k cs [])) (seq 0 (Z.to_nat (zprod n)))) in *.
  set (offs := map (fun i => (i, bits sd i)) (seq 0 (2 ^ sd))) in *.
  assert (Steps : forall x, In x (list_prod pxs offs) -> step_ok g p u q0 x = Ok tt).
  { intros (px, off) I. apply in_prod_iff in I. destruct I as (Ip & Io). unfold pxs in Ip. unfold offs in Io. apply in_map_iff in Ip, Io. destruct Ip as (k & <- & Ik), Io as (i & <- & Ii). apply in_seq in Ik, Ii.
    unfold step_ok. cbn [fst snd]. assert (Bk := Box k ltac:(lia)). rewrite (neighbour_value n p _ _ sd G Hn Bk (bits_list sd i)).
    destruct (grid_index n p (wrap n (add_coords (nth k cs []) (bits sd i))) G) as (j & Ej & Bj).
    { apply wrap_in_box; [exact (proj1 G)|]. destruct Bk as (Bk & _). destruct (bits_list sd i) as (Bl & _). rewrite add_coords_length; congruence. }
    rewrite Ej. cbn [bind]. unfold points_fit, nb_pixel_quad_pts. rewrite U4, Q4, G2, G3, G4, !Nat.eqb_refl. cbn [andb].
    assert (Hb : forall (f : gfield R) z, length (fd_mem f) = (Z.to_nat (zprod n) * px_stride f)%nat -> 0 <= z < zprod n -> in_buffer f z = true).
    { intros f z Hf Hz. unfold in_buffer. rewrite Hf. destruct (Z.leb_spec 0 z); [|lia]. cbn [andb]. apply Nat.leb_le.
      assert (S (Z.to_nat z) * px_stride f <= Z.to_nat (zprod n) * px_stride f)%nat by (apply Nat.mul_le_mono_r; lia). lia. }
    rewrite (Hb q0 (Z.of_nat k)) by (rewrite ?Sq; assumption || lia). rewrite (Hb u j) by (rewrite ?Su; assumption || lia). reflexivity. }
  rewrite <- G1 in St. rewrite (proj2 (grad_run o g p u alpha q0) offs pxs Fit St P1 Steps). eexists. split; [reflexivity|]. split.
  { split; [exact Q1|split; [exact Q2|split; [exact Q3|split; [exact Q4|]]]]. cbn [fd_mem with_mem]. now rewrite updates_length. }
  intros c e q k r Hc He Hq Hk Hr.
  destruct (grid_index n p c G Hc) as (id & Eid & Bid). unfold value at 1 2. rewrite Eid. cbn [fd_comps fd_pts fd_mem with_mem]. rewrite Q3, Q4.
  set (row := ((e * nq + q) * sd + k)%nat).
  replace (Z.to_nat id * (sd * C * (nq * ne)) + (e * nq + q) * (sd * C) + (k * C + r))%nat with (Z.to_nat id * px_stride q0 + (row * C + r))%nat by (rewrite Sq; unfold row; ring).
  assert (Hrow : (row < nq * ne * sd)%nat).
  { unfold row. assert (S e * nq <= ne * nq)%nat by (apply Nat.mul_le_mono_r; lia). assert (S (e * nq + q) * sd <= nq * ne * sd)%nat by (apply Nat.mul_le_mono_r; lia). lia. }
  assert (Hpos : (row * C + r < px_stride q0)%nat).
  { rewrite Sq. assert (S row * C <= nq * ne * sd * C)%nat by (apply Nat.mul_le_mono_r; lia). replace (sd * C * (nq * ne))%nat with (nq * ne * sd * C)%nat by ring. lia. }
  assert (Hin : (Z.to_nat id * px_stride q0 + (row * C + r) < length (fd_mem q0))%nat).
  { rewrite Q5, <- Sq. assert (S (Z.to_nat id) * px_stride q0 <= Z.to_nat (zprod n) * px_stride q0)%nat by (apply Nat.mul_le_mono_r; lia). lia. }
  rewrite (updates_nth o L) by exact Hin. f_equal. unfold gsteps. rewrite sum_map. cbn [fst snd].
  set (pos := (Z.to_nat id * px_stride q0 + (row * C + r))%nat) in *.
  rewrite (sum_prod o L (fun px off => if (st_id (px, off) * px_stride q0 <=? pos)%nat && (pos <? st_id (px, off) * px_stride q0 + px_stride q0)%nat
     then grad_increment o g alpha u (st_j p (px, off)) (fst off) (pos - st_id (px, off) * px_stride q0) else zero o) pxs offs) || 
  (transitivity (sum_list o (fun px => sum_list o (fun off => if (st_id (px, off) * px_stride q0 <=? pos)%nat && (pos <? st_id (px, off) * px_stride q0 + px_stride q0)%nat
     then grad_increment o g alpha u (st_j p (px, off)) (fst off) (pos - st_id (px, off) * px_stride q0) else zero o) offs) pxs);
   [rewrite <- (sum_prod o L); apply (sum_ext o); intros (a, b) _; reflexivity|]).
  assert (Eid' : nth (Z.to_nat id) cs [] = c).
  { assert (Ic : In c cs) by now apply P4. apply (In_nth _ _ []) in Ic. destruct Ic as (k' & Hk' & Ek). pose proof (P5 k' Hk') as X. rewrite Ek, Eid in X. injection X as ->. now rewrite Nat2Z.id. }
  unfold pxs. rewrite sum_map.
  change (sum_list o ?f (seq 0 ?m)) with (sum_below o m f).
  rewrite (below_single o L _ _ (Z.to_nat id)); [|lia|].
  2:{ intros k' Hk' Ne. apply (sum_zero o L). intros off _. unfold st_id. cbn [fst]. rewrite Nat2Z.id.
      destruct (Nat.leb_spec (k' * px_stride q0) pos); [|reflexivity]. destruct (Nat.ltb_spec pos (k' * px_stride q0 + px_stride q0)); [|reflexivity]. exfalso. apply Ne. unfold pos in *.
      assert (E : (px_stride q0 * k' + (pos - k' * px_stride q0) = px_stride q0 * Z.to_nat id + (row * C + r))%nat) by (unfold pos; rewrite (Nat.mul_comm _ k'), (Nat.mul_comm _ (Z.to_nat id)); lia).
      destruct (Nat.div_mod_unique (px_stride q0) k' (Z.to_nat id) (pos - k' * px_stride q0) (row * C + r)) as (X & _); [unfold pos; lia|lia|exact E|exact X]. }
  rewrite Eid'. unfold st_id. cbn [fst]. rewrite Nat2Z.id.
  destruct (Nat.leb_spec (Z.to_nat id * px_stride q0) pos); [|unfold pos in *; lia]. destruct (Nat.ltb_spec pos (Z.to_nat id * px_stride q0 + px_stride q0)); [|unfold pos in *; lia]. cbn [andb].
  replace (pos - Z.to_nat id * px_stride q0)%nat with (row * C + r)%nat by (unfold pos; lia).
  unfold offs. rewrite sum_map. cbn [fst snd]. change (sum_list o ?f (seq 0 ?m)) with (sum_below o m f).
  unfold derivative, grad_increment. cbv zeta. rewrite U3, G4.
  replace ((row * C + r) mod C)%nat with r by (rewrite Nat.add_comm, Nat.mod_add by exact HC; symmetry; now apply Nat.mod_small).
  replace ((row * C + r) / C)%nat with row by (rewrite Nat.add_comm, Nat.div_add by exact HC; now rewrite (Nat.div_small r)).
  set (j := fun i => index_of (px_get_index p (wrap n (add_coords c (bits sd i))))).
  transitivity (sum_below o (2 ^ sd) (fun idx => sum_below o npn (fun m => sum_below o nen (fun i =>
     mul o (mul o alpha (deriv d e q k i)) (mul o (nth (j idx * px_stride u + m * C + r) (fd_mem u) (zero o)) (if lin npn d e i =? idx * npn + m then one o else zero o)%nat))))).
  { apply (below_ext o). intros idx Hidx. unfold st_j. cbn [fst snd]. rewrite (neighbour_value n p _ _ sd G Hn Hc (bits_list sd idx)). fold (j idx). apply (below_ext o). intros m Hm.
    assert (Hcol : (idx * npn + m < 2 ^ sd * npn)%nat). { assert (S idx * npn <= 2 ^ sd * npn)%nat by (apply Nat.mul_le_mono_r; lia). lia. }
    unfold row. rewrite (B_value o sd nq ne nen npn d g e q k _ V Eg He Hq Hk Hcol). rewrite <- (below_scale o L). apply (below_ext o). intros i _. ring. }
  rewrite <- (below_scale o L).
  transitivity (sum_below o nen (fun i => sum_below o (2 ^ sd) (fun idx => sum_below o npn (fun m =>
     mul o (mul o (mul o alpha (deriv d e q k i)) (nth (j idx * px_stride u + m * C + r) (fd_mem u) (zero o))) (if lin npn d e i =? idx * npn + m then one o else zero o)%nat)))).
  { rewrite (below_swap o L nen). apply (below_ext o). intros idx _. rewrite (below_swap o L nen). apply (below_ext o). intros m _. apply (below_ext o). intros i _. ring. }
  apply (below_ext o). intros i Hi. destruct (valid_bits _ _ _ _ _ e i V He Hi) as (Vb & Vn). pose proof (bin_bounds sd _ Vb) as Bb. unfold lin.
  rewrite (sum_blocks (2 ^ sd) npn (node d e i) (Z.to_nat (bin (offset d e i))) (fun idx m => mul o (mul o alpha (deriv d e q k i)) (nth (j idx * px_stride u + m * C + r) (fd_mem u) (zero o)))); [|lia|exact Vn].
  unfold j. rewrite (bits_bin sd _ Vb). unfold value. destruct (grid_index n p (wrap n (add_coords c (offset d e i))) G) as (jj & Ej & _).
  { apply wrap_in_box; [exact (proj1 G)|]. destruct Hc as (Hc & _). destruct Vb as (Vb & _). rewrite add_coords_length; congruence. }
  rewrite Ej. cbn [index_of]. rewrite U3, U4, Su. ring.
Qed.
End Formula.
