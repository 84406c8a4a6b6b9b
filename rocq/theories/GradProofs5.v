(** Linearity, translation, constants, uniform weights, sub-domains. *)
From Coq Require Import ZArith Ring Permutation.
From Verif Require Import Base GridModel GridSpec GridProofs3 RingModel RingProofs GradModel GradSpec GradProofs GradProofs2 GradProofs3 GradProofs4.
Local Open Scope list_scope.

Section Linear.
Context {R : Type} (o : ops R) (L : lawful o).
Definition laws5 : ring_theory (zero o) (one o) (add o) (mul o) (sub o) (opp o) eq := L.
Add Ring o_ring5 : laws5.

Local Notation at_ := (coefficient o).

Lemma fields_fit_shape (g : gop R) n q n' q' : shape_of n = shape_of n' -> shape_of q = shape_of q' -> fields_fit g n q = fields_fit g n' q'.
Proof. unfold shape_of. intros H H'. injection H as H1 H2 H3 _ _. injection H' as K1 K2 K3 _ _. unfold fields_fit. now rewrite H1, H2, H3, K1, K2, K3. Qed.

(** Running on fields of the same shape: same outcome, contributions from [F]. *)
Lemma gsteps_sum g p alpha u q xs i :
  sum_list o (fun up : nat * (nat -> R) => if (fst up <=? i)%nat && (i <? fst up + px_stride q)%nat then snd up (i - fst up)%nat else zero o) (gsteps o g p alpha u q xs) =
  mul o alpha (sum_list o (fun up : nat * (nat -> R) => if (fst up <=? i)%nat && (i <? fst up + px_stride q)%nat then snd up (i - fst up)%nat else zero o) (gsteps o g p (one o) u q xs)).
Proof.
  unfold gsteps. rewrite !sum_map, <- (sum_scale o L). apply (sum_ext o). intros x _. cbn [fst snd]. destruct (_ && _); [|ring].
  unfold grad_increment. cbv zeta. rewrite <- (below_scale o L). apply (below_ext o). intros m _. ring.
Qed.

Lemma increment_of_gradient g p u alpha q :
  (forall q1, apply_gradient_increment o g p u alpha q = Ok q1 ->
     exists dq, apply_gradient o g p u q = (dq, Ok tt) /\ shape_of q1 = shape_of q /\ shape_of dq = shape_of q /\
       forall i, (i < length (fd_mem q))%nat -> at_ q1 i = add o (at_ q i) (mul o alpha (at_ dq i))) /\
  (forall dq, apply_gradient o g p u q = (dq, Ok tt) -> exists q1, apply_gradient_increment o g p u alpha q = Ok q1).
Proof.
  pose proof (set_zero_shape o q) as Z. split.
  - intros q1 E. destruct (proj1 (grad_run o g p u alpha q) q1 E) as (F & offs & pxs & E1 & E2 & Ok1 & ->).
    assert (Ok2 : forall x, In x (list_prod pxs offs) -> step_ok g p u (set_zero o q) x = Ok tt) by (intros x Ix; rewrite (step_ok_shape g p u (set_zero o q) u q x eq_refl Z); auto).
    assert (F2 : fields_fit g u (set_zero o q) = Ok tt) by (rewrite (fields_fit_shape g u (set_zero o q) u q eq_refl Z); exact F).
    eexists. unfold apply_gradient. rewrite (proj2 (grad_run o g p u (one o) (set_zero o q)) offs pxs F2 E1 E2 Ok2). cbn [finish]. split; [reflexivity|].
    split; [apply with_mem_shape, updates_length|]. split; [rewrite with_mem_shape by apply updates_length; exact Z|].
    intros i Hi. unfold coefficient. cbn [fd_mem with_mem]. destruct (shape_eqs _ _ Z) as (Z1 & Z2 & Z3).
    rewrite (updates_nth o L _ _ i (fd_mem q)) by exact Hi. rewrite (updates_nth o L _ _ i (fd_mem (set_zero o q))) by (rewrite Z3; exact Hi). rewrite set_zero_nth, gsteps_sum. f_equal.
    assert (Es : px_stride (set_zero o q) = px_stride q) by (unfold px_stride; now rewrite Z1, Z2). unfold gsteps. rewrite Es. ring.
  - intros dq E. apply finish_ok in E. destruct (proj1 (grad_run o g p u (one o) (set_zero o q)) dq E) as (F & offs & pxs & E1 & E2 & Ok1 & _).
    eexists. apply (proj2 (grad_run o g p u alpha q) offs pxs); [rewrite (fields_fit_shape g u q u (set_zero o q)); auto|exact E1|exact E2|].
    intros x Ix. rewrite (step_ok_shape g p u q u (set_zero o q) x); auto.
Qed.

Lemma gradient_ignores_output g p u q q' dq :
  shape_of q' = shape_of q -> apply_gradient o g p u q = (dq, Ok tt) -> apply_gradient o g p u q' = (dq, Ok tt).
Proof.
  intros H E. unfold apply_gradient in *. replace (set_zero o q') with (set_zero o q); [exact E|].
  unfold set_zero, with_mem. unfold shape_of in H. injection H as H1 H2 H3 H4 H5. rewrite H1, H2, H3, H4. f_equal.
  apply (nth_ext _ _ (zero o) (zero o)); [now rewrite !map_length|]. intros i Hi. 
  assert (Z : forall (l : list R) i, nth i (map (fun _ => zero o) l) (zero o) = zero o) by (clear; induction l as [|x l IH]; intros [|i]; cbn; auto). now rewrite !Z.
Qed.

Lemma gradient_linear g p u v w a b q du dv :
  shape_of v = shape_of u -> shape_of w = shape_of u -> (forall i, at_ w i = add o (mul o a (at_ u i)) (mul o b (at_ v i))) ->
  apply_gradient o g p u q = (du, Ok tt) -> apply_gradient o g p v q = (dv, Ok tt) ->
  exists dw, apply_gradient o g p w q = (dw, Ok tt) /\ forall i, at_ dw i = add o (mul o a (at_ du i)) (mul o b (at_ dv i)).
Proof.
  intros Hv Hw Lin Eu Ev. apply finish_ok in Eu, Ev. set (Q := set_zero o q) in *.
  destruct (proj1 (grad_run o g p u (one o) Q) du Eu) as (F1 & offs & pxs & E1 & E2 & O1 & ->).
  destruct (proj1 (grad_run o g p v (one o) Q) dv Ev) as (_ & offs' & pxs' & E1' & E2' & _ & ->). rewrite E1 in E1'. injection E1' as <-. rewrite E2 in E2'. injection E2' as <-.
  assert (Fw : fields_fit g w Q = Ok tt) by (rewrite (fields_fit_shape g w Q u Q Hw eq_refl); exact F1).
  assert (Ow : forall x, In x (list_prod pxs offs) -> step_ok g p w Q x = Ok tt) by (intros x Ix; rewrite (step_ok_shape g p w Q u Q x Hw eq_refl); auto).
  eexists. unfold apply_gradient. fold Q. rewrite (proj2 (grad_run o g p w (one o) Q) offs pxs Fw E1 E2 Ow). split; [reflexivity|].
  intros i. unfold coefficient. cbn [fd_mem with_mem]. destruct (Nat.lt_ge_cases i (length (fd_mem Q))) as [Hi|Hi].
  2:{ rewrite !nth_overflow by (rewrite updates_length; exact Hi). ring. }
  rewrite !(updates_nth o L) by exact Hi. assert (ZQ : forall i, nth i (fd_mem Q) (zero o) = zero o) by (intros; apply set_zero_nth). rewrite !ZQ.
  transitivity (sum_list o (fun x => if (st_id x * px_stride Q <=? i)%nat && (i <? st_id x * px_stride Q + px_stride Q)%nat then
     add o (mul o a (grad_increment o g (one o) u (st_j p x) (fst (snd x)) (i - st_id x * px_stride Q))) (mul o b (grad_increment o g (one o) v (st_j p x) (fst (snd x)) (i - st_id x * px_stride Q))) else zero o) (list_prod pxs offs)).
  - rewrite (Radd_0_l L). unfold gsteps. rewrite sum_map. apply (sum_ext o). intros x _. cbn [fst snd]. destruct (_ && _); [|reflexivity].
    unfold grad_increment. cbv zeta. destruct (shape_eqs _ _ Hv) as (V1 & V2 & _), (shape_eqs _ _ Hw) as (W1 & W2 & _). unfold px_stride. rewrite V1, V2, W1, W2.
    rewrite <- !(below_scale o L), <- (below_add o L). apply (below_ext o). intros m _. unfold coefficient in Lin. rewrite Lin. ring.
  - unfold gsteps. rewrite !sum_map. cbn [fst snd]. rewrite !(Radd_0_l L), <- !(sum_scale o L), <- (sum_add o L). apply (sum_ext o). intros x _. destruct (_ && _); [reflexivity|ring].
Qed.

(** Constants and translations, from the formula. *)
Lemma derivative_ext n nen (d : discretisation R) u u' c e q k :
  (forall i, (i < nen)%nat -> u (wrap n (add_coords c (offset d e i))) (node d e i) = u' (wrap n (add_coords c (offset d e i))) (node d e i)) ->
  derivative o n nen d u c e q k = derivative o n nen d u' c e q k.
Proof. intros H. unfold derivative. apply (below_ext o). intros i Hi. now rewrite H. Qed.

Lemma derivative_constant n nen (d : discretisation R) u a c e q k :
  sum_below o nen (deriv d e q k) = zero o -> (forall i, (i < nen)%nat -> u (wrap n (add_coords c (offset d e i))) (node d e i) = a) ->
  derivative o n nen d u c e q k = zero o.
Proof.
  intros S H. unfold derivative. rewrite (below_ext o nen _ (fun i => mul o (deriv d e q k i) a)) by (intros i Hi; now rewrite H). rewrite (below_scale_r o L). change (fun i => deriv d e q k i) with (deriv d e q k). rewrite S. ring.
Qed.

Lemma wrap_shift n c s t : Forall (fun x => 0 < x) n -> length c = length n -> length s = length n -> length t = length n ->
  wrap n (add_coords (wrap n (add_coords c t)) s) = wrap n (add_coords (wrap n (add_coords c s)) t).
Proof.
  intros F Hc Hs Ht.
  assert (L1 : forall x y, length x = length n -> length y = length n -> length (add_coords x y) = length n) by (intros; rewrite add_coords_length; congruence).
  assert (L2 : forall x, length x = length n -> length (wrap n x) = length n) by (intros; now apply wrap_length).
  apply list_ext; [rewrite !L2; auto|]. rewrite L2 by auto. intros i Hi.
  rewrite !wrap_zn, !add_coords_zn, !wrap_zn, !add_coords_zn by (rewrite ?L1, ?L2; rewrite ?L1; auto; congruence).
  pose proof (zn_pos n i F Hi). rewrite !Zplus_mod_idemp_l. f_equal. ring.
Qed.
End Linear.

Section Transpose.
Context {R : Type} (o : ops R) (L : lawful o).
Definition laws6 : ring_theory (zero o) (one o) (add o) (mul o) (sub o) (opp o) eq := L.
Add Ring o_ring6 : laws6.

Lemma transpose_returns sd nq ne nen npn C (d : discretisation R) g n p v alpha ws n0 :
  (1 <= sd <= 3)%nat -> valid_disc sd ne nen npn d -> construct o sd nq ne nen npn (grads_of sd nq ne nen d) (pts_of sd ne nen d) = Ok g ->
  grid_of n p -> length n = sd -> C <> 0%nat -> (0 < nq * ne)%nat -> is_field n C npn n0 -> is_field n (sd * C) (nq * ne) v ->
  (ws = [] \/ nq * ne <= length ws)%nat ->
  exists n1, apply_transpose_increment o g p v alpha n0 ws = Ok n1 /\ is_field n C npn n1.
Proof.
  intros Hsd V Eg G Hn HC HQ Hn0 Hv HW.
  destruct (gradient_formula o L sd nq ne nen npn C d g n p n0 alpha v Hsd V Eg G Hn HC Hn0 Hv) as (q1 & Eq & _).
  destruct (proj1 (grad_run o g p n0 alpha v) q1 Eq) as (F & offs & pxs & E1 & E2 & O1 & _).
  assert (Fg : op_nq g = nq /\ op_ne g = ne) by (rewrite (construct_value o sd nq) in Eg by exact V; injection Eg as <-; auto). destruct Fg as (G2 & G3).
  assert (Hnp : nb_pixel_quad_pts g = (nq * ne)%nat) by (unfold nb_pixel_quad_pts; now rewrite G2, G3).
  eexists. split.
  - apply (proj2 (transpose_run o g p v alpha n0 ws) offs pxs F E1 E2). intros x Ix. unfold tstep_ok. rewrite (O1 x Ix). cbn [bind]. rewrite Hnp.
    destruct (Nat.eqb_spec (nq * ne) 0); [lia|]. cbn [negb andb]. pose proof (Nat.mod_upper_bound (st_id x) (nq * ne) ltac:(lia)).
    assert (nq * ne <= length (weights_used o g ws))%nat.
    { unfold weights_used. destruct HW as [->|HW]; [now rewrite repeat_length, Hnp|]. destruct ws; [cbn in HW; lia|exact HW]. }
    destruct (Nat.ltb_spec (st_id x mod (nq * ne)) (length (weights_used o g ws))); [reflexivity|lia].
  - destruct Hn0 as (N1 & N2 & N3 & N4 & N5). split; [exact N1|split; [exact N2|split; [exact N3|split; [exact N4|]]]]. cbn [fd_mem with_mem]. now rewrite updates_length.
Qed.

Lemma adjoint_uniform g p u v q0 n0 w k du tv :
  apply_gradient o g p u q0 = (du, Ok tt) -> apply_transpose o g p v n0 (repeat w (S k)) = (tv, Ok tt) -> fd_comps u = fd_comps n0 ->
  dot_product o (fd_mem tv) (fd_mem u) = mul o w (dot_product o (fd_mem du) (fd_mem v)).
Proof.
  intros G T HC. pose proof (adjoint_weighted o L _ _ _ _ _ _ _ _ _ G T HC) as A. unfold dot_product at 2. rewrite <- (below_scale o L).
  pose proof T as T'. apply finish_ok in T. destruct (proj1 (transpose_run o g p v (one o) (set_zero o n0) (repeat w (S k))) tv T) as (_ & offs' & pxs' & E1' & E2' & O2 & _).
  apply finish_ok in G. destruct (proj1 (grad_run o g p u (one o) (set_zero o q0)) du G) as (F1 & offs & pxs & E1 & E2 & O1 & Edu).
  rewrite E1 in E1'. injection E1' as <-. rewrite E2 in E2'. injection E2' as <-.
  rewrite A. apply (below_ext o). intros i Hi.
  assert (W : forall x, In x (list_prod pxs offs) -> nth (st_id x mod nb_pixel_quad_pts g) (weights_used o g (repeat w (S k))) (zero o) = w).
  { intros x Ix. destruct (tstep_ok_facts g p _ v _ x (O2 x Ix)) as (_ & _ & X). change (weights_used o g (repeat w (S k))) with (repeat w (S k)) in *.
    rewrite (nth_indep _ (zero o) w) by exact X. apply nth_repeat. }
  (* entries of pixels that no step touched are zero *)
  destruct (In_dec Nat.eq_dec (i / px_stride du)%nat (map st_id (list_prod pxs offs))) as [I|I].
  - apply in_map_iff in I. destruct I as (x & <- & Ix). rewrite (W x Ix). reflexivity.
  - replace (nth i (fd_mem du) (zero o)) with (zero o); [ring|]. rewrite Edu in Hi. cbn [fd_mem with_mem] in Hi. rewrite updates_length in Hi.
    assert (Es : px_stride du = px_stride (set_zero o q0)) by (rewrite Edu; reflexivity). rewrite Es in I. rewrite Edu. cbn [fd_mem with_mem].
    rewrite (updates_nth o L) by exact Hi. rewrite set_zero_nth. rewrite (sum_zero o L); [ring|]. intros up Iu. unfold gsteps in Iu. apply in_map_iff in Iu. destruct Iu as (x & <- & Ix). cbn [fst snd].
    destruct (Nat.leb_spec (st_id x * px_stride (set_zero o q0)) i); [|reflexivity]. destruct (Nat.ltb_spec i (st_id x * px_stride (set_zero o q0) + px_stride (set_zero o q0))); [|reflexivity].
    exfalso. apply I. apply in_map_iff. exists x. split; [|exact Ix]. set (S0 := px_stride (set_zero o q0)) in *.
    apply (Nat.div_unique i S0 (st_id x) (i - st_id x * S0)); [lia|]. rewrite (Nat.mul_comm S0). lia.
Qed.
End Transpose.

Lemma stride_sum_zero : forall s loc c acc, length s = length loc -> length c = length loc -> Forall (fun x => 0 < x) s -> (forall i, 0 <= zn loc i) -> (forall i, zn c i = 0) ->
  fold_left (fun acc p => acc + fst p * (snd (snd p) - fst (snd p))) (combine s (combine loc c)) acc <= acc /\
  ((exists i, 0 < zn loc i) -> fold_left (fun acc p => acc + fst p * (snd (snd p) - fst (snd p))) (combine s (combine loc c)) acc < acc).
Proof.
  induction s as [|a s IH]; intros loc c acc H1 H2 F Pl Zc.
  - destruct loc; [|discriminate]. cbn [combine fold_left]. split; [lia|]. intros (i & Hi). destruct i; cbn in Hi; lia.
  - destruct loc as [|l loc]; [discriminate|]. destruct c as [|x c]; [discriminate|]. inversion F as [|? ? Fa Fs]; subst. cbn [combine fold_left fst snd].
    assert (X0 : x = 0) by exact (Zc 0%nat). assert (L0 : 0 <= l) by exact (Pl 0%nat). subst x.
    assert (A : acc + a * (0 - l) <= acc). { assert (0 <= a * l) by (apply Z.mul_nonneg_nonneg; lia). lia. }
    destruct (IH loc c (acc + a * (0 - l))) as (I1 & I2); [cbn in H1; lia|cbn in H2; lia|exact Fs|intros i; exact (Pl (S i))|intros i; exact (Zc (S i))|].
    split; [lia|]. intros ([|i] & Hi).
    + assert (0 < l) by exact Hi. assert (0 < a * l) by (apply Z.mul_pos_pos; lia). lia.
    + assert (exists i, 0 < zn loc i) by (now exists i). specialize (I2 H). lia.
Qed.

Lemma col_major_strides_pos n : Forall (fun x => 0 < x) n -> Forall (fun x => 0 < x) (col_major_strides n).
Proof.
  intros F. apply Forall_forall. intros x I. unfold col_major_strides in I. apply in_map_iff in I. destruct I as (i & <- & _). unfold col_major_stride. rewrite fold_left_mul, Z.mul_1_l. apply zprod_pos.
  apply Forall_forall. intros y Iy. rewrite Forall_forall in F. apply F. rewrite <- (firstn_skipn i n). apply in_or_app. now left.
Qed.

Lemma subdomain_not_ok {R} (o : ops R) g n loc p (u : gfield R) alpha q q1 :
  pixels_default n loc = Ok p -> Forall (fun x => 0 < x) n -> length loc = length n -> op_dim g = length n -> (forall i, 0 <= zn loc i) -> (exists i, 0 < zn loc i) ->
  apply_gradient_increment o g p u alpha q <> Ok q1.
Proof.
  intros Ep F Hl Hd Pl Nz E.
  pose proof (px_good_default n loc p Ep F) as (_ & _ & cs & _ & _ & C3 & C4 & _ & C6).
  pose proof (pixels_default_fields _ n loc p Ep) as (P1 & P2 & P3 & _ & _ & _ & P7).
  assert (P2' : px_loc p = loc). { rewrite P2. unfold default_loc. rewrite Hl. destruct (Nat.eqb_spec (length n) 0); [lia|reflexivity]. }
  destruct (proj1 (grad_run o g p u alpha q) q1 E) as (_ & offs & pxs & E1 & E2 & Ok1 & _).
  rewrite Hd, (stencil_value (length n)) in E1 by exact P7. injection E1 as <-. rewrite E2 in C6. injection C6 as C6. rewrite (combine_zrange cs []) in C6.
  (* the pixel whose coordinates are congruent to zero *)
  set (base := map (fun i => zn loc i + (- zn loc i) mod zn n i) (seq 0 (length n))).
  assert (Hb : forall i, (i < length n)%nat -> zn base i = zn loc i + (- zn loc i) mod zn n i) by (intros i Hi; unfold base, zn at 1; now rewrite nth_map_seq by exact Hi).
  assert (Ib : In base cs).
  { apply C4. rewrite P1, P2'. split; [unfold base; now rewrite map_length, seq_length|]. intros i Hi. rewrite Hb by exact Hi. pose proof (zn_pos n i F Hi). pose proof (Z.mod_pos_bound (- zn loc i) (zn n i)). lia. }
  apply (In_nth _ _ []) in Ib. destruct Ib as (k & Hk & Ek).
  assert (Ix : In ((Z.of_nat k, base), (0%nat, bits (length n) 0)) (list_prod pxs (map (fun i => (i, bits (length n) i)) (seq 0 (2 ^ length n))))).
  { apply in_prod_iff. split.
    - rewrite C6. apply in_map_iff. exists k. split; [now rewrite Ek|apply in_seq; lia].
    - apply in_map_iff. exists 0%nat. split; [reflexivity|]. apply in_seq. pose proof (Nat.pow_nonzero 2 (length n)). lia. }
  apply Ok1, step_ok_facts in Ix. destruct Ix as (j & Nj & _ & J0 & _). cbn [fst snd] in Nj.
  destruct (bits_list (length n) 0) as (B1 & _). assert (B0 : forall m i, zn (bits m 0) i = 0). { induction m as [|m IH]; intros [|i]; cbn; try reflexivity. apply IH. }
  assert (Lb : length base = length n) by (unfold base; now rewrite map_length, seq_length).
  unfold neighbour in Nj. rewrite Lb, B1, Nat.eqb_refl in Nj. cbn [negb] in Nj.
  assert (Lc : length (add_coords base (bits (length n) 0)) = length n) by (rewrite add_coords_length; congruence).
  assert (Ha : forall i, (i < length n)%nat -> zn (add_coords base (bits (length n) 0)) i = zn loc i + (- zn loc i) mod zn n i) by (intros i Hi; rewrite add_coords_zn by congruence; rewrite B0, Hb by exact Hi; ring).
  rewrite P1, ccoord_rem_wrap in Nj; [|exact F|exact Lc|intros i Hi; rewrite Ha by exact Hi; pose proof (zn_pos n i F Hi); pose proof (Z.mod_pos_bound (- zn loc i) (zn n i)); specialize (Pl i); lia].
  cbn [bind] in Nj. unfold px_get_index, get_index_from_strides in Nj. rewrite P2', P3 in Nj. rewrite GridProofs2.col_major_strides_length, Hl, Nat.eqb_refl, wrap_length, Nat.eqb_refl in Nj by exact Lc. cbn [negb] in Nj. injection Nj as Nj.
  destruct (stride_sum_zero (col_major_strides n) loc (wrap n (add_coords base (bits (length n) 0))) 0) as (_ & X).
  - rewrite GridProofs2.col_major_strides_length. congruence.
  - rewrite wrap_length by exact Lc. congruence.
  - now apply col_major_strides_pos.
  - exact Pl.
  - intros i. destruct (Nat.lt_ge_cases i (length n)) as [Hi|Hi]; [|unfold zn; apply nth_overflow; rewrite wrap_length by exact Lc; exact Hi].
    rewrite wrap_zn by assumption. rewrite Ha by exact Hi. pose proof (zn_pos n i F Hi). rewrite Zplus_mod_idemp_r. rewrite Z.add_opp_diag_r. apply Z.mod_0_l. lia.
  - specialize (X Nz). unfold stride_sum in Nj. lia.
Qed.
