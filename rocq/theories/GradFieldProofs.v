(** Lemmas about the gradient operator on fields. *)
From Verif Require Import Base GridModel GridSpec GridProofs StridedModel LayoutModel LayoutSpec LayoutProofs LayoutProofs2 FieldModel FieldSpec FieldProofs.
From Verif Require Import RingModel RingProofs GradModel GradSpec GradProofs GradProofs2 GradProofs3 GradProofs4 GradProofs5 EigenSpec EigenProofs GradFieldModel GradFieldSpec GradProps.
Local Open Scope list_scope.

Section OnFields.
Context {R : Type} (o : ops R).
Implicit Types f u : field R.

Lemma on_grid_field n p f : on_grid n p f ->
  is_field n (Z.to_nat (l_nbc (f_lay f))) (Z.to_nat (l_nsub (f_lay f))) (op_field f).
Proof.
  intros (Rd & G & O & N & S & U & P). unfold is_field, op_field. cbn [fd_global fd_colmajor fd_comps fd_pts fd_mem]. rewrite O.
  do 4 (split; [first [exact G|reflexivity]|]). pose proof Rd as (Sn & _ & _ & _ & Np & [H0 _] & _ & L).
  unfold len, buffer_scalars in L. rewrite P, U in L. rewrite N in Np. rewrite Np in L, H0.
  destruct Sn as (Nb & Fc & Ns & _). assert (0 < l_nbc (f_lay f)) by (rewrite Nb; now apply zprod_pos).
  assert (Z.of_nat (length (f_vals f)) = Z.of_nat (Z.to_nat (zprod n) * (Z.to_nat (l_nbc (f_lay f)) * Z.to_nat (l_nsub (f_lay f))))%nat); [|lia].
  rewrite L, !Nat2Z.inj_mul, !Z2Nat.id by lia. ring.
Qed.

Lemma nth_rd (l : list R) i x : rd l i = Ok x -> nth (Z.to_nat i) l (zero o) = x.
Proof.
  unfold rd. destruct (i <? 0); [discriminate|]. destruct (nth_error l (Z.to_nat i)) as [y|] eqn:E; [|discriminate].
  intros H. apply Ok_inj in H. subst y. now apply nth_error_nth.
Qed.
Lemma rd_nth (l : list R) i : 0 <= i < Z.of_nat (length l) -> exists x, rd l i = Ok x.
Proof.
  intros H. unfold rd. replace (i <? 0) with false by lia. destruct (nth_error l (Z.to_nat i)) as [y|] eqn:E; [eauto|].
  apply nth_error_None in E. lia.
Qed.

(** The value that the operator sees is the one that the field holds. *)
Lemma value_seen n p f comp q c : grid_of n p -> on_grid n p f -> entry_of f comp q c ->
  FieldSpec.value f (comp ++ [q] ++ c) = Ok (val o f comp q c) /\
  GradSpec.value o p (op_field f) c (Z.to_nat q) (Z.to_nat (rank_of (l_comp (f_lay f)) comp)) = val o f comp q c.
Proof.
  intros G H E. pose proof H as (Rd & _ & O & N & S & _). pose proof E as (E1 & E2 & E3).
  destruct (place f comp q c Rd O E1 E2 E3) as (s & Es & Eo & Hb). rewrite (entry_rank f comp q c E) in Eo.
  unfold val. rewrite (value_off f _ s Es). destruct (rd_nth (f_vals f) _ Hb) as (x & Ex). rewrite Ex. split; [reflexivity|].
  destruct (grid_good n p G) as (_ & _ & L0 & L1).
  assert (Lc : length c = length n) by (rewrite <- N; now apply in_shape_length).
  assert (I : px_get_index p c = Ok (off (l_pstr (f_lay f)) c)).
  { destruct (grid_index n p c G) as (i & Ei & _); [apply in_box_zero; now rewrite <- N|]. rewrite Ei. f_equal.
    unfold px_get_index in Ei. rewrite L0 in Ei. apply get_index_off in Ei; [|now rewrite repeat_length].
    rewrite <- Lc, combine_zero, <- S in Ei. exact Ei. }
  unfold GradSpec.value. rewrite I. unfold op_field. cbn [fd_comps fd_pts fd_mem].
  rewrite <- (nth_rd _ _ _ Ex). f_equal. rewrite Eo in Hb |- *.
  pose proof Rd as ((Nb & Fc & Ns & _) & _). assert (0 < l_nbc (f_lay f)) by (rewrite Nb; now apply zprod_pos).
  assert (0 <= rank_of (l_comp (f_lay f)) comp).
  { rewrite <- (entry_rank f comp q c E). destruct (comp_bij f Rd) as (_ & W & _). apply (W comp E1). }
  assert (0 <= off (l_pstr (f_lay f)) c).
  { destruct Rd as ((_ & _ & _ & _ & Em) & _). destruct Em as (_ & W & _). apply (W c E3). }
  apply Nat2Z.inj. rewrite !Nat2Z.inj_add, !Nat2Z.inj_mul, !Z2Nat.id by nia. ring.
Qed.

Lemma op_field_with f m : fd_global m = f_glob f -> fd_colmajor m = fd_colmajor (op_field f) -> fd_comps m = Z.to_nat (l_nbc (f_lay f)) ->
  fd_pts m = Z.to_nat (l_nsub (f_lay f)) -> op_field (with_vals f (fd_mem m)) = m.
Proof.
  destruct m as [a b c d e]. unfold op_field, with_vals. cbn [fd_global fd_colmajor fd_comps fd_pts fd_mem f_glob f_lay f_vals].
  intros -> -> -> ->. reflexivity.
Qed.
Lemma on_grid_with n p f v : on_grid n p f -> length v = length (f_vals f) -> on_grid n p (with_vals f v).
Proof.
  intros (Rd & H) L. split; [|exact H]. destruct Rd as (S & I & P & Pd & Np & Nb & C & Ln).
  unfold ready, with_vals. cbn [f_lay f_init f_ptr f_gen f_pad f_cur f_vals]. unfold len in *. rewrite L. tauto.
Qed.

Lemma field_gradient_formula sd nq ne nen npn (d : discretisation R) g n p u q :
  lawful o -> (1 <= sd <= 3)%nat -> valid_disc sd ne nen npn d -> construct o sd nq ne nen npn (grads_of sd nq ne nen d) (pts_of sd ne nen d) = Ok g ->
  grid_of n p -> length n = sd -> on_grid n p u -> on_grid n p q ->
  l_nsub (f_lay u) = Z.of_nat npn -> l_nsub (f_lay q) = Z.of_nat (nq * ne) -> l_nbc (f_lay q) = Z.of_nat sd * l_nbc (f_lay u) ->
  exists q1, field_gradient o g p u q = (q1, Ok tt) /\ on_grid n p q1 /\ f_lay q1 = f_lay q /\ forall cu cq c e i k, in_shape (l_comp (f_lay u)) cu -> in_shape (l_comp (f_lay q)) cq -> in_shape n c ->
      (e < ne)%nat -> (i < nq)%nat -> (k < sd)%nat ->
      rank_of (l_comp (f_lay q)) cq = Z.of_nat k * l_nbc (f_lay u) + rank_of (l_comp (f_lay u)) cu ->
      val o q1 cq (Z.of_nat (e * nq + i)) c = derivative o n nen d (fun c' m => val o u cu (Z.of_nat m) c') c e i k.
Proof.
  intros L Hsd V Eg G Hn Hu Hq Su Sq Nq.
  pose proof (on_grid_field n p u Hu) as Fu. pose proof (on_grid_field n p q Hq) as Fq.
  pose proof Hu as (Ru & _ & Ou & Nu & _). pose proof Ru as ((Nbu & Fcu & _) & _).
  assert (Pu : 0 < l_nbc (f_lay u)) by (rewrite Nbu; now apply zprod_pos).
  rewrite Su, Nat2Z.id in Fu. rewrite Sq, Nat2Z.id, Nq in Fq. rewrite Z2Nat.inj_mul, Nat2Z.id in Fq by lia.
  destruct (C32_gradient o sd nq ne nen npn (Z.to_nat (l_nbc (f_lay u))) d g n p _ _ L Hsd V Eg G Hn ltac:(lia) Fu Fq) as (m & E & Fm & W).
  pose proof Fm as (M1 & M2 & M3 & M4 & M5). pose proof Fq as (Q1 & Q2 & Q3 & Q4 & Q5).
  exists (with_vals q (fd_mem m)). unfold field_gradient. rewrite E. cbn [fst snd]. split; [reflexivity|].
  assert (Em : op_field (with_vals q (fd_mem m)) = m).
  { apply op_field_with; [now rewrite M1; destruct Hq as (_ & -> & _)|now rewrite M2, Q2| |].
    - rewrite M3, Nq, Z2Nat.inj_mul, Nat2Z.id by lia. reflexivity.
    - now rewrite M4, Sq, Nat2Z.id. }
  assert (H1 : on_grid n p (with_vals q (fd_mem m))).
  { apply on_grid_with; [exact Hq|]. rewrite M5. symmetry. exact Q5. }
  split; [exact H1|]. split; [reflexivity|]. intros cu cq c e i k Hcu Hcq Hc He Hi Hk Er.
  assert (Eq : entry_of (with_vals q (fd_mem m)) cq (Z.of_nat (e * nq + i)) c).
  { split; [exact Hcq|]. unfold with_vals. cbn [f_lay]. split; [rewrite Sq; nia|]. destruct Hq as (_ & _ & _ & -> & _). exact Hc. }
  destruct (value_seen n p _ _ _ _ G H1 Eq) as [_ X]. rewrite <- X, Em, Nat2Z.id. unfold with_vals. cbn [f_lay]. rewrite Er. clear X.
  assert (Hr : 0 <= rank_of (l_comp (f_lay u)) cu < l_nbc (f_lay u)).
  { destruct (comp_bij u Ru) as (_ & B & _). specialize (B cu Hcu). rewrite off_running in B; [exact B|]. now apply in_shape_length. }
  rewrite Z2Nat.inj_add, Z2Nat.inj_mul, Nat2Z.id by nia.
  rewrite W; [|now apply in_box_zero|exact He|exact Hi|exact Hk|lia].
  destruct G as [Fn G']. assert (G : grid_of n p) by (split; assumption).
  unfold derivative. apply (below_ext o). intros j Hj. f_equal.
  destruct (V e j He Hj) as (Vn & Vl & _).
  assert (Eu : entry_of u cu (Z.of_nat (node d e j)) (wrap n (add_coords c (offset d e j)))).
  { split; [exact Hcu|]. split; [rewrite Su; lia|]. rewrite Nu. apply in_box_zero. apply wrap_in_box; [exact Fn|].
    rewrite GridProofs.add_coords_length; [exact (in_shape_length n c Hc)|]. rewrite Vl, (in_shape_length n c Hc). exact Hn. }
  destruct (value_seen n p u _ _ _ G Hu Eu) as [_ X]. rewrite <- X, Nat2Z.id. reflexivity.
Qed.

(** With weights that are equal, or none. *)
Lemma field_adjoint sd nq ne nen npn (d : discretisation R) g n p u v q0 n0 ws w :
  lawful o -> (1 <= sd <= 3)%nat -> valid_disc sd ne nen npn d -> construct o sd nq ne nen npn (grads_of sd nq ne nen d) (pts_of sd ne nen d) = Ok g ->
  grid_of n p -> length n = sd -> (0 < nq * ne)%nat -> on_grid n p u -> on_grid n p v -> on_grid n p q0 -> on_grid n p n0 ->
  l_nsub (f_lay u) = Z.of_nat npn -> l_nsub (f_lay n0) = Z.of_nat npn -> l_nsub (f_lay v) = Z.of_nat (nq * ne) -> l_nsub (f_lay q0) = Z.of_nat (nq * ne) ->
  l_nbc (f_lay n0) = l_nbc (f_lay u) -> l_nbc (f_lay v) = Z.of_nat sd * l_nbc (f_lay u) -> l_nbc (f_lay q0) = Z.of_nat sd * l_nbc (f_lay u) ->
  ws = [] /\ w = one o \/ ws = repeat w (nq * ne) ->
  exists du tv, field_gradient o g p u q0 = (du, Ok tt) /\ field_transpose o g p v n0 ws = (tv, Ok tt) /\ on_grid n p tv /\ f_lay tv = f_lay n0 /\
    dot_product o (f_vals tv) (f_vals u) = mul o w (dot_product o (f_vals du) (f_vals v)).
Proof.
  intros L Hsd V Eg G Hn Hp Hu Hv Hq Hn0 Su Sn Sv Sq Nn Nv Nq Hw.
  pose proof (on_grid_field n p u Hu) as Fu. pose proof (on_grid_field n p v Hv) as Fv.
  pose proof (on_grid_field n p q0 Hq) as Fq. pose proof (on_grid_field n p n0 Hn0) as Fn.
  pose proof Hu as (((Nbu & Fcu & _) & _) & _). assert (Pu : 0 < l_nbc (f_lay u)) by (rewrite Nbu; now apply zprod_pos).
  rewrite Su, Nat2Z.id in Fu. rewrite Sn, Nat2Z.id, Nn in Fn. rewrite Sv, Nat2Z.id, Nv, Z2Nat.inj_mul, Nat2Z.id in Fv by lia.
  rewrite Sq, Nat2Z.id, Nq, Z2Nat.inj_mul, Nat2Z.id in Fq by lia.
  destruct (C32_gradient o sd nq ne nen npn (Z.to_nat (l_nbc (f_lay u))) d g n p _ _ L Hsd V Eg G Hn ltac:(lia) Fu Fq) as (du & E1 & _).
  assert (Hz : is_field n (Z.to_nat (l_nbc (f_lay u))) npn (set_zero o (op_field n0))).
  { destruct Fn as (H1 & H2 & H3 & H4 & H5). split; [exact H1|split; [exact H2|split; [exact H3|split; [exact H4|]]]]. unfold set_zero. cbn [fd_mem with_mem]. now rewrite map_length. }
  destruct (transpose_returns o L sd nq ne nen npn (Z.to_nat (l_nbc (f_lay u))) d g n p (op_field v) (one o) ws (set_zero o (op_field n0)) Hsd V Eg G Hn ltac:(lia) Hp Hz Fv) as (tv & E2 & F2).
  { destruct Hw as [[-> _]| ->]; [now left|right; rewrite repeat_length; lia]. }
  assert (E2' : apply_transpose o g p (op_field v) (op_field n0) ws = (tv, Ok tt)) by (unfold apply_transpose; now rewrite E2).
  assert (Ec : fd_comps (op_field u) = fd_comps (op_field n0)) by (cbn [op_field fd_comps]; now rewrite Nn).
  unfold field_gradient, field_transpose. rewrite E1, E2'. cbn [fst snd]. do 2 eexists. split; [reflexivity|]. split; [reflexivity|].
  split; [apply on_grid_with; [exact Hn0|]; destruct F2 as (_ & _ & _ & _ & ->); destruct Fn as (_ & _ & _ & _ & F5); symmetry; exact F5|]. split; [reflexivity|]. cbn [with_vals f_vals].
  destruct Hw as [[-> ->]| ->].
  - rewrite (Ring_theory.Rmul_1_l L). exact (adjoint_default o L g p _ _ _ _ du tv E1 E2' Ec).
  - destruct (nq * ne)%nat as [|k] eqn:Ek; [lia|]. exact (adjoint_uniform o L g p _ _ _ _ w k du tv E1 E2' Ec).
Qed.
End OnFields.
