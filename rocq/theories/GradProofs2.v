(** What a call of the gradient operator and of its transpose computes. *)
From Coq Require Import ZArith Ring Permutation.
From Verif Require Import Base GridModel GridSpec RingModel RingProofs GradModel GradSpec GradProofs.
Local Open Scope list_scope.

Definition index_of (r : res Z) : nat := match r with Ok j => Z.to_nat j | _ => 0%nat end.

Section Runs.
Context {R : Type} (o : ops R).

(** A step: a pixel (index, coordinates) and an offset (position, coordinates). *)
Definition step_t : Type := (Z * list Z) * (nat * list Z).
Definition st_id (x : step_t) : nat := Z.to_nat (fst (fst x)).
Definition st_j (p : pixels) (x : step_t) : nat := index_of (neighbour p (snd (fst x)) (snd (snd x))).
Definition step_ok (g : gop R) (p : pixels) (nodal quad : gfield R) (x : step_t) : res unit :=
  let! j := neighbour p (snd (fst x)) (snd (snd x)) in
  if points_fit g nodal quad && in_buffer quad (fst (fst x)) && in_buffer nodal j then Ok tt else UB.
Definition tstep_ok (g : gop R) (p : pixels) (nodal quad : gfield R) (ws : list R) (x : step_t) : res unit :=
  let! _ := step_ok g p nodal quad x in
  if negb (nb_pixel_quad_pts g =? 0)%nat && (st_id x mod nb_pixel_quad_pts g <? length ws)%nat then Ok tt else UB.

Lemma shape_eqs (s s0 : gfield R) : shape_of s = shape_of s0 ->
  fd_comps s = fd_comps s0 /\ fd_pts s = fd_pts s0 /\ length (fd_mem s) = length (fd_mem s0).
Proof. unfold shape_of. intros H. injection H as _ _ H1 H2 H3. auto. Qed.
Lemma in_buffer_shape (s s0 : gfield R) i : shape_of s = shape_of s0 -> in_buffer s i = in_buffer s0 i.
Proof. intros H. destruct (shape_eqs _ _ H) as (H1 & H2 & H3). unfold in_buffer, px_stride. now rewrite H1, H2, H3. Qed.
Lemma step_ok_shape g p n q n0 q0 x : shape_of n = shape_of n0 -> shape_of q = shape_of q0 -> step_ok g p n q x = step_ok g p n0 q0 x.
Proof.
  intros Hn Hq. unfold step_ok. destruct (neighbour p (snd (fst x)) (snd (snd x))) as [j| |]; cbn [bind]; [|reflexivity|reflexivity].
  rewrite (in_buffer_shape q q0), (in_buffer_shape n n0) by assumption. unfold points_fit.
  destruct (shape_eqs _ _ Hn) as (_ & -> & _). destruct (shape_eqs _ _ Hq) as (_ & -> & _). reflexivity.
Qed.

Definition gsteps (g : gop R) (p : pixels) (alpha : R) (nodal quad : gfield R) (xs : list step_t) : list (nat * (nat -> R)) :=
  map (fun x => (st_id x * px_stride quad, grad_increment o g alpha nodal (st_j p x) (fst (snd x)))%nat) xs.
Definition tsteps (g : gop R) (p : pixels) (alpha : R) (ws : list R) (nodal quad : gfield R) (xs : list step_t) : list (nat * (nat -> R)) :=
  map (fun x => (st_j p x * px_stride nodal,
                 transpose_increment o g alpha (nth (st_id x mod nb_pixel_quad_pts g) ws (zero o)) quad (fd_comps nodal) (st_id x) (fst (snd x)))%nat) xs.

Lemma grad_run g p nodal alpha quad :
  (forall quad', apply_gradient_increment o g p nodal alpha quad = Ok quad' ->
     fields_fit g nodal quad = Ok tt /\ exists offs pxs, stencil (op_dim g) = Ok offs /\ px_enumerate p = Ok pxs /\
     (forall x, In x (list_prod pxs offs) -> step_ok g p nodal quad x = Ok tt) /\
     quad' = with_mem quad (updates o (px_stride quad) (gsteps g p alpha nodal quad (list_prod pxs offs)) (fd_mem quad))) /\
  (forall offs pxs, fields_fit g nodal quad = Ok tt -> stencil (op_dim g) = Ok offs -> px_enumerate p = Ok pxs ->
     (forall x, In x (list_prod pxs offs) -> step_ok g p nodal quad x = Ok tt) ->
     apply_gradient_increment o g p nodal alpha quad =
       Ok (with_mem quad (updates o (px_stride quad) (gsteps g p alpha nodal quad (list_prod pxs offs)) (fd_mem quad)))).
Proof.
  assert (B : forall s (x : step_t), shape_of s = shape_of quad ->
    grad_body o g p alpha nodal (fst (fst x)) (snd (fst x)) s (snd x) =
    let! _ := step_ok g p nodal quad x in Ok (with_mem s (blk_add o (fd_mem s) (st_id x * px_stride quad) (px_stride quad) (grad_increment o g alpha nodal (st_j p x) (fst (snd x)))))).
  { intros s x Hs. unfold grad_body, step_ok, st_j. destruct (neighbour p (snd (fst x)) (snd (snd x))) as [j| |]; cbn [bind index_of]; [|reflexivity|reflexivity].
    rewrite (in_buffer_shape s quad) by exact Hs. unfold points_fit. destruct (shape_eqs _ _ Hs) as (H1 & H2 & _). rewrite H2.
    destruct (_ && _ && _); cbn [bind]; [|reflexivity]. unfold px_stride. now rewrite H1, H2. }
  unfold apply_gradient_increment. split.
  - intros quad' E. destruct (fields_fit g nodal quad) as [[]| |]; cbn [bind] in E; try discriminate. split; [reflexivity|].
    destruct (stencil (op_dim g)) as [offs| |]; cbn [bind] in E; try discriminate. destruct (px_enumerate p) as [pxs| |]; cbn [bind] in E; try discriminate.
    exists offs, pxs. split; [reflexivity|split; [reflexivity|]].
    rewrite (loop_nested (fun px q off => grad_body o g p alpha nodal (fst px) (snd px) q off)) in E.
    exact (proj1 (loop_ok o _ _ (fun x => st_id x * px_stride quad)%nat _ (fun x => grad_increment o g alpha nodal (st_j p x) (fst (snd x))) quad (list_prod pxs offs) B) quad' E).
  - intros offs pxs -> -> -> H. cbn [bind].
    rewrite (loop_nested (fun px q off => grad_body o g p alpha nodal (fst px) (snd px) q off)).
    exact (proj2 (loop_ok o _ _ (fun x => st_id x * px_stride quad)%nat _ (fun x => grad_increment o g alpha nodal (st_j p x) (fst (snd x))) quad (list_prod pxs offs) B) H).
Qed.

Definition weights_used (g : gop R) (ws : list R) : list R := match ws with [] => repeat (one o) (nb_pixel_quad_pts g) | _ => ws end.

Lemma transpose_run g p quad alpha nodal ws0 : let ws := weights_used g ws0 in
  (forall nodal', apply_transpose_increment o g p quad alpha nodal ws0 = Ok nodal' ->
     fields_fit g nodal quad = Ok tt /\ exists offs pxs, stencil (op_dim g) = Ok offs /\ px_enumerate p = Ok pxs /\
     (forall x, In x (list_prod pxs offs) -> tstep_ok g p nodal quad ws x = Ok tt) /\
     nodal' = with_mem nodal (updates o (px_stride nodal) (tsteps g p alpha ws nodal quad (list_prod pxs offs)) (fd_mem nodal))) /\
  (forall offs pxs, fields_fit g nodal quad = Ok tt -> stencil (op_dim g) = Ok offs -> px_enumerate p = Ok pxs ->
     (forall x, In x (list_prod pxs offs) -> tstep_ok g p nodal quad ws x = Ok tt) ->
     apply_transpose_increment o g p quad alpha nodal ws0 =
       Ok (with_mem nodal (updates o (px_stride nodal) (tsteps g p alpha ws nodal quad (list_prod pxs offs)) (fd_mem nodal)))).
Proof.
  intros ws. assert (B : forall s (x : step_t), shape_of s = shape_of nodal ->
    transpose_body o g p alpha ws quad (fst (fst x)) (snd (fst x)) s (snd x) =
    let! _ := tstep_ok g p nodal quad ws x in Ok (with_mem s (blk_add o (fd_mem s) (st_j p x * px_stride nodal) (px_stride nodal)
      (transpose_increment o g alpha (nth (st_id x mod nb_pixel_quad_pts g) ws (zero o)) quad (fd_comps nodal) (st_id x) (fst (snd x)))))).
  { intros s x Hs. unfold transpose_body, tstep_ok, step_ok, st_j. destruct (neighbour p (snd (fst x)) (snd (snd x))) as [j| |]; cbn [bind index_of]; [|reflexivity|reflexivity].
    rewrite (in_buffer_shape s nodal) by exact Hs. unfold points_fit. destruct (shape_eqs _ _ Hs) as (H1 & H2 & _). rewrite H2.
    destruct (_ && in_buffer quad _ && _); cbn [bind andb]; [|reflexivity]. destruct (nb_pixel_quad_pts g =? 0)%nat; cbn [negb andb bind]; [reflexivity|].
    fold (st_id x). destruct (nth_error ws (st_id x mod nb_pixel_quad_pts g)) as [w|] eqn:E.
    - rewrite (proj2 (Nat.ltb_lt _ _)) by (apply nth_error_Some; congruence). rewrite (nth_error_nth _ _ _ E). cbn [bind]. unfold px_stride. now rewrite H1, H2.
    - apply nth_error_None in E. destruct (Nat.ltb_spec (st_id x mod nb_pixel_quad_pts g) (length ws)); [lia|reflexivity]. }
  unfold apply_transpose_increment. fold (weights_used g ws0). fold ws. cbv zeta. split.
  - intros nodal' E. destruct (fields_fit g nodal quad) as [[]| |]; cbn [bind] in E; try discriminate. split; [reflexivity|].
    destruct (stencil (op_dim g)) as [offs| |]; cbn [bind] in E; try discriminate. destruct (px_enumerate p) as [pxs| |]; cbn [bind] in E; try discriminate.
    exists offs, pxs. split; [reflexivity|split; [reflexivity|]].
    rewrite (loop_nested (fun px q off => transpose_body o g p alpha ws quad (fst px) (snd px) q off)) in E.
    exact (proj1 (loop_ok o _ _ (fun x => st_j p x * px_stride nodal)%nat _ (fun x => transpose_increment o g alpha (nth (st_id x mod nb_pixel_quad_pts g) ws (zero o)) quad (fd_comps nodal) (st_id x) (fst (snd x))) nodal (list_prod pxs offs) B) nodal' E).
  - intros offs pxs -> -> -> H. cbn [bind].
    rewrite (loop_nested (fun px q off => transpose_body o g p alpha ws quad (fst px) (snd px) q off)).
    exact (proj2 (loop_ok o _ _ (fun x => st_j p x * px_stride nodal)%nat _ (fun x => transpose_increment o g alpha (nth (st_id x mod nb_pixel_quad_pts g) ws (zero o)) quad (fd_comps nodal) (st_id x) (fst (snd x))) nodal (list_prod pxs offs) B) H).
Qed.

Lemma fields_fit_facts (g : gop R) (nodal quad : gfield R) : fields_fit g nodal quad = Ok tt ->
  fd_global nodal = true /\ fd_global quad = true /\ fd_colmajor nodal = true /\ fd_colmajor quad = true /\
  fd_comps quad = (op_dim g * fd_comps nodal)%nat /\ fd_comps nodal <> 0%nat.
Proof.
  unfold fields_fit. destruct (fd_global quad); [|discriminate]. destruct (fd_global nodal); [|discriminate]. cbn [negb].
  destruct (Nat.eqb_spec (fd_comps quad) (op_dim g * fd_comps nodal)); [|discriminate]. cbn [negb].
  destruct (Nat.eqb_spec (fd_comps nodal) 0); [discriminate|]. destruct (fd_colmajor nodal); [|discriminate]. cbn [negb]. destruct (fd_colmajor quad); [|discriminate]. auto 8.
Qed.
Lemma step_ok_facts (g : gop R) p nodal quad x : step_ok g p nodal quad x = Ok tt ->
  exists j, neighbour p (snd (fst x)) (snd (snd x)) = Ok j /\ st_j p x = Z.to_nat j /\ 0 <= j /\ 0 <= fst (fst x) /\
    fd_pts nodal = op_npn g /\ fd_pts quad = nb_pixel_quad_pts g /\
    (st_id x * px_stride quad + px_stride quad <= length (fd_mem quad))%nat /\
    (st_j p x * px_stride nodal + px_stride nodal <= length (fd_mem nodal))%nat.
Proof.
  unfold step_ok, st_j. destruct (neighbour p (snd (fst x)) (snd (snd x))) as [j| |]; cbn [bind]; try discriminate. intros H. exists j.
  destruct (points_fit g nodal quad) eqn:P; [|discriminate]. destruct (in_buffer quad _) eqn:Q; [|discriminate]. destruct (in_buffer nodal j) eqn:N; [|discriminate].
  unfold points_fit in P. unfold in_buffer in Q, N. apply andb_prop in P, Q, N. destruct P as (P1 & P2), Q as (Q1 & Q2), N as (N1 & N2).
  apply Nat.eqb_eq in P1, P2. apply Z.leb_le in Q1, N1. apply Nat.leb_le in Q2, N2. cbn [index_of]. unfold st_id. auto 10.
Qed.
Lemma tstep_ok_facts (g : gop R) p nodal quad ws x : tstep_ok g p nodal quad ws x = Ok tt ->
  step_ok g p nodal quad x = Ok tt /\ nb_pixel_quad_pts g <> 0%nat /\ (st_id x mod nb_pixel_quad_pts g < length ws)%nat.
Proof.
  unfold tstep_ok. destruct (step_ok g p nodal quad x) as [[]| |]; cbn [bind]; try discriminate. intros H. split; [reflexivity|].
  destruct (Nat.eqb_spec (nb_pixel_quad_pts g) 0); [discriminate|]. cbn [negb andb] in H. destruct (Nat.ltb_spec (st_id x mod nb_pixel_quad_pts g) (length ws)); [auto|discriminate].
Qed.

Lemma finish_ok (before f : gfield R) r : finish before r = (f, Ok tt) -> r = Ok f.
Proof. destruct r; cbn; congruence. Qed.
Lemma set_zero_shape (f : gfield R) : shape_of (set_zero o f) = shape_of f.
Proof. unfold set_zero. apply with_mem_shape. apply map_length. Qed.
Lemma set_zero_nth (f : gfield R) i : nth i (fd_mem (set_zero o f)) (zero o) = zero o.
Proof. unfold set_zero. cbn [fd_mem with_mem]. revert i. induction (fd_mem f) as [|x l IH]; intros [|i]; cbn; auto. Qed.
End Runs.

Section Adjoint.
Context {R : Type} (o : ops R) (L : lawful o).
Definition laws3 : ring_theory (zero o) (one o) (add o) (mul o) (sub o) (opp o) eq := L.
Add Ring o_ring3 : laws3.

Lemma dot_zero (f : gfield R) w : dot_product o (fd_mem (set_zero o f)) w = zero o.
Proof. unfold dot_product. apply (below_zero o L). intros i _. rewrite set_zero_nth. ring. Qed.

(** Pairing of both kinds of block. *)
Lemma block_adjoint (g : gop R) (u v : list R) (C npn G idx pu pv : nat) (w : R) (B : nat -> nat -> R) : C <> 0%nat ->
  mul o w (sum_below o (C * G) (fun k => mul o (sum_below o npn (fun m => mul o (mul o (one o) (nth (pu + m * C + k mod C) u (zero o))) (B (k / C)%nat (idx * npn + m)%nat))) (nth (pv + k) v (zero o)))) =
  sum_below o (C * npn) (fun k => mul o (sum_below o G (fun m => mul o (mul o (one o) (mul o (nth (pv + m * C + k mod C) v (zero o)) w)) (B m (idx * npn + k / C)%nat))) (nth (pu + k) u (zero o))).
Proof.
  intros HC.
  assert (Dm : forall r c, (r < C)%nat -> ((r + c * C) mod C = r /\ (r + c * C) / C = c)%nat).
  { intros r c Hr. split; [rewrite Nat.mod_add by exact HC; now apply Nat.mod_small|]. rewrite Nat.div_add by exact HC. now rewrite Nat.div_small. }
  rewrite !(below_mul o L).
  transitivity (sum_below o G (fun c => sum_below o C (fun r => sum_below o npn (fun m =>
     mul o (mul o w (mul o (nth (pu + m * C + r) u (zero o)) (B c (idx * npn + m)%nat))) (nth (pv + (r + c * C)) v (zero o)))))).
  { rewrite <- (below_scale o L). apply (below_ext o). intros c _. rewrite <- (below_scale o L). apply (below_ext o). intros r Hr. destruct (Dm r c Hr) as (-> & ->).
    rewrite <- (below_scale_r o L), <- (below_scale o L). apply (below_ext o). intros m _. ring. }
  rewrite (below_swap o L). transitivity (sum_below o C (fun r => sum_below o npn (fun m => sum_below o G (fun c => 
     mul o (mul o w (mul o (nth (pu + m * C + r) u (zero o)) (B c (idx * npn + m)%nat))) (nth (pv + (r + c * C)) v (zero o)))))).
  { apply (below_ext o). intros r _. apply (below_swap o L). }
  rewrite (below_swap o L). apply (below_ext o). intros m _. apply (below_ext o). intros r Hr. destruct (Dm r m Hr) as (-> & ->).
  rewrite <- (below_scale_r o L). apply (below_ext o). intros c _. replace (pu + (r + m * C))%nat with (pu + m * C + r)%nat by lia. replace (pv + (r + c * C))%nat with (pv + c * C + r)%nat by lia. ring.
Qed.

(** The adjoint with the weights the code uses: pixel [i] gets weight
    [i mod nb_pixel_quad_pts]. *)
Lemma adjoint_weighted g p u v q0 n0 ws du tv :
  apply_gradient o g p u q0 = (du, Ok tt) -> apply_transpose o g p v n0 ws = (tv, Ok tt) -> fd_comps u = fd_comps n0 ->
  dot_product o (fd_mem tv) (fd_mem u) =
  sum_below o (length (fd_mem du)) (fun i =>
    mul o (nth (i / px_stride du mod nb_pixel_quad_pts g) (weights_used o g ws) (zero o)) (mul o (nth i (fd_mem du) (zero o)) (nth i (fd_mem v) (zero o)))).
Proof.
  intros G T HC. apply finish_ok in G, T. destruct (proj1 (grad_run o g p u (one o) (set_zero o q0)) du G) as (F1 & offs & pxs & E1 & E2 & O1 & ->).
  destruct (proj1 (transpose_run o g p v (one o) (set_zero o n0) ws) tv T) as (F2 & offs' & pxs' & E1' & E2' & O2 & ->).
  rewrite E1 in E1'. injection E1' as <-. rewrite E2 in E2'. injection E2' as <-. clear E1 E2 G T.
  apply fields_fit_facts in F1, F2. destruct F1 as (_ & _ & _ & _ & F1 & C0), F2 as (_ & _ & _ & _ & F2 & _).
  set (Q := set_zero o q0) in *. set (N := set_zero o n0) in *. set (W := weights_used o g ws) in *. set (xs := list_prod pxs offs) in *.
  assert (HN : fd_comps N = fd_comps u) by (unfold N; destruct (shape_eqs _ _ (set_zero_shape o n0)) as (-> & _); congruence).
  cbn [fd_mem with_mem].
  rewrite (dot_updates o L).
  2:{ intros up Hu. unfold tsteps in Hu. apply in_map_iff in Hu. destruct Hu as (x & <- & Ix). cbn [fst]. apply O2, tstep_ok_facts in Ix. destruct Ix as (Ix & _). apply step_ok_facts in Ix. destruct Ix as (j & _ & _ & _ & _ & _ & _ & _ & Ix). exact Ix. }
  rewrite (dot_zero n0). fold N.
  transitivity (dot_product o (updates o (px_stride Q) (gsteps o g p (one o) u Q xs) (fd_mem Q))
    (map (fun i => mul o (nth (i / px_stride Q mod nb_pixel_quad_pts g) W (zero o)) (nth i (fd_mem v) (zero o))) (seq 0 (length (fd_mem Q))))).
  2:{ unfold dot_product. rewrite updates_length. apply (below_ext o). intros i Hi. rewrite nth_map_seq by exact Hi. unfold px_stride. cbn [fd_comps fd_pts with_mem]. ring. }
  rewrite (dot_updates o L).
  2:{ intros up Hu. unfold gsteps in Hu. apply in_map_iff in Hu. destruct Hu as (x & <- & Ix). cbn [fst]. apply O1, step_ok_facts in Ix. destruct Ix as (j & _ & _ & _ & _ & _ & _ & Ix & _). exact Ix. }
  unfold Q at 3. rewrite (dot_zero q0). f_equal. unfold gsteps, tsteps. rewrite !sum_map. apply (sum_ext o). intros x Ix. cbn [fst snd].
  pose proof (O1 x Ix) as X1. pose proof (O2 x Ix) as X2. apply tstep_ok_facts in X2. destruct X2 as (X2 & Nz & _). apply step_ok_facts in X1, X2.
  destruct X1 as (j & J1 & J2 & _ & _ & Pu & Pq & Bq & _), X2 as (j' & J1' & _ & _ & _ & Pn & Pv & _ & _).
  symmetry. unfold grad_increment, transpose_increment.
  assert (Sq : px_stride Q = (fd_comps u * (op_dim g * nb_pixel_quad_pts g))%nat) by (unfold px_stride; rewrite F1, Pq; ring).
  assert (Sv : px_stride v = (fd_comps u * (op_dim g * nb_pixel_quad_pts g))%nat) by (unfold px_stride; rewrite F2, Pv, HN; ring).
  assert (Sn : px_stride N = (fd_comps u * op_npn g)%nat) by (unfold px_stride; now rewrite HN, Pn).
  assert (Su : px_stride u = (fd_comps u * op_npn g)%nat) by (unfold px_stride; now rewrite Pu).
  rewrite HN.
  transitivity (mul o (nth (st_id x mod nb_pixel_quad_pts g) W (zero o)) (sum_below o (px_stride Q) (fun k => mul o
     (sum_below o (op_npn g) (fun m => mul o (mul o (one o) (nth (st_j p x * px_stride u + m * fd_comps u + k mod fd_comps u) (fd_mem u) (zero o))) (B_at o g (k / fd_comps u)%nat (fst (snd x) * op_npn g + m)))) (nth (st_id x * px_stride Q + k) (fd_mem v) (zero o))))).
  { rewrite <- (below_scale o L). apply (below_ext o). intros k Hk. 
    assert (Hi : (st_id x * px_stride Q + k < length (fd_mem Q))%nat) by lia.
    rewrite nth_map_seq by exact Hi.
    replace ((st_id x * px_stride Q + k) / px_stride Q)%nat with (st_id x) by (rewrite Nat.div_add_l, (Nat.div_small k) by lia; lia). ring. }
  rewrite Sq, Sv, Sn, Su. apply (block_adjoint g); exact C0.
Qed.

Lemma adjoint_default g p u v q0 n0 du tv :
  apply_gradient o g p u q0 = (du, Ok tt) -> apply_transpose o g p v n0 [] = (tv, Ok tt) -> fd_comps u = fd_comps n0 ->
  dot_product o (fd_mem tv) (fd_mem u) = dot_product o (fd_mem du) (fd_mem v).
Proof.
  intros G T HC. rewrite (adjoint_weighted _ _ _ _ _ _ _ _ _ G T HC). unfold dot_product. apply (below_ext o). intros i Hi.
  destruct (Nat.eq_dec (nb_pixel_quad_pts g) 0) as [E|E].
  - (* no quadrature points: no step can have run *)
    apply finish_ok in T. destruct (proj1 (transpose_run o g p v (one o) (set_zero o n0) []) tv T) as (_ & offs' & pxs' & E1' & E2' & O2 & _).
    apply finish_ok in G. destruct (proj1 (grad_run o g p u (one o) (set_zero o q0)) du G) as (F1 & offs & pxs & E1 & E2 & O1 & ->).
    rewrite E1 in E1'. injection E1' as <-. rewrite E2 in E2'. injection E2' as <-.
    destruct (list_prod pxs offs) as [|x xs] eqn:EX.
    + cbn [gsteps map fd_mem with_mem]. unfold updates. cbn [fold_left]. rewrite set_zero_nth. ring.
    + destruct (tstep_ok_facts g p _ v _ x (O2 x (or_introl eq_refl))) as (_ & X & _). contradiction.
  - replace (weights_used o g []) with (repeat (one o) (nb_pixel_quad_pts g)) by reflexivity.
    replace (nth (i / px_stride du mod nb_pixel_quad_pts g) (repeat (one o) (nb_pixel_quad_pts g)) (zero o)) with (one o); [ring|].
    symmetry. pose proof (Nat.mod_upper_bound (i / px_stride du) (nb_pixel_quad_pts g) E) as X. rewrite (nth_indep _ (zero o) (one o)) by now rewrite repeat_length. apply nth_repeat.
Qed.
End Adjoint.
