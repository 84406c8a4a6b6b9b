(** C156, C157: the gradient operator on fields of collections. *)
From Verif Require Import Base GridModel GridSpec LayoutModel LayoutSpec FieldModel FieldSpec RingModel GradModel GradSpec EigenSpec.
From Verif Require Import GradFieldModel GradFieldSpec GradFieldProofs GradProps.
Local Open Scope list_scope.

(** Fields of the examples: a scalar with two nodes per pixel, and its gradient
    at four quadrature points with two components in a matrix of one row. *)
Definition nodal_on (strides vals : list Z) : field Z := field_on 0 (mk_layout [1] 1 2 ColMajor [2; 3] strides 6 6) true vals.
Definition quad_on (strides : list Z) : field Z := field_on 0 (mk_layout [1; 2] 2 4 ColMajor [2; 3] strides 6 6) true (repeat 7 48).
(** The same grid, stored row by row. *)
Definition grid23r : pixels := Eval vm_compute in match pixels_strided [2; 3] [] [3; 1] with Ok p => p | _ => grid23 end.
Definition nodal_vals : list Z := [100; 1; 100; 2; 100; 4; 100; 8; 100; 16; 100; 32].

(** ** C156 *)

(** For fields of collections on the same pixels, in whatever order these are
    stored: the gradient at every quadrature point of every pixel, read by
    component, sub-point and pixel, is the derivative of the nodal values read by
    component, node and pixel.  The component of the gradient whose number is
    [k * C + r] is the derivative of component [r] in direction [k]. *)
Theorem C156_gradient {R} (o : ops R) sd nq ne nen npn (d : discretisation R) g n p (u q : field R) :
  lawful o -> (1 <= sd <= 3)%nat -> valid_disc sd ne nen npn d -> construct o sd nq ne nen npn (grads_of sd nq ne nen d) (pts_of sd ne nen d) = Ok g ->
  grid_of n p -> length n = sd -> on_grid n p u -> on_grid n p q ->
  l_nsub (f_lay u) = Z.of_nat npn -> l_nsub (f_lay q) = Z.of_nat (nq * ne) -> l_nbc (f_lay q) = Z.of_nat sd * l_nbc (f_lay u) ->
  exists q1, field_gradient o g p u q = (q1, Ok tt) /\ on_grid n p q1 /\ f_lay q1 = f_lay q /\
    forall cu cq c e i k, in_shape (l_comp (f_lay u)) cu -> in_shape (l_comp (f_lay q)) cq -> in_shape n c ->
      (e < ne)%nat -> (i < nq)%nat -> (k < sd)%nat ->
      rank_of (l_comp (f_lay q)) cq = Z.of_nat k * l_nbc (f_lay u) + rank_of (l_comp (f_lay u)) cu ->
      val o q1 cq (Z.of_nat (e * nq + i)) c = derivative o n nen d (fun c' m => val o u cu (Z.of_nat m) c') c e i k.
Proof. apply field_gradient_formula. Qed.
Print Assumptions C156_gradient.
(** What [val] reads is there. *)
Theorem C156_values {R} (o : ops R) n p (f : field R) comp q c : grid_of n p -> on_grid n p f -> entry_of f comp q c ->
  FieldSpec.value f (comp ++ [q] ++ c) = Ok (val o f comp q c).
Proof. intros G H E. exact (proj1 (value_seen o n p f comp q c G H E)). Qed.
Print Assumptions C156_values.

Lemma ready_nodal s vals : length vals = 12%nat -> embeds [2; 3] s 6 -> ready (nodal_on s vals).
Proof.
  intros L E. unfold ready. split; [|split; [reflexivity|split; [reflexivity|split; [cbn; lia|split; [reflexivity|split; [cbn; lia|split; [reflexivity|]]]]]]].
  - split; [reflexivity|]. split; [repeat constructor; lia|]. split; [cbn; lia|]. split; [left; reflexivity|exact E].
  - change (len vals = 12). unfold len. rewrite L. reflexivity.
Qed.
Lemma ready_quad s : embeds [2; 3] s 6 -> ready (quad_on s).
Proof.
  intros E. unfold ready. split; [|split; [reflexivity|split; [reflexivity|split; [cbn; lia|split; [reflexivity|split; [cbn; lia|split; reflexivity]]]]]].
  split; [reflexivity|]. split; [repeat constructor; lia|]. split; [cbn; lia|]. split; [left; reflexivity|exact E].
Qed.
Lemma embeds23 s : s = [1; 2] \/ s = [3; 1] -> embeds [2; 3] s 6.
Proof.
  intros S. split; [destruct S as [-> | ->]; reflexivity|]. split.
  - intros c [L H]. destruct c as [|x [|y [|]]]; try discriminate L. pose proof (H 0%nat ltac:(cbn; lia)) as H0. pose proof (H 1%nat ltac:(cbn; lia)) as H1.
    unfold zn in H0, H1; cbn in H0, H1. destruct S as [-> | ->]; unfold off, zn, zsum; cbn [map fold_right seq length nth]; lia.
  - intros c c' [L H] [L' H'] E. destruct c as [|x [|y [|]]]; try discriminate L. destruct c' as [|x' [|y' [|]]]; try discriminate L'.
    pose proof (H 0%nat ltac:(cbn; lia)) as H0. pose proof (H 1%nat ltac:(cbn; lia)) as H1. pose proof (H' 0%nat ltac:(cbn; lia)) as H0'. pose proof (H' 1%nat ltac:(cbn; lia)) as H1'.
    unfold zn in H0, H1, H0', H1'; cbn in H0, H1, H0', H1'. assert (x = x' /\ y = y') as [-> ->]; [|reflexivity].
    destruct S as [-> | ->]; unfold off, zn, zsum in E; cbn [map fold_right seq length nth] in E; lia.
Qed.
Lemma on_grid_nodal s vals p : length vals = 12%nat -> s = [1; 2] \/ s = [3; 1] -> px_strides p = s -> on_grid [2; 3] p (nodal_on s vals).
Proof. intros L S P. split; [apply ready_nodal; [exact L|now apply embeds23]|]. repeat split; try reflexivity. symmetry. exact P. Qed.
Lemma on_grid_quad s p : s = [1; 2] \/ s = [3; 1] -> px_strides p = s -> on_grid [2; 3] p (quad_on s).
Proof. intros S P. split; [apply ready_quad; now apply embeds23|]. repeat split; try reflexivity. symmetry. exact P. Qed.

(** Beside it: pixels stored row by row. *)
Example C156_gradient_case : on_grid [2; 3] grid23r (nodal_on [3; 1] nodal_vals) /\ on_grid [2; 3] grid23r (quad_on [3; 1]) /\
  let q1 := fst (field_gradient zops plane_op grid23r (nodal_on [3; 1] nodal_vals) (quad_on [3; 1])) in
  snd (field_gradient zops plane_op grid23r (nodal_on [3; 1] nodal_vals) (quad_on [3; 1])) = Ok tt /\
  map (fun c => val zops (nodal_on [3; 1] nodal_vals) [0] 1 c) [[0; 0]; [1; 0]; [0; 1]; [0; 2]] = [1; 8; 2; 4] /\
  map (fun k => val zops q1 [0; k] 0 [0; 0]) [0; 1] = [7; 1].
Proof.
  split; [apply on_grid_nodal; [reflexivity|right; reflexivity|reflexivity]|]. split; [apply on_grid_quad; [right; reflexivity|reflexivity]|].
  cbv zeta. split; [vm_compute; reflexivity|]. split; vm_compute; reflexivity.
Qed.

(** Gradient and transpose of fields are adjoint; the result of the transpose is
    a field on the same pixels. *)
Theorem C156_adjoint {R} (o : ops R) sd nq ne nen npn (d : discretisation R) g n p (u v q0 n0 : field R) :
  lawful o -> (1 <= sd <= 3)%nat -> valid_disc sd ne nen npn d -> construct o sd nq ne nen npn (grads_of sd nq ne nen d) (pts_of sd ne nen d) = Ok g ->
  grid_of n p -> length n = sd -> (0 < nq * ne)%nat -> on_grid n p u -> on_grid n p v -> on_grid n p q0 -> on_grid n p n0 ->
  l_nsub (f_lay u) = Z.of_nat npn -> l_nsub (f_lay n0) = Z.of_nat npn -> l_nsub (f_lay v) = Z.of_nat (nq * ne) -> l_nsub (f_lay q0) = Z.of_nat (nq * ne) ->
  l_nbc (f_lay n0) = l_nbc (f_lay u) -> l_nbc (f_lay v) = Z.of_nat sd * l_nbc (f_lay u) -> l_nbc (f_lay q0) = Z.of_nat sd * l_nbc (f_lay u) ->
  exists du tv, field_gradient o g p u q0 = (du, Ok tt) /\ field_transpose o g p v n0 [] = (tv, Ok tt) /\ on_grid n p tv /\ f_lay tv = f_lay n0 /\
    dot_product o (f_vals tv) (f_vals u) = dot_product o (f_vals du) (f_vals v).
Proof.
  intros L Hsd V Eg G Hn Hp Hu Hv Hq Hn0 Su Sn Sv Sq Nn Nv Nq.
  destruct (field_adjoint o sd nq ne nen npn d g n p u v q0 n0 [] (one o) L Hsd V Eg G Hn Hp Hu Hv Hq Hn0 Su Sn Sv Sq Nn Nv Nq (or_introl (conj eq_refl eq_refl))) as (du & tv & E1 & E2 & H1 & H2 & E).
  exists du, tv. rewrite (Ring_theory.Rmul_1_l L) in E. auto.
Qed.
Print Assumptions C156_adjoint.
Example C156_adjoint_case :
  let u := nodal_on [3; 1] nodal_vals in
  let du := field_gradient zops plane_op grid23r u (quad_on [3; 1]) in
  let tv := field_transpose zops plane_op grid23r (quad_on [3; 1]) u [] in
  snd du = Ok tt /\ snd tv = Ok tt /\
  dot_product zops (f_vals (fst tv)) (f_vals u) = dot_product zops (f_vals (fst du)) (f_vals (quad_on [3; 1])).
Proof. cbv zeta. split; [vm_compute; reflexivity|]. split; vm_compute; reflexivity. Qed.

(** Equal weights multiply the transpose (see C70 for others). *)
Theorem C156_weights {R} (o : ops R) sd nq ne nen npn (d : discretisation R) g n p (u v q0 n0 : field R) w :
  lawful o -> (1 <= sd <= 3)%nat -> valid_disc sd ne nen npn d -> construct o sd nq ne nen npn (grads_of sd nq ne nen d) (pts_of sd ne nen d) = Ok g ->
  grid_of n p -> length n = sd -> (0 < nq * ne)%nat -> on_grid n p u -> on_grid n p v -> on_grid n p q0 -> on_grid n p n0 ->
  l_nsub (f_lay u) = Z.of_nat npn -> l_nsub (f_lay n0) = Z.of_nat npn -> l_nsub (f_lay v) = Z.of_nat (nq * ne) -> l_nsub (f_lay q0) = Z.of_nat (nq * ne) ->
  l_nbc (f_lay n0) = l_nbc (f_lay u) -> l_nbc (f_lay v) = Z.of_nat sd * l_nbc (f_lay u) -> l_nbc (f_lay q0) = Z.of_nat sd * l_nbc (f_lay u) ->
  exists du tv, field_gradient o g p u q0 = (du, Ok tt) /\ field_transpose o g p v n0 (repeat w (nq * ne)) = (tv, Ok tt) /\ on_grid n p tv /\ f_lay tv = f_lay n0 /\
    dot_product o (f_vals tv) (f_vals u) = mul o w (dot_product o (f_vals du) (f_vals v)).
Proof.
  intros L Hsd V Eg G Hn Hp Hu Hv Hq Hn0 Su Sn Sv Sq Nn Nv Nq.
  exact (field_adjoint o sd nq ne nen npn d g n p u v q0 n0 _ w L Hsd V Eg G Hn Hp Hu Hv Hq Hn0 Su Sn Sv Sq Nn Nv Nq (or_intror eq_refl)).
Qed.
Print Assumptions C156_weights.
Example C156_weights_case :
  let u := nodal_on [3; 1] nodal_vals in
  let v := with_vals (quad_on [3; 1]) (zrange 48) in
  let tv ws := field_transpose zops plane_op grid23r v u ws in
  snd (tv [3; 3; 3; 3]) = Ok tt /\ dot_product zops (f_vals (fst (tv []))) (f_vals u) = -8784 /\ dot_product zops (f_vals (fst (tv [3; 3; 3; 3]))) (f_vals u) = 3 * -8784.
Proof. cbv zeta. split; [vm_compute; reflexivity|]. split; vm_compute; reflexivity. Qed.

(** ** C157 *)

(** Fields of different collections on the same grid: the order of the pixels of
    the nodal field's collection is not looked at. *)
Theorem C157_two_collections_refuted :
  ~ (forall sd nq ne nen npn (d : discretisation Z) g n p p' (u q : field Z),
       (1 <= sd <= 3)%nat -> valid_disc sd ne nen npn d -> construct zops sd nq ne nen npn (grads_of sd nq ne nen d) (pts_of sd ne nen d) = Ok g ->
       grid_of n p -> grid_of n p' -> length n = sd -> on_grid n p' u -> on_grid n p q ->
       l_nsub (f_lay u) = Z.of_nat npn -> l_nsub (f_lay q) = Z.of_nat (nq * ne) -> l_nbc (f_lay q) = Z.of_nat sd * l_nbc (f_lay u) ->
       snd (field_gradient zops g p u q) = Ok tt ->
       forall cu cq c e i k, in_shape (l_comp (f_lay u)) cu -> in_shape (l_comp (f_lay q)) cq -> in_shape n c ->
         (e < ne)%nat -> (i < nq)%nat -> (k < sd)%nat ->
         rank_of (l_comp (f_lay q)) cq = Z.of_nat k * l_nbc (f_lay u) + rank_of (l_comp (f_lay u)) cu ->
         val zops (fst (field_gradient zops g p u q)) cq (Z.of_nat (e * nq + i)) c =
         derivative zops n nen d (fun c' m => val zops u cu (Z.of_nat m) c') c e i k).
Proof.
  intros H.
  assert (G' : grid_of [2; 3] grid23r).
  { split; [repeat constructor|]. right. exists [1%nat; 0%nat], [3; 1]. split; [|split; [vm_compute; reflexivity|split; reflexivity]].
    split; [apply perm_swap|]. intros i j Hij. assert (i = 0%nat /\ j = 1%nat) as [-> ->] by (cbn in Hij; lia). reflexivity. }
  specialize (H 2%nat 2%nat 2%nat 3%nat 2%nat plane plane_op [2; 3] grid23 grid23r (nodal_on [3; 1] nodal_vals) (quad_on [1; 2])
    ltac:(lia) plane_valid plane_op_of grid23_of G' eq_refl
    (on_grid_nodal [3; 1] nodal_vals grid23r eq_refl (or_intror eq_refl) eq_refl) (on_grid_quad [1; 2] grid23 (or_introl eq_refl) eq_refl)
    eq_refl eq_refl eq_refl ltac:(vm_compute; reflexivity) [0] [0; 0] [0; 0] 0%nat 0%nat 0%nat).
  assert (S1 : in_shape [1] [0]) by (split; [reflexivity|]; intros [|i] Hi; cbn in Hi |- *; [unfold zn; cbn; lia|lia]).
  assert (S2 : forall b, 0 < b -> forall a, 0 < a -> in_shape [a; b] [0; 0]).
  { intros b Hb a Ha. split; [reflexivity|]. intros [|[|i]] Hi; cbn in Hi |- *; unfold zn; cbn; lia. }
  specialize (H S1 (S2 2 ltac:(lia) 1 ltac:(lia)) (S2 3 ltac:(lia) 2 ltac:(lia)) ltac:(lia) ltac:(lia) ltac:(lia) eq_refl).
  vm_compute in H. discriminate H.
Qed.
Print Assumptions C157_two_collections_refuted.
(** The fields of the witness hold the same grid function in their own order, and
    the result is another derivative. *)
Example C157_case :
  let u := nodal_on [3; 1] nodal_vals in
  snd (field_gradient zops plane_op grid23 u (quad_on [1; 2])) = Ok tt /\
  val zops (fst (field_gradient zops plane_op grid23 u (quad_on [1; 2]))) [0; 0] 0 [0; 0] = 1 /\
  val zops (fst (field_gradient zops plane_op grid23r u (quad_on [3; 1]))) [0; 0] 0 [0; 0] = 7.
Proof. cbv zeta. split; [vm_compute; reflexivity|]. split; vm_compute; reflexivity. Qed.

(** A nodal field of a smaller grid is not refused either: memory behind its end
    is read. *)
Theorem C157_smaller_refuted : exists (u q : field Z) n' p' , on_grid n' p' u /\ on_grid [2; 3] grid23 q /\
  l_nbc (f_lay q) = 2 * l_nbc (f_lay u) /\ snd (field_gradient zops plane_op grid23 u q) = UB.
Proof.
  exists (field_on 0 (mk_layout [1] 1 2 ColMajor [1; 1] [1; 1] 1 1) true [5; 6]), (quad_on [1; 2]), [1; 1],
    (mk_pixels [1; 1] [0; 0] [1; 1] [0%nat; 1%nat] true).
  split; [|split; [apply on_grid_quad; [left; reflexivity|reflexivity]|split; [reflexivity|vm_compute; reflexivity]]].
  split; [|repeat split; reflexivity]. unfold ready.
  split; [|split; [reflexivity|split; [reflexivity|split; [cbn; lia|split; [reflexivity|split; [cbn; lia|split; reflexivity]]]]]].
  split; [reflexivity|]. split; [repeat constructor; lia|]. split; [cbn; lia|]. split; [left; reflexivity|]. split; [reflexivity|].
  change (within [1; 1] [1; 1] 1 /\ injective_on [1; 1] [1; 1]). split.
  - intros c [L H]. destruct c as [|x [|y [|]]]; try discriminate L. pose proof (H 0%nat ltac:(cbn; lia)) as H0. pose proof (H 1%nat ltac:(cbn; lia)) as H1.
    unfold zn in H0, H1; cbn in H0, H1. unfold off, zn, zsum; cbn [map fold_right seq length nth]; lia.
  - intros c c' [L H] [L' H'] E. destruct c as [|x [|y [|]]]; try discriminate L. destruct c' as [|x' [|y' [|]]]; try discriminate L'.
    pose proof (H 0%nat ltac:(cbn; lia)) as H0. pose proof (H 1%nat ltac:(cbn; lia)) as H1. pose proof (H' 0%nat ltac:(cbn; lia)) as H0'. pose proof (H' 1%nat ltac:(cbn; lia)) as H1'.
    unfold zn in H0, H1, H0', H1'; cbn in H0, H1, H0', H1'. assert (x = x' /\ y = y') as [-> ->]; [lia|reflexivity].
Qed.
Print Assumptions C157_smaller_refuted.
