(** C160: gradients of affine and of periodic fields, sums of the transpose. *)
From Verif Require Import Base GridModel GridSpec GridProofs LayoutModel LayoutSpec LayoutProofs LayoutProofs2 FieldModel FieldSpec RingModel RingProofs GradModel GradSpec GradProofs4 EigenSpec EigenProofs.
From Verif Require Import GradFieldModel GradFieldSpec GradFieldProofs GradProps GradFieldProps GradExactSpec GradExactProofs.
Local Open Scope list_scope.

(** If the nodal values of a component are an affine function of the positions of the
    nodes, its derivatives at the quadrature points of every element without periodic
    neighbours are the slopes. *)
Theorem C160_affine {R} (o : ops R) emb pos sd nq ne nen npn (d : discretisation R) g n p (u q : field R) a b cu :
  lawful o -> additive o emb -> (1 <= sd <= 3)%nat -> valid_disc sd ne nen npn d -> construct o sd nq ne nen npn (grads_of sd nq ne nen d) (pts_of sd ne nen d) = Ok g ->
  partition_of_unity o sd nq ne nen d -> isoparametric o emb pos sd nq ne nen d ->
  grid_of n p -> length n = sd -> on_grid n p u -> on_grid n p q ->
  l_nsub (f_lay u) = Z.of_nat npn -> l_nsub (f_lay q) = Z.of_nat (nq * ne) -> l_nbc (f_lay q) = Z.of_nat sd * l_nbc (f_lay u) ->
  in_shape (l_comp (f_lay u)) cu -> (forall c m, in_shape n c -> (m < npn)%nat -> val o u cu (Z.of_nat m) c = affine o emb pos sd a b c m) ->
  exists q1, field_gradient o g p u q = (q1, Ok tt) /\
    forall cq c e i k, in_shape (l_comp (f_lay q)) cq -> in_shape n c -> (e < ne)%nat -> (i < nq)%nat -> (k < sd)%nat -> interior n nen d c e ->
      rank_of (l_comp (f_lay q)) cq = Z.of_nat k * l_nbc (f_lay u) + rank_of (l_comp (f_lay u)) cu ->
      val o q1 cq (Z.of_nat (e * nq + i)) c = b k.
Proof.
  intros L Em Hsd V Eg Pu Iso G Hn Hu Hq Su Sq Nq Hcu Aff. destruct (field_gradient_formula o sd nq ne nen npn d g n p u q L Hsd V Eg G Hn Hu Hq Su Sq Nq) as (q1 & E & _ & _ & W).
  exists q1. split; [exact E|]. intros cq c e i k Hcq Hc He Hi Hk Int Er. rewrite (W cu cq c e i k Hcu Hcq Hc He Hi Hk Er).
  exact (derivative_affine o L emb pos sd nq ne nen npn d n _ a b c e i k Em V Pu Iso Hn Hc He Hi Hk Int Aff).
Qed.
Print Assumptions C160_affine.

(** The sum over all pixels of a derivative at a quadrature point is zero for every
    nodal field whose sums over the pixels are the same for all nodes of the elements, in
    particular for every field with one node per pixel. *)
Theorem C160_mean {R} (o : ops R) sd nq ne nen npn (d : discretisation R) g n p (u q : field R) cu s :
  lawful o -> (1 <= sd <= 3)%nat -> valid_disc sd ne nen npn d -> construct o sd nq ne nen npn (grads_of sd nq ne nen d) (pts_of sd ne nen d) = Ok g ->
  partition_of_unity o sd nq ne nen d ->
  grid_of n p -> length n = sd -> on_grid n p u -> on_grid n p q ->
  l_nsub (f_lay u) = Z.of_nat npn -> l_nsub (f_lay q) = Z.of_nat (nq * ne) -> l_nbc (f_lay q) = Z.of_nat sd * l_nbc (f_lay u) ->
  in_shape (l_comp (f_lay u)) cu -> (forall e i, (e < ne)%nat -> (i < nen)%nat -> total o n (val o u cu (Z.of_nat (node d e i))) = s) ->
  exists q1, field_gradient o g p u q = (q1, Ok tt) /\
    forall cq e i k, in_shape (l_comp (f_lay q)) cq -> (e < ne)%nat -> (i < nq)%nat -> (k < sd)%nat ->
      rank_of (l_comp (f_lay q)) cq = Z.of_nat k * l_nbc (f_lay u) + rank_of (l_comp (f_lay u)) cu ->
      total o n (val o q1 cq (Z.of_nat (e * nq + i))) = zero o.
Proof.
  intros L Hsd V Eg Pu G Hn Hu Hq Su Sq Nq Hcu Hs. destruct (field_gradient_formula o sd nq ne nen npn d g n p u q L Hsd V Eg G Hn Hu Hq Su Sq Nq) as (q1 & E & _ & _ & W).
  exists q1. split; [exact E|]. intros cq e i k Hcq He Hi Hk Er.
  rewrite (total_ext o n _ (fun c => derivative o n nen d (fun c' m => val o u cu (Z.of_nat m) c') c e i k)) by (intros c Hc; now apply W).
  rewrite (derivative_total o L sd ne nen npn d n _ e i k V (proj1 G) Hn He).
  rewrite (below_ext o nen _ (fun j => mul o (deriv d e i k j) s)) by (intros j Hj; f_equal; now apply Hs).
  rewrite (below_scale_r o L). change (fun j => deriv d e i k j) with (deriv d e i k). rewrite (Pu e i k He Hi Hk). now apply mul_zero_l.
Qed.
Print Assumptions C160_mean.

(** The sum over all nodes of all pixels of the transpose applied to any field is
    zero, component by component. *)
Theorem C160_balance {R} (o : ops R) sd nq ne nen npn (d : discretisation R) g n p (v n0 : field R) cu :
  lawful o -> (1 <= sd <= 3)%nat -> valid_disc sd ne nen npn d -> construct o sd nq ne nen npn (grads_of sd nq ne nen d) (pts_of sd ne nen d) = Ok g ->
  partition_of_unity o sd nq ne nen d ->
  grid_of n p -> length n = sd -> (0 < nq * ne)%nat -> on_grid n p v -> on_grid n p n0 ->
  l_nsub (f_lay n0) = Z.of_nat npn -> l_nsub (f_lay v) = Z.of_nat (nq * ne) -> l_nbc (f_lay v) = Z.of_nat sd * l_nbc (f_lay n0) ->
  in_shape (l_comp (f_lay n0)) cu ->
  exists tv, field_transpose o g p v n0 [] = (tv, Ok tt) /\
    total o n (fun c => sum_below o npn (fun m => val o tv cu (Z.of_nat m) c)) = zero o.
Proof. intros L. exact (field_balance o L sd nq ne nen npn d g n p v n0 cu). Qed.
Print Assumptions C160_balance.

(** Beside them: the triangles of C32 with one quadrature point. *)
Definition tri_op : gop Z := Eval vm_compute in match construct zops 2 1 2 3 2 (grads_of 2 1 2 3 plane) (pts_of 2 2 3 plane) with Ok g => g | _ => line_op end.
Definition tri_quad : field Z := field_on 0 (mk_layout [1; 2] 2 2 ColMajor [2; 3] [1; 2] 6 6) true (map (fun i => i * i) (zrange 24)).
(** 100 + 10 x + 7 y at the second node of each pixel, which is at its corner; the
    first node is at the next corner in direction x. *)
Definition tri_nodal : field Z := nodal_on [1; 2] [110; 100; 120; 110; 117; 107; 127; 117; 124; 114; 134; 124].
Definition tri_pos (m l : nat) : Z := match m, l with O, O => 1 | _, _ => 0 end.
Example C160_hypotheses : partition_of_unity zops 2 1 2 3 plane /\ isoparametric zops (fun z => z) tri_pos 2 1 2 3 plane /\
  additive zops (fun z => z) /\ valid_disc 2 2 3 2 plane /\ interior [2; 3] 3 plane [0; 1] 1.
Proof.
  split; [|split; [|split; [|split; [exact plane_valid|]]]].
  - intros e q k He Hq Hk. assert (e = 0 \/ e = 1)%nat as [-> | ->] by lia; assert (q = 0)%nat as -> by lia; assert (k = 0 \/ k = 1)%nat as [-> | ->] by lia; reflexivity.
  - intros e q k l He Hq Hk Hl. assert (e = 0 \/ e = 1)%nat as [-> | ->] by lia; assert (q = 0)%nat as -> by lia; assert (k = 0 \/ k = 1)%nat as [-> | ->] by lia; assert (l = 0 \/ l = 1)%nat as [-> | ->] by lia; reflexivity.
  - intros a b. reflexivity.
  - intros i Hi. assert (i = 0 \/ i = 1 \/ i = 2)%nat as [-> | [-> | ->]] by lia; (split; [reflexivity|]); intros [|[|j]] Hj; cbn in Hj; try lia; cbn; lia.
Qed.
Example C160_case :
  let q1 := fst (field_gradient zops tri_op grid23 tri_nodal tri_quad) in
  (forall c m, In c (grid_points [2; 3]) -> (m < 2)%nat -> val zops tri_nodal [0] (Z.of_nat m) c = affine zops (fun z => z) tri_pos 2 100 (fun l => if (l =? 0)%nat then 10 else 7) c m) /\
  map (fun k => val zops q1 [0; k] 1 [0; 1]) [0; 1] = [10; 7] /\ map (fun k => val zops q1 [0; k] 1 [0; 2]) [0; 1] = [10; -14] /\
  total zops [2; 3] (val zops q1 [0; 1] 1) = 0 /\
  let tv := fst (field_transpose zops tri_op grid23 tri_quad tri_nodal []) in
  val zops tv [0] 1 [1; 2] <> 0 /\ total zops [2; 3] (fun c => sum_below zops 2 (fun m => val zops tv [0] (Z.of_nat m) c)) = 0.
Proof.
  cbv zeta. split; [intros c m I Hm; assert (m = 0 \/ m = 1)%nat as [-> | ->] by lia; cbn in I; repeat (destruct I as [<-|I]; [vm_compute; reflexivity|]); destruct I|].
  split; [vm_compute; reflexivity|]. split; [vm_compute; reflexivity|]. split; [vm_compute; reflexivity|]. split; [vm_compute; discriminate|vm_compute; reflexivity].
Qed.
