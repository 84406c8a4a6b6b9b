(** Properties C32, C33, C34, C70, C71, C72: the gradient operator. *)
From Verif Require Import Base GridModel GridSpec RingModel RingProofs GradModel GradSpec GradProofs GradProofs2 GradProofs3 GradProofs4 GradProofs5.
Local Open Scope list_scope.

Lemma same_kind_shape {R} (f f' : gfield R) : same_kind f f' <-> shape_of f = shape_of f'.
Proof.
  unfold same_kind, shape_of. split; [intros (-> & -> & -> & -> & ->); reflexivity|]. intros H. injection H as H1 H2 H3 H4 H5. auto.
Qed.

(** A linear element on a periodic line. *)
Definition line : discretisation Z := mk_disc (fun _ _ => 0%nat) (fun _ i => [Z.of_nat i]) (fun _ _ _ i => if (i =? 0)%nat then -1 else 1).
(** Two triangles on a pixel of the plane, two quadrature points each, two
    nodes per pixel of which the elements use the second. *)
Definition plane : discretisation Z :=
  mk_disc (fun _ _ => 1%nat)
          (fun e i => match e, i with O, O => [0; 0] | O, S O => [1; 0] | O, _ => [0; 1] | _, O => [1; 1] | _, S O => [0; 1] | _, _ => [1; 0] end)
          (fun e q k i => match e, k, i with
                          | O, O, O => -1 | O, O, S O => 1 | O, S O, O => -1 | O, S O, S (S O) => 1
                          | S O, O, O => 1 | S O, O, S O => -1 | S O, S O, O => 1 | S O, S O, S (S O) => -1 | _, _, _ => 0 end * (1 + Z.of_nat q)).
Definition line_op : gop Z := mk_gop 1 1 1 2 1 [[-1; 1]].
Definition plane_op : gop Z := Eval vm_compute in match construct zops 2 2 2 3 2 (grads_of 2 2 2 3 plane) (pts_of 2 2 3 plane) with Ok g => g | _ => line_op end.
Definition grid3 : pixels := Eval vm_compute in match pixels_default [3] [] with Ok p => p | _ => mk_pixels [] [] [] [] false end.
Definition grid23 : pixels := Eval vm_compute in match pixels_default [2; 3] [] with Ok p => p | _ => mk_pixels [] [] [] [] false end.
Definition fld (comps pts : nat) (l : list Z) : gfield Z := mk_gfield true true comps pts l.

Lemma grid3_of : grid_of [3] grid3.
Proof. split; [repeat constructor|]. left. vm_compute. reflexivity. Qed.
Lemma grid23_of : grid_of [2; 3] grid23.
Proof. split; [repeat constructor|]. left. vm_compute. reflexivity. Qed.
Lemma plane_valid : valid_disc 2 2 3 2 plane.
Proof. intros e i He Hi. assert (e = 0 \/ e = 1)%nat as [-> | ->] by lia; assert (i = 0 \/ i = 1 \/ i = 2)%nat as [-> | [-> | ->]] by lia; (split; [vm_compute; lia|split; [reflexivity|]]; intros [|[|k]] Hk; try lia; vm_compute; split; discriminate). Qed.
Lemma line_valid : valid_disc 1 1 2 1 line.
Proof. intros e i He Hi. split; [vm_compute; lia|split; [reflexivity|]]. intros [|k] Hk; [|lia]. cbn. lia. Qed.
Lemma plane_op_of : construct zops 2 2 2 3 2 (grads_of 2 2 2 3 plane) (pts_of 2 2 3 plane) = Ok plane_op.
Proof. vm_compute. reflexivity. Qed.
Definition u23 : gfield Z := fld 1 2 [100; 1; 100; 2; 100; 4; 100; 8; 100; 16; 100; 32].
Definition q23 : gfield Z := fld 2 4 (repeat 7 48).

(** C32.  For every discretisation with its nodes in the pixel and its
    successors, every periodic grid and every nodal field, the constructor
    succeeds and the gradient at every quadrature point of every pixel, in
    every direction and for every component, is the sum over the element's
    nodes of the shape function derivative times the nodal value at the
    wrapped pixel. *)
Theorem C32_constructed {R} (o : ops R) sd nq ne nen npn (d : discretisation R) :
  valid_disc sd ne nen npn d -> exists g, construct o sd nq ne nen npn (grads_of sd nq ne nen d) (pts_of sd ne nen d) = Ok g.
Proof. intros V. eexists. now apply construct_value. Qed.
Print Assumptions C32_constructed.

Theorem C32_gradient {R} (o : ops R) sd nq ne nen npn C (d : discretisation R) g n p u q0 :
  lawful o -> (1 <= sd <= 3)%nat -> valid_disc sd ne nen npn d -> construct o sd nq ne nen npn (grads_of sd nq ne nen d) (pts_of sd ne nen d) = Ok g ->
  grid_of n p -> length n = sd -> C <> 0%nat -> is_field n C npn u -> is_field n (sd * C) (nq * ne) q0 ->
  exists q1, apply_gradient o g p u q0 = (q1, Ok tt) /\ is_field n (sd * C) (nq * ne) q1 /\
    forall c e q k r, in_box n (repeat 0 (length n)) c -> (e < ne)%nat -> (q < nq)%nat -> (k < sd)%nat -> (r < C)%nat ->
      value o p q1 c (e * nq + q) (k * C + r) = derivative o n nen d (fun c' m => value o p u c' m r) c e q k.
Proof.
  intros L Hsd V Eg G Hn HC Hu Hq. assert (Hz : is_field n (sd * C) (nq * ne) (set_zero o q0)).
  { destruct Hq as (H1 & H2 & H3 & H4 & H5). split; [exact H1|split; [exact H2|split; [exact H3|split; [exact H4|]]]]. unfold set_zero. cbn [fd_mem with_mem]. now rewrite map_length. }
  destruct (gradient_formula o L sd nq ne nen npn C d g n p u (one o) (set_zero o q0) Hsd V Eg G Hn HC Hu Hz) as (q1 & E & F & W). exists q1. unfold apply_gradient. rewrite E. split; [reflexivity|]. split; [exact F|].
  intros c e q k r Hc He Hq' Hk Hr. rewrite W by assumption. unfold value at 1. destruct (px_get_index p c) as [i| |]; rewrite ?set_zero_nth, (Radd_0_l L); apply (Rmul_1_l L).
Qed.
Print Assumptions C32_gradient.
Example C32_case : let q1 := fst (apply_gradient zops plane_op grid23 u23 q23) in
  snd (apply_gradient zops plane_op grid23 u23 q23) = Ok tt /\
  value zops grid23 q1 [1; 2] 0 0 = 16 - 32 /\ value zops grid23 q1 [1; 2] 1 0 = 2 * (16 - 32) /\ value zops grid23 q1 [1; 2] 0 1 = 2 - 32 /\ value zops grid23 q1 [1; 2] 2 0 = 1 - 2.
Proof. vm_compute. auto 6. Qed.

Theorem C32_linear {R} (o : ops R) g p u v w a b q du dv : lawful o ->
  same_kind v u -> same_kind w u -> (forall i, coefficient o w i = add o (mul o a (coefficient o u i)) (mul o b (coefficient o v i))) ->
  apply_gradient o g p u q = (du, Ok tt) -> apply_gradient o g p v q = (dv, Ok tt) ->
  exists dw, apply_gradient o g p w q = (dw, Ok tt) /\ forall i, coefficient o dw i = add o (mul o a (coefficient o du i)) (mul o b (coefficient o dv i)).
Proof. intros L H1 H2 H3 H4 H5. apply (gradient_linear o L g p u v w a b q du dv); try assumption; now apply same_kind_shape. Qed.
Print Assumptions C32_linear.

(** [apply_gradient] overwrites: what the output field held does not matter. *)
Theorem C32_overwrites {R} (o : ops R) g p u q q' dq :
  same_kind q' q -> apply_gradient o g p u q = (dq, Ok tt) -> apply_gradient o g p u q' = (dq, Ok tt).
Proof. intros H. apply gradient_ignores_output. now apply same_kind_shape. Qed.
Print Assumptions C32_overwrites.

(** [apply_gradient_increment] adds [alpha] times the gradient. *)
Theorem C32_increment {R} (o : ops R) g p u alpha q dq : lawful o ->
  apply_gradient o g p u q = (dq, Ok tt) ->
  exists q1, apply_gradient_increment o g p u alpha q = Ok q1 /\ same_kind q1 q /\
    forall i, (i < length (fd_mem q))%nat -> coefficient o q1 i = add o (coefficient o q i) (mul o alpha (coefficient o dq i)).
Proof.
  intros L E. destruct (increment_of_gradient o L g p u alpha q) as (H1 & H2). destruct (H2 dq E) as (q1 & E1). exists q1. split; [exact E1|].
  destruct (H1 q1 E1) as (dq' & E' & S1 & _ & V). rewrite E in E'. injection E' as <-. split; [now apply same_kind_shape|exact V].
Qed.
Print Assumptions C32_increment.
Example C32_increment_case : exists q1, apply_gradient_increment zops line_op grid3 (fld 1 1 [1; 4; 9]) 10 (fld 1 1 [1; 2; 3]) = Ok q1 /\ fd_mem q1 = [31; 52; -77].
Proof. eexists. split; vm_compute; reflexivity. Qed.

(** Shifting the nodal field along the periodic grid shifts the gradient. *)
Theorem C32_translation {R} (o : ops R) sd nq ne nen npn C (d : discretisation R) g n p u u' s q0 :
  lawful o -> (1 <= sd <= 3)%nat -> valid_disc sd ne nen npn d -> construct o sd nq ne nen npn (grads_of sd nq ne nen d) (pts_of sd ne nen d) = Ok g ->
  grid_of n p -> length n = sd -> C <> 0%nat -> is_field n C npn u -> is_field n C npn u' -> is_field n (sd * C) (nq * ne) q0 -> length s = sd ->
  (forall c m r, in_box n (repeat 0 (length n)) c -> (m < npn)%nat -> (r < C)%nat -> value o p u' c m r = value o p u (wrap n (add_coords c s)) m r) ->
  exists q1 q1', apply_gradient o g p u q0 = (q1, Ok tt) /\ apply_gradient o g p u' q0 = (q1', Ok tt) /\
    forall c pt comp, in_box n (repeat 0 (length n)) c -> (pt < nq * ne)%nat -> (comp < sd * C)%nat ->
      value o p q1' c pt comp = value o p q1 (wrap n (add_coords c s)) pt comp.
Proof.
  intros L Hsd V Eg G Hn HC Hu Hu' Hq Hs Sh.
  destruct (C32_gradient o sd nq ne nen npn C d g n p u q0 L Hsd V Eg G Hn HC Hu Hq) as (q1 & E1 & _ & W1).
  destruct (C32_gradient o sd nq ne nen npn C d g n p u' q0 L Hsd V Eg G Hn HC Hu' Hq) as (q1' & E1' & _ & W1').
  exists q1, q1'. split; [exact E1|split; [exact E1'|]]. intros c pt comp Hc Hpt Hcomp. destruct G as (F & _).
  assert (nq <> 0 /\ C <> 0)%nat as (Nq & _) by (destruct nq; [cbn in Hpt; lia|lia]).
  pose proof (Nat.div_mod pt nq Nq) as Dp. pose proof (Nat.mod_upper_bound pt nq Nq) as Mp. pose proof (Nat.div_mod comp C HC) as Dc. pose proof (Nat.mod_upper_bound comp C HC) as Mc.
  assert (De : (pt / nq < ne)%nat) by (apply Nat.div_lt_upper_bound; lia). assert (Dk : (comp / C < sd)%nat) by (apply Nat.div_lt_upper_bound; lia).
  replace pt with (pt / nq * nq + pt mod nq)%nat by lia. replace comp with (comp / C * C + comp mod C)%nat by lia.
  assert (Lc : length (add_coords c s) = length n) by (rewrite add_coords_length; destruct Hc; congruence).
  rewrite W1', W1 by (try assumption; now apply wrap_in_box). unfold derivative. apply (below_ext o). intros i Hi. f_equal.
  destruct (valid_bits _ _ _ _ _ (pt / nq)%nat i V De Hi) as ((Vb & _) & Vn). destruct Hc as (Hc & _).
  rewrite Sh; [|apply wrap_in_box; [exact F|rewrite add_coords_length; congruence]|exact Vn|exact Mc].
  f_equal. apply wrap_shift; congruence || assumption.
Qed.
Print Assumptions C32_translation.
Example C32_translation_case :
  fd_mem (fst (apply_gradient zops line_op grid3 (fld 1 1 [1; 4; 9]) (fld 1 1 [0; 0; 0]))) = [3; 5; -8] /\
  fd_mem (fst (apply_gradient zops line_op grid3 (fld 1 1 [4; 9; 1]) (fld 1 1 [0; 0; 0]))) = [5; -8; 3].
Proof. split; vm_compute; reflexivity. Qed.

(** Wrong field types and component counts are refused; the output has been
    zeroed by then ([apply_gradient]) or is untouched (increment). *)
Theorem C32_refused {R} (o : ops R) g p u q :
  fd_global u = false \/ fd_global q = false \/ fd_comps q <> (op_dim g * fd_comps u)%nat ->
  apply_gradient o g p u q = (set_zero o q, Err RuntimeError) /\ forall alpha, apply_gradient_increment o g p u alpha q = Err RuntimeError.
Proof.
  intros H. assert (E : forall q', shape_of q' = shape_of q -> fields_fit g u q' = Err RuntimeError).
  { intros q' Hs. unfold shape_of in Hs. injection Hs as H1 _ H3 _ _. unfold fields_fit. rewrite H1, H3.
    destruct H as [H|[H|H]]; [rewrite H; destruct (fd_global q); reflexivity|rewrite H; reflexivity|].
    destruct (fd_global q), (fd_global u); try reflexivity. cbn [negb]. destruct (Nat.eqb_spec (fd_comps q) (op_dim g * fd_comps u)); [contradiction|reflexivity]. }
  split; [|intros alpha]; unfold apply_gradient, apply_gradient_increment; rewrite E by (try reflexivity; apply set_zero_shape); reflexivity.
Qed.
Print Assumptions C32_refused.
Example C32_refused_case : apply_gradient zops line_op grid3 (fld 1 1 [1; 4; 9]) (fld 2 1 [0; 1; 2; 3; 4; 5]) = (fld 2 1 [0; 0; 0; 0; 0; 0], Err RuntimeError).
Proof. vm_compute. reflexivity. Qed.

(** C33.  The transpose is the adjoint: for every nodal field [u] and every
    quadrature point field [v], < transpose v, u > = < v, gradient u >. *)
Theorem C33_adjoint {R} (o : ops R) sd nq ne nen npn C (d : discretisation R) g n p u v q0 n0 :
  lawful o -> (1 <= sd <= 3)%nat -> valid_disc sd ne nen npn d -> construct o sd nq ne nen npn (grads_of sd nq ne nen d) (pts_of sd ne nen d) = Ok g ->
  grid_of n p -> length n = sd -> C <> 0%nat -> (0 < nq * ne)%nat -> is_field n C npn u -> is_field n (sd * C) (nq * ne) v ->
  is_field n (sd * C) (nq * ne) q0 -> is_field n C npn n0 ->
  exists du tv, apply_gradient o g p u q0 = (du, Ok tt) /\ apply_transpose o g p v n0 [] = (tv, Ok tt) /\ is_field n C npn tv /\
    dot_product o (fd_mem tv) (fd_mem u) = dot_product o (fd_mem du) (fd_mem v).
Proof.
  intros L Hsd V Eg G Hn HC HQ Hu Hv Hq Hn0.
  destruct (C32_gradient o sd nq ne nen npn C d g n p u q0 L Hsd V Eg G Hn HC Hu Hq) as (du & E1 & _).
  assert (Hz : is_field n C npn (set_zero o n0)).
  { destruct Hn0 as (H1 & H2 & H3 & H4 & H5). split; [exact H1|split; [exact H2|split; [exact H3|split; [exact H4|]]]]. unfold set_zero. cbn [fd_mem with_mem]. now rewrite map_length. }
  destruct (transpose_returns o L sd nq ne nen npn C d g n p v (one o) [] (set_zero o n0) Hsd V Eg G Hn HC HQ Hz Hv (or_introl eq_refl)) as (tv & E2 & F2).
  assert (E2' : apply_transpose o g p v n0 [] = (tv, Ok tt)) by (unfold apply_transpose; now rewrite E2).
  exists du, tv. split; [exact E1|split; [exact E2'|split; [exact F2|]]]. apply (adjoint_default o L g p u v q0 n0 du tv E1 E2'). destruct Hu as (_ & _ & -> & _), Hn0 as (_ & _ & -> & _). reflexivity.
Qed.
Print Assumptions C33_adjoint.
Definition v23 : gfield Z := fld 2 4 (zrange 48).
Definition z23 : gfield Z := fld 1 2 (repeat 9 12).
Example C33_case :
  let du := fst (apply_gradient zops plane_op grid23 u23 q23) in
  let tv := fst (apply_transpose zops plane_op grid23 v23 z23 []) in
  dot_product zops (fd_mem tv) (fd_mem u23) = -6192 /\ dot_product zops (fd_mem du) (fd_mem v23) = -6192.
Proof. vm_compute. auto. Qed.

(** The same for every operator, every grid and all fields on which both calls
    return. *)
Theorem C33_adjoint_any {R} (o : ops R) g p u v q0 n0 du tv : lawful o ->
  apply_gradient o g p u q0 = (du, Ok tt) -> apply_transpose o g p v n0 [] = (tv, Ok tt) -> fd_comps u = fd_comps n0 ->
  dot_product o (fd_mem tv) (fd_mem u) = dot_product o (fd_mem du) (fd_mem v).
Proof. intros L. apply (adjoint_default o L). Qed.
Print Assumptions C33_adjoint_any.

(** With equal weights the adjoint is multiplied by the weight. *)
Theorem C33_uniform_weights {R} (o : ops R) g p u v q0 n0 w k du tv : lawful o ->
  apply_gradient o g p u q0 = (du, Ok tt) -> apply_transpose o g p v n0 (repeat w (S k)) = (tv, Ok tt) -> fd_comps u = fd_comps n0 ->
  dot_product o (fd_mem tv) (fd_mem u) = mul o w (dot_product o (fd_mem du) (fd_mem v)).
Proof. intros L. apply (adjoint_uniform o L). Qed.
Print Assumptions C33_uniform_weights.
Example C33_uniform_case :
  let tv := apply_transpose zops plane_op grid23 v23 z23 [3; 3; 3; 3] in
  snd tv = Ok tt /\ dot_product zops (fd_mem (fst tv)) (fd_mem u23) = 3 * -6192.
Proof. vm_compute. auto. Qed.

(** C34.  Where the derivatives of an element's shape functions add up to
    zero, the gradient of a constant field is zero. *)
Theorem C34_constant {R} (o : ops R) sd nq ne nen npn C (d : discretisation R) g n p u q0 a :
  lawful o -> (1 <= sd <= 3)%nat -> valid_disc sd ne nen npn d -> construct o sd nq ne nen npn (grads_of sd nq ne nen d) (pts_of sd ne nen d) = Ok g ->
  grid_of n p -> length n = sd -> C <> 0%nat -> is_field n C npn u -> is_field n (sd * C) (nq * ne) q0 ->
  (forall e q k, (e < ne)%nat -> (q < nq)%nat -> (k < sd)%nat -> sum_below o nen (deriv d e q k) = zero o) ->
  (forall c m r, in_box n (repeat 0 (length n)) c -> (m < npn)%nat -> (r < C)%nat -> value o p u c m r = a r) ->
  exists q1, apply_gradient o g p u q0 = (q1, Ok tt) /\
    forall c pt comp, in_box n (repeat 0 (length n)) c -> (pt < nq * ne)%nat -> (comp < sd * C)%nat -> value o p q1 c pt comp = zero o.
Proof.
  intros L Hsd V Eg G Hn HC Hu Hq Hd Ha. destruct (C32_gradient o sd nq ne nen npn C d g n p u q0 L Hsd V Eg G Hn HC Hu Hq) as (q1 & E1 & _ & W1).
  exists q1. split; [exact E1|]. intros c pt comp Hc Hpt Hcomp. destruct G as (F & _).
  assert (Nq : nq <> 0%nat) by (destruct nq; [cbn in Hpt; lia|lia]).
  pose proof (Nat.div_mod pt nq Nq) as Dp. pose proof (Nat.mod_upper_bound pt nq Nq) as Mp. pose proof (Nat.div_mod comp C HC) as Dc. pose proof (Nat.mod_upper_bound comp C HC) as Mc.
  assert (De : (pt / nq < ne)%nat) by (apply Nat.div_lt_upper_bound; lia). assert (Dk : (comp / C < sd)%nat) by (apply Nat.div_lt_upper_bound; lia).
  replace pt with (pt / nq * nq + pt mod nq)%nat by lia. replace comp with (comp / C * C + comp mod C)%nat by lia.
  rewrite W1 by assumption. apply (derivative_constant o L n nen d _ (a (comp mod C)%nat)); [now apply Hd|]. intros i Hi.
  destruct (valid_bits _ _ _ _ _ (pt / nq)%nat i V De Hi) as ((Vb & _) & Vn). apply Ha; [|exact Vn|exact Mc]. apply wrap_in_box; [exact F|]. destruct Hc. rewrite add_coords_length; congruence.
Qed.
Print Assumptions C34_constant.
Example C34_case : fst (apply_gradient zops plane_op grid23 (fld 1 2 (concat (repeat [100; 5] 6))) q23) = fld 2 4 (repeat 0 48).
Proof. vm_compute. reflexivity. Qed.
Example C34_hypothesis : forall e q k, (e < 2)%nat -> (q < 2)%nat -> (k < 2)%nat -> sum_below zops 3 (deriv plane e q k) = 0.
Proof. intros e q k He Hq Hk. assert (e = 0 \/ e = 1)%nat as [-> | ->] by lia; assert (q = 0 \/ q = 1)%nat as [-> | ->] by lia; assert (k = 0 \/ k = 1)%nat as [-> | ->] by lia; reflexivity. Qed.

(** C70.  Quadrature weights are documented per quadrature point; the code
    multiplies all quadrature points of a pixel by the weight that the pixel's
    index selects. *)
Theorem C70_weights_per_point_refuted :
  ~ (forall (g : gop Z) p u v q0 n0 ws du tv,
       apply_gradient zops g p u q0 = (du, Ok tt) -> apply_transpose zops g p v n0 ws = (tv, Ok tt) -> fd_comps u = fd_comps n0 ->
       length ws = (op_nq g * op_ne g)%nat ->
       dot_product zops (fd_mem tv) (fd_mem u) =
       sum_below zops (length (fd_mem du)) (fun i =>
         nth (i / fd_comps du mod fd_pts du) ws 0 * (coefficient zops du i * coefficient zops v i))).
Proof.
  intros H. specialize (H plane_op grid23 u23 v23 q23 z23 [1; 2; 3; 4] _ _ (surjective_pairing _) (surjective_pairing _) eq_refl eq_refl).
  vm_compute in H. discriminate.
Qed.
Print Assumptions C70_weights_per_point_refuted.
Example C70_case_runs : snd (apply_gradient zops plane_op grid23 u23 q23) = Ok tt /\ snd (apply_transpose zops plane_op grid23 v23 z23 [1; 2; 3; 4]) = Ok tt.
Proof. vm_compute. auto. Qed.

Theorem C70_weight_of_pixel_partial {R} (o : ops R) g p u v q0 n0 w0 ws du tv : lawful o ->
  apply_gradient o g p u q0 = (du, Ok tt) -> apply_transpose o g p v n0 (w0 :: ws) = (tv, Ok tt) -> fd_comps u = fd_comps n0 ->
  dot_product o (fd_mem tv) (fd_mem u) =
  sum_below o (length (fd_mem du)) (fun i =>
    let pixel := (i / (fd_comps du * fd_pts du))%nat in
    mul o (nth (pixel mod (op_nq g * op_ne g)) (w0 :: ws) (zero o)) (mul o (coefficient o du i) (coefficient o v i))).
Proof. intros L. exact (adjoint_weighted o L g p u v q0 n0 (w0 :: ws) du tv). Qed.
Print Assumptions C70_weight_of_pixel_partial.

(** Weights that are too few are not refused: the vector is read out of
    bounds. *)
Theorem C70_short_weights_refuted :
  ~ (forall (g : gop Z) p v n0 ws, snd (apply_transpose zops g p v n0 ws) <> UB).
Proof. intros H. apply (H plane_op grid23 v23 z23 [1; 1]). vm_compute. reflexivity. Qed.
Print Assumptions C70_short_weights_refuted.

(** C71.  Nodes outside the documented range are not refused: an offset of 2
    along the first axis acts as an offset of 1 along the second, a node index
    past the last node as a node of the next pixel. *)
Definition other_offset (off : list Z) (nd : nat) : discretisation Z := mk_disc (fun _ i => if (i =? 0)%nat then 0%nat else nd) (fun _ i => if (i =? 0)%nat then [0; 0] else off) (fun _ _ _ i => if (i =? 0)%nat then -1 else 1).
Definition build (d : discretisation Z) := construct zops 2 1 1 2 2 (grads_of 2 1 1 2 d) (pts_of 2 1 2 d).
Theorem C71_offset_checked_refuted :
  ~ (forall d, (exists e i k, (e < 1)%nat /\ (i < 2)%nat /\ (k < 2)%nat /\ ~ 0 <= zn (offset d e i) k <= 1) -> forall g, build d <> Ok g).
Proof.
  intros H. specialize (H (other_offset [2; 0] 0)). refine (H _ _ _); [|vm_compute; reflexivity].
  exists 0%nat, 1%nat, 0%nat. repeat split; try lia. vm_compute. intros (_ & X). now apply X.
Qed.
Print Assumptions C71_offset_checked_refuted.
Theorem C71_offset_aliases_refuted : build (other_offset [2; 0] 0) = build (other_offset [0; 1] 0) /\ is_ok (build (other_offset [2; 0] 0)) = true.
Proof. split; vm_compute; reflexivity. Qed.
Print Assumptions C71_offset_aliases_refuted.
Theorem C71_node_aliases_refuted : build (other_offset [0; 0] 2) = build (other_offset [1; 0] 0) /\ is_ok (build (other_offset [0; 0] 2)) = true.
Proof. split; vm_compute; reflexivity. Qed.
Print Assumptions C71_node_aliases_refuted.

(** What is checked: element, node and direction counts. *)
Theorem C71_counts_checked_partial {R} (o : ops R) sd nq ne nen npn grads pts (g : gop R) :
  construct o sd nq ne nen npn grads pts = Ok g ->
  forall e, (e < ne)%nat -> exists ids offs, nth_error pts e = Some (ids, offs) /\ length ids = nen /\ m_rows offs = nen /\ m_cols offs = sd /\
    forall q, (q < nq)%nat -> exists gq ge, nth_error grads q = Some gq /\ nth_error gq e = Some ge /\ m_rows ge = sd /\ m_cols ge = nen.
Proof.
  assert (MM : forall {A B} (f : A -> res B) l r, mapM f l = Ok r -> forall x, In x l -> exists y, f x = Ok y).
  { clear. intros A B f. induction l as [|a l IH]; intros r E x I; [contradiction|]. cbn [mapM] in E. destruct (f a) as [y| |] eqn:Ea; cbn [bind] in E; try discriminate.
    destruct (mapM f l) as [ys| |] eqn:El; cbn [bind] in E; try discriminate. destruct I as [<-|I]; [eauto|exact (IH ys eq_refl x I)]. }
  unfold construct. destruct (mapM _ (seq 0 ne)) as [blocks| |] eqn:E; cbn [bind]; try discriminate. intros _ e He.
  destruct (MM _ _ _ _ _ E e) as (y & Ey); [apply in_seq; lia|]. unfold element_block in Ey. destruct (nth_error pts e) as [(ids, offs)|]; [|discriminate]. exists ids, offs. split; [reflexivity|].
  destruct (Nat.eqb_spec (length ids) nen); [|discriminate]. cbn [negb] in Ey. destruct (Nat.eqb_spec (m_rows offs) nen); [|discriminate]. cbn [negb] in Ey. destruct (Nat.eqb_spec (m_cols offs) sd); [|discriminate]. cbn [negb] in Ey.
  do 3 (split; [assumption|]). destruct (permutation sd npn ids offs) as [cols| |]; cbn [bind] in Ey; try discriminate. destruct (mapM _ (seq 0 nq)) as [bl| |] eqn:E2 in Ey; cbn [bind] in Ey; try discriminate.
  intros q Hq. destruct (MM _ _ _ _ _ E2 q) as (z & Ez); [apply in_seq; lia|]. unfold quad_block in Ez. destruct (nth_error grads q) as [gq|]; [|discriminate]. destruct (nth_error gq e) as [ge|] eqn:Eg; [|discriminate].
  exists gq, ge. split; [reflexivity|split; [exact Eg|]]. destruct (Nat.eqb_spec (m_rows ge) sd); [|discriminate]. cbn [negb] in Ez. destruct (Nat.eqb_spec (m_cols ge) nen); [|discriminate]. now split.
Qed.
Print Assumptions C71_counts_checked_partial.

(** C72.  On a sub-domain that does not start at the origin the operator never
    works: a neighbour is looked up below the first pixel. *)
Theorem C72_subdomain_refuted {R} (o : ops R) g n loc p (u : gfield R) alpha q q1 :
  pixels_default n loc = Ok p -> Forall (fun x => 0 < x) n -> length loc = length n -> op_dim g = length n ->
  (forall i, 0 <= zn loc i) -> (exists i, 0 < zn loc i) -> apply_gradient_increment o g p u alpha q <> Ok q1.
Proof. apply subdomain_not_ok. Qed.
Print Assumptions C72_subdomain_refuted.
Definition shifted3 : pixels := Eval vm_compute in match pixels_default [3] [3] with Ok p => p | _ => mk_pixels [] [] [] [] false end.
Example C72_case : pixels_default [3] [3] = Ok shifted3 /\ snd (apply_gradient zops line_op shifted3 (fld 1 1 [1; 4; 9]) (fld 1 1 [0; 0; 0])) = UB.
Proof. split; vm_compute; reflexivity. Qed.
