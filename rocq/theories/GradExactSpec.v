(** Specification vocabulary for exactness and balance of the gradient operator. *)
From Verif Require Import Base GridModel GridSpec RingModel GradModel GradSpec.
Local Open Scope list_scope.

(** The coordinates of all pixels of a grid, and sums over them. *)
Fixpoint grid_points (n : list Z) : list (list Z) :=
  match n with
  | [] => [[]]
  | x :: r => flat_map (fun c => map (fun i => i :: c) (zrange (Z.to_nat x))) (grid_points r)
  end.
Definition total {R} (o : ops R) (n : list Z) (f : list Z -> R) : R := sum_list o f (grid_points n).

(** Integers as scalars, and the position of node [m] of pixel [c] in direction [l],
    in units of the pixel: [pos] is that of the nodes of the pixel at the origin. *)
Definition additive {R} (o : ops R) (emb : Z -> R) : Prop := forall a b, emb (a + b) = add o (emb a) (emb b).
Definition position {R} (o : ops R) (emb : Z -> R) (pos : nat -> nat -> R) (c : list Z) (m l : nat) : R := add o (emb (zn c l)) (pos m l).
(** An affine function of the position. *)
Definition affine {R} (o : ops R) (emb : Z -> R) (pos : nat -> nat -> R) (sd : nat) (a : R) (b : nat -> R) (c : list Z) (m : nat) : R :=
  add o a (sum_below o sd (fun l => mul o (b l) (position o emb pos c m l))).
(** Shape functions that add up to one and to the position: their derivatives add up
    to zero, and, weighted with the positions of their nodes, to the unit matrix. *)
Definition partition_of_unity {R} (o : ops R) (sd nq ne nen : nat) (d : discretisation R) : Prop :=
  forall e q k, (e < ne)%nat -> (q < nq)%nat -> (k < sd)%nat -> sum_below o nen (deriv d e q k) = zero o.
Definition isoparametric {R} (o : ops R) (emb : Z -> R) (pos : nat -> nat -> R) (sd nq ne nen : nat) (d : discretisation R) : Prop :=
  forall e q k l, (e < ne)%nat -> (q < nq)%nat -> (k < sd)%nat -> (l < sd)%nat ->
    sum_below o nen (fun i => mul o (deriv d e q k i) (position o emb pos (offset d e i) (node d e i) l)) = if (k =? l)%nat then one o else zero o.
(** All nodes of element [e] of pixel [c] lie in the grid: no periodic neighbours. *)
Definition interior {R} (n : list Z) (nen : nat) (d : discretisation R) (c : list Z) (e : nat) : Prop :=
  forall i, (i < nen)%nat -> in_shape n (add_coords c (offset d e i)).
