(** Specification vocabulary for tensors. *)
From Verif Require Import Base RingModel TensorModel.

Section WithRing.
Context {R : Type} (o : ops R).
Local Notation matrix := (nat -> nat -> R).

(** Equality of [n] by [m] matrices. *)
Definition same (n m : nat) (A B : matrix) : Prop := forall i j, (i < n)%nat -> (j < m)%nat -> A i j = B i j.
(** Kronecker's delta. *)
Definition delta (i j : nat) : R := if (i =? j)%nat then one o else zero o.
(** Sums over one, two and four indices below [n]. *)
Definition sum1 (n : nat) (f : nat -> R) : R := sum_below o n f.
Definition sum2 (n : nat) (f : nat -> nat -> R) : R := sum1 n (fun i => sum1 n (f i)).
Definition sum4 (n : nat) (f : nat -> nat -> nat -> nat -> R) : R := sum2 n (fun i j => sum2 n (f i j)).
(** [G] is the inverse of the [n] by [n] matrix [F]. *)
Definition inverse_of (n : nat) (F G : matrix) : Prop :=
  forall i j, (i < n)%nat -> (j < n)%nat -> sum1 n (fun k => mul o (G i k) (F k j)) = delta i j /\ sum1 n (fun k => mul o (F i k) (G k j)) = delta i j.
(** [v] is an eigenvector of [T] for the eigenvalue [x]. *)
Definition eigenpair (n : nat) (T : matrix) (x : R) (v : nat -> R) : Prop :=
  forall i, (i < n)%nat -> sum1 n (fun k => mul o (T i k) (v k)) = mul o x (v i).
(** The columns of [V] are orthonormal. *)
Definition orthonormal (n : nat) (V : matrix) : Prop :=
  forall i j, (i < n)%nat -> (j < n)%nat -> sum1 n (fun k => mul o (V k i) (V k j)) = delta i j.
End WithRing.
