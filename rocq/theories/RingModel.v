(** Scalars.  Reals of the code are modelled by an arbitrary commutative ring, so
    rounding is not modelled; [Z] and [Q] are instances. *)
From Coq Require Export Ring_theory.
From Verif Require Import Base.

Record ops (R : Type) := mk_ops {
  zero : R; one : R; add : R -> R -> R; mul : R -> R -> R; sub : R -> R -> R; opp : R -> R }.
Arguments mk_ops {R} _ _ _ _ _ _.
Arguments zero {R} _.
Arguments one {R} _.
Arguments add {R} _ _ _.
Arguments mul {R} _ _ _.
Arguments sub {R} _ _ _.
Arguments opp {R} _ _.

(** The laws of a commutative ring. *)
Definition lawful {R} (o : ops R) : Prop := ring_theory (zero o) (one o) (add o) (mul o) (sub o) (opp o) eq.

Definition zops : ops Z := mk_ops 0%Z 1%Z Z.add Z.mul Z.sub Z.opp.

(** Sum over a list, and over the numbers below [n]. *)
Definition sum_list {R} (o : ops R) {A} (f : A -> R) (l : list A) : R := fold_right (fun x s => add o (f x) s) (zero o) l.
Definition sum_below {R} (o : ops R) (n : nat) (f : nat -> R) : R := sum_list o f (seq 0 n).
