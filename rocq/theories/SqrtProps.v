(** Properties of the compile-time square root. *)
From Verif Require Import Base IterSpec SqrtModel SqrtProofs.
Local Open Scope Z_scope.

(** ** C45 *)
(** Up to 92680 the recursion ends and returns the smallest integer whose square
    is not below the argument. *)
Theorem C45_root n : 1 <= n <= 92680 -> exists v, completes (fun fuel => ct_sqrt fuel n) v /\ 1 <= v /\ (v - 1) * (v - 1) < n <= v * v.
Proof. exact (root_small n). Qed.
Print Assumptions C45_root.
Theorem C45_perfect_square v : 1 <= v -> v * v <= 92680 -> completes (fun fuel => ct_sqrt fuel (v * v)) v.
Proof. exact (root_perfect v). Qed.
Print Assumptions C45_perfect_square.
(** The dimension of a fourth-order tensor is derived exactly for square
    matrices with a square number of rows. *)
Theorem C45_dimension rows : 1 <= rows <= 92680 ->
  (forall v, completes (fun fuel => dim_counter fuel rows rows) v <-> 0 < v /\ v * v = rows) /\
  ((forall v, v * v <> rows) -> exists k, forall fuel, (k <= fuel)%nat -> dim_counter fuel rows rows = Some (Err RuntimeError)).
Proof. exact (dim_exact rows). Qed.
Print Assumptions C45_dimension.
Theorem C45_dimension_square rows cols v : completes (fun fuel => dim_counter fuel rows cols) v -> rows = cols.
Proof.
  intros (k & C). specialize (C k (le_n k)). unfold dim_counter in C. destruct (rows =? -1); [discriminate|]. destruct (Z.eqb_spec rows cols) as [E|E]; [exact E|discriminate].
Qed.
Print Assumptions C45_dimension_square.
Example C45_case : ct_sqrt 20 81 = Some (Ok 9) /\ ct_sqrt 20 82 = Some (Ok 10) /\ ct_sqrt 20 1 = Some (Ok 1) /\ ct_sqrt 30 (304 * 304) = Some (Ok 304) /\
  dim_counter 20 9 9 = Some (Ok 3) /\ dim_counter 20 8 8 = Some (Err RuntimeError) /\ dim_counter 20 9 4 = Some (Err RuntimeError) /\ dim_counter 20 (-1) (-1) = Some (Err RuntimeError).
Proof. repeat split; reflexivity. Qed.

(** ** C66: arguments outside that range *)
(** Beyond 92680 the first square overflows, also for perfect squares. *)
Theorem C66_overflow_refuted n fuel : 92680 < n < 2 ^ 31 -> ct_sqrt (S fuel) n = Some UB.
Proof. exact (root_large n fuel). Qed.
Print Assumptions C66_overflow_refuted.
(** Zero and small negative arguments recurse for ever. *)
Theorem C66_nonpositive_refuted n : - 92681 <= n <= 0 -> endless (fun fuel => ct_sqrt fuel n).
Proof. exact (root_nonpositive n). Qed.
Print Assumptions C66_nonpositive_refuted.
Example C66_case : ct_sqrt 40 (305 * 305) = Some UB /\ ct_sqrt 40 0 = None /\ ct_sqrt 40 (-7) = None /\ ct_sqrt 40 (2 ^ 31 - 1) = Some UB.
Proof. repeat split; reflexivity. Qed.
