(** Tensors of second and fourth rank as matrices (T4_map_proxy.hh,
    tensor_algebra.hh, eigen_tools.hh).  Reals are elements of a commutative
    ring, sizes are natural numbers, matrices are functions of row and column.
    Eigen's matrix product is the sum of products. *)
From Verif Require Import Base RingModel.
Local Open Scope list_scope.

Section WithRing.
Context {R : Type} (o : ops R).
Local Notation matrix := (nat -> nat -> R).

(** Eigen: product, transposition, identity, sum, multiple, trace. *)
Definition mm (n : nat) (A B : matrix) : matrix := fun i j => sum_below o n (fun k => mul o (A i k) (B k j)).
Definition tr (A : matrix) : matrix := fun i j => A j i.
Definition ident : matrix := fun i j => if (i =? j)%nat then one o else zero o.
Definition madd (A B : matrix) : matrix := fun i j => add o (A i j) (B i j).
Definition msub (A B : matrix) : matrix := fun i j => sub o (A i j) (B i j).
Definition mscale (s : R) (A : matrix) : matrix := fun i j => mul o s (A i j).
Definition mtrace (n : nat) (A : matrix) : R := sum_below o n (fun i => A i i).
(** Writing a coefficient. *)
Definition mset (A : matrix) (r c : nat) (v : R) : matrix := fun i j => if (i =? r)%nat && (j =? c)%nat then v else A i j.

(** T4_map_proxy.hh:89-115 [get]: row and column of component ijkl, from the
    strides of the matrix expression. *)
Definition my_stride (dim stride : nat) : nat := if (stride =? 1)%nat then stride else (stride / dim)%nat.
Definition t4_index (dim row_stride col_stride i j : nat) : nat :=
  (i * my_stride dim row_stride + j * my_stride dim col_stride)%nat.
Definition get_at (dim row_stride col_stride : nat) (t : matrix) (i j k l : nat) : R :=
  t (t4_index dim row_stride col_stride i j) (t4_index dim row_stride col_stride k l).
(** A [T4Mat] is column-major: row stride 1, column stride [dim^2]. *)
Definition get (dim : nat) (t : matrix) (i j k l : nat) : R := get_at dim 1 (dim * dim) t i j k l.
Definition put (dim : nat) (t : matrix) (i j k l : nat) (v : R) : matrix :=
  mset t (t4_index dim 1 (dim * dim) i j) (t4_index dim 1 (dim * dim) k l) v.

(** Four nested loops from 0 to [dim]. *)
Definition loop4 {S} (dim : nat) (body : S -> nat -> nat -> nat -> nat -> S) (s : S) : S :=
  fold_left (fun s i => fold_left (fun s j => fold_left (fun s k => fold_left (fun s l => body s i j k l)
    (seq 0 dim) s) (seq 0 dim) s) (seq 0 dim) s) (seq 0 dim) s.

(** tensor_algebra.hh:155-173, 183-201, 211-229; [product] is what the
    uninitialised result holds. *)
Definition outer (dim : nat) (product A B : matrix) : matrix :=
  loop4 dim (fun t i j k l => put dim t i j k l (mul o (A i j) (B k l))) product.
Definition outer_under (dim : nat) (product A B : matrix) : matrix :=
  loop4 dim (fun t i j k l => put dim t i j k l (mul o (A i k) (B j l))) product.
Definition outer_over (dim : nat) (product A B : matrix) : matrix :=
  loop4 dim (fun t i j k l => put dim t i j k l (mul o (A i l) (B j k))) product.

(** tensor_algebra.hh:86-122: the versions on [Eigen::Tensor].  [contract] over
    no index pair is the product; component [o] of [shuffle s] is the component
    of the argument whose index number [s(n)] is [o(n)]. *)
Definition tensor4 : Type := nat -> nat -> nat -> nat -> R.
Definition shuffle (s : list nat) (t : tensor4) : tensor4 := fun i j k l =>
  let out := [i; j; k; l] in
  let at_ n := match find (fun m => nth m s 4%nat =? n)%nat (seq 0 4) with Some m => nth m out 0%nat | None => 0%nat end in
  t (at_ 0%nat) (at_ 1%nat) (at_ 2%nat) (at_ 3%nat).
Definition t_outer (A B : matrix) : tensor4 := fun i j k l => mul o (A i j) (B k l).
Definition t_outer_under (A B : matrix) : tensor4 := shuffle [0; 2; 1; 3]%nat (t_outer A B).
Definition t_outer_over (A B : matrix) : tensor4 := shuffle [0; 2; 3; 1]%nat (t_outer A B).
(** tensor_algebra.hh:125-129 *)
Definition t_I4S (half : R) : tensor4 := fun i j k l => mul o half (add o (t_outer_under ident ident i j k l) (t_outer_over ident ident i j k l)).

(** tensor_algebra.hh:236-281, rank 4 with rank 2: the loop over k and l adds
    to [result(i, j)]. *)
Definition tensmult4 (dim : nat) (A B : matrix) : matrix :=
  loop4 dim (fun r i j k l => mset r i j (add o (r i j) (mul o (get dim A i j k l) (B k l)))) (fun _ _ => zero o).
(** tensor_algebra.hh:266-301: [A * B]. *)
Definition tensmult_product (n : nat) (A B : matrix) : matrix := mm n A B.

(** tensor_algebra.hh:322-353 *)
Definition Itrac (dim : nat) (product : matrix) : matrix := outer dim product ident ident.
Definition Iiden (dim : nat) (product : matrix) : matrix := outer_under dim product ident ident.
Definition Itrns (dim : nat) (product : matrix) : matrix := outer_over dim product ident ident.
Definition Isymm (dim : nat) (half : R) (product : matrix) : matrix := mscale half (madd (outer_under dim product ident ident) (outer_over dim product ident ident)).
Definition Iasymm (dim : nat) (half third : R) (product : matrix) : matrix := msub (Isymm dim half product) (mscale third (Itrac dim product)).

(** tensor_algebra.hh:365-387 and 392-414 *)
Definition dot24 (dim : nat) (t1 t2 : matrix) : matrix :=
  fold_left (fun r i => fold_left (fun r a => fold_left (fun r j => fold_left (fun r k => fold_left (fun r l =>
    put dim r i j k l (add o (get dim r i j k l) (mul o (t1 i a) (get dim t2 a j k l))))
    (seq 0 dim) r) (seq 0 dim) r) (seq 0 dim) r) (seq 0 dim) r) (seq 0 dim) (fun _ _ => zero o).
Definition dot42 (dim : nat) (t4 t2 : matrix) : matrix :=
  fold_left (fun r i => fold_left (fun r j => fold_left (fun r k => fold_left (fun r a => fold_left (fun r l =>
    put dim r i j k l (add o (get dim r i j k l) (mul o (get dim t4 i j k a) (t2 a l))))
    (seq 0 dim) r) (seq 0 dim) r) (seq 0 dim) r) (seq 0 dim) r) (seq 0 dim) (fun _ _ => zero o).
(** tensor_algebra.hh:419-427 and 433-441 *)
Definition ddot44 (dim : nat) (t1 t2 : matrix) : matrix := mm (dim * dim) t1 t2.
Definition ddot22 (dim : nat) (t1 t2 : matrix) : R := mtrace dim (mm dim t1 (tr t2)).

(** eigen_tools.hh:224-239 [get_rank]; no value where the static assertion
    fails. *)
Inductive rank : Set := FirstOrder | SecondOrder | FourthOrder.
Definition get_rank (dim rows cols : nat) : option rank :=
  if (rows =? dim)%nat && (cols =? 1)%nat then Some FirstOrder
  else if (rows =? dim)%nat && (cols =? rows)%nat then Some SecondOrder
  else if (rows =? dim * dim)%nat && (cols =? dim * dim)%nat then Some FourthOrder
  else None.

(** tensor_algebra.hh:303-318 [tensmult] of a [lrows] by [lcols] matrix with a
    [rows] by [cols] one; no value: does not compile. *)
Definition order (r : rank) : nat := match r with FirstOrder => 1 | SecondOrder => 2 | FourthOrder => 4 end.
Definition tensmult (lrows lcols rows cols : nat) (A B : matrix) : option matrix :=
  match get_rank rows rows cols, get_rank rows lrows lcols with
  | Some small, Some large =>
      if (order large =? 2 * order small)%nat || (rows =? 1)%nat then
        match small with
        | FirstOrder => Some (tensmult_product rows A B)
        | SecondOrder => Some (if (rows =? 1)%nat then tensmult_product rows A B else tensmult4 rows A B)
        | FourthOrder => None
        end
      else None
  | _, _ => None
  end.

(** tensor_algebra.hh:478-568 *)
Definition push1 (dim : nat) (t F : matrix) : matrix := mm dim F t.
Definition push2 (dim : nat) (t F : matrix) : matrix := mm dim (mm dim F t) (tr F).
Definition push4 (dim : nat) (junk t F : matrix) : matrix :=
  mm (dim * dim) (mm (dim * dim) (outer_under dim junk F F) t) (outer_under dim junk (tr F) (tr F)).

(** tensor_algebra.hh:575-592: [AxisTransform::push_forward] and [pull_back]
    for an argument with [rows] rows and [cols] columns; [inverse] is Eigen's
    matrix inversion.  No value: does not compile. *)
Definition push_forward (dim rows cols : nat) (junk t F : matrix) : option matrix :=
  match get_rank dim rows cols with
  | Some FirstOrder => Some (push1 dim t F)
  | Some SecondOrder => Some (push2 dim t F)
  | Some FourthOrder => Some (push4 dim junk t F)
  | None => None
  end.
Definition pull_back (inverse : matrix -> matrix) (dim rows cols : nat) (junk t F : matrix) : option matrix :=
  push_forward dim rows cols junk t (inverse F).

(** eigen_tools.hh:269-371 [log_comp::Proj<Dim, I, J>]: the product over the
    eigenvalues other than number [I], from [J] downwards.  [inv] is the
    reciprocal; no value stands for a result that is not finite. *)
Section Log.
Context (inv : R -> option R) (log : R -> option R).
Definition proj_factor (eigs : nat -> R) (T : matrix) (i j : nat) : option matrix :=
  match inv (sub o (eigs i) (eigs j)) with
  | Some s => Some (mscale s (msub T (mscale (eigs j) ident)))
  | None => None
  end.
Definition mprod (dim : nat) (a b : option matrix) : option matrix :=
  match a, b with Some x, Some y => Some (mm dim x y) | _, _ => None end.
Fixpoint proj (dim : nat) (eigs : nat -> R) (T : matrix) (i j : nat) : option matrix :=
  match j with
  | O => if (i =? 0)%nat then Some ident  (* lines 353-371, reached for dimension 1 only *)
         else proj_factor eigs T i 0      (* lines 309-327 *)
  | S j' =>
      if (i =? S j')%nat then proj dim eigs T i j'              (* lines 290-306 *)
      else if (i =? 0)%nat && (j' =? 0)%nat then proj_factor eigs T 0 1  (* lines 330-350 *)
      else mprod dim (proj_factor eigs T i (S j')) (proj dim eigs T i j')   (* lines 269-287 *)
  end.
(** eigen_tools.hh:375-380 *)
Definition P (dim : nat) (eigs : nat -> R) (T : matrix) (i : nat) : option matrix := proj dim eigs T i (dim - 1).

(** eigen_tools.hh:383-414 [Summand], [Sum] *)
Definition term (dim : nat) (eigs : nat -> R) (T : matrix) (i : nat) : option matrix :=
  match log (eigs i), P dim eigs T i with Some a, Some X => Some (mscale a X) | _, _ => None end.
Fixpoint summand (dim : nat) (eigs : nat -> R) (T : matrix) (i : nat) : option matrix :=
  match i with
  | O => term dim eigs T 0
  | S i' => match term dim eigs T i, summand dim eigs T i' with Some X, Some Y => Some (madd X Y) | _, _ => None end
  end.
(** eigen_tools.hh:430-437 [logm]; [eigs] is what the eigenvalue solver found. *)
Definition logm (dim : nat) (eigs : nat -> R) (T : matrix) : option matrix := summand dim eigs T (dim - 1).

(** eigen_tools.hh:461-473 [logm_alt_spectral] and 502-514 [expm_spectral]
    (with [log] or [exp] for [fn]); column [i] of [V] is the eigenvector. *)
Definition spectral_sum (fn : R -> option R) (dim : nat) (eigs : nat -> R) (V : matrix) : option matrix :=
  fold_left (fun acc i => match acc, fn (eigs i) with
                          | Some r, Some a => Some (madd r (mscale a (fun x y => mul o (V x i) (V y i))))
                          | _, _ => None
                          end) (seq 0 dim) (Some (fun _ _ => zero o)).
End Log.
End WithRing.
