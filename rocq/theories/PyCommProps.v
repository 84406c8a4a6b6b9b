(** Properties of collective operations as Python programs call them. *)
From Verif Require Import Base CIntModel PyAttModel CommModel PyCommModel PyCommSpec PyCommProofs.
Local Open Scope Z_scope.
Local Open Scope list_scope.

(** ** C162 *)
(** Integers of 32 bits: every process gets the sum; floats: what MPI computes. *)
Theorem C162_sum fsum csum args ns : args <> [] -> Forall2 denotes args ns -> no_overflow 32 ns ->
  py_sum fsum csum args = Returned (repeat (NInt (fold_right Z.add 0 ns)) (length args)).
Proof. exact (sum_ints fsum csum args ns). Qed.
Print Assumptions C162_sum.
Theorem C162_sum_floats fsum csum xs : xs <> [] -> py_sum fsum csum (map NFloat xs) = Returned (repeat (NFloat (fsum xs)) (length xs)).
Proof. exact (sum_floats fsum csum xs). Qed.
Print Assumptions C162_sum_floats.
(** Process [i] gets the sum of the first [i + 1] arguments. *)
Theorem C162_cumulative fsum csum args ns : args <> [] -> Forall2 denotes args ns -> no_overflow 32 ns ->
  py_cumulative_sum fsum csum args = Returned (map (fun i => NInt (fold_right Z.add 0 (up_to i ns))) (seq 0 (length args))).
Proof. exact (cumulative_ints fsum csum args ns). Qed.
Print Assumptions C162_cumulative.
Theorem C162_cumulative_wide fsum csum ns : ns <> [] -> Forall wide_range ns -> no_overflow 64 ns ->
  py_cumulative_sum fsum csum (map NInt ns) = Returned (map (fun i => NInt (fold_right Z.add 0 (up_to i ns))) (seq 0 (length ns))).
Proof. exact (cumulative_wide fsum csum ns). Qed.
Print Assumptions C162_cumulative_wide.
Theorem C162_cumulative_floats fsum csum xs : xs <> [] -> py_cumulative_sum fsum csum (map NFloat xs) = Returned (map (fun i => NFloat (fsum (up_to i xs))) (seq 0 (length xs))).
Proof. exact (cumulative_floats fsum csum xs). Qed.
Print Assumptions C162_cumulative_floats.
Theorem C162_cumulative_complex fsum csum zs : zs <> [] -> py_cumulative_sum fsum csum (map (fun z => NComplex (fst z) (snd z)) zs) =
  Returned (map (fun i => NComplex (fst (csum (up_to i zs))) (snd (csum (up_to i zs)))) (seq 0 (length zs))).
Proof. exact (cumulative_complexes fsum csum zs). Qed.
Print Assumptions C162_cumulative_complex.
(** Every process gets the argument of the root, as it is. *)
Theorem C162_bcast root args x : one_kind args -> nth_error args root = Some x -> py_bcast root args = Returned (repeat x (length args)).
Proof. exact (bcast_one_kind root args x). Qed.
Print Assumptions C162_bcast.
(** Builds without MPI hand the argument back. *)
Theorem C162_serial ts : In ts [cumulative_types; bcast_types] ->
  (forall n, - 2 ^ 63 <= n < 2 ^ 63 -> alone ts (NInt n) = PyOk (NInt n)) /\
  (forall r, alone ts (NFloat r) = PyOk (NFloat r)) /\ (forall r i, alone ts (NComplex r i) = PyOk (NComplex r i)).
Proof.
  intros I. split; [|split].
  - intros n. now apply alone_ints.
  - intros r. unfold alone. rewrite choose_float; [reflexivity|now right].
  - intros r i. unfold alone. now rewrite choose_complex.
Qed.
Print Assumptions C162_serial.
Theorem C162_serial_sum : (forall n, - 2 ^ 31 <= n < 2 ^ 31 -> alone sum_types (NInt n) = PyOk (NInt n)) /\ (forall r, alone sum_types (NFloat r) = PyOk (NFloat r)).
Proof.
  split.
  - intros n R. unfold alone, sum_types. rewrite (choose_int_first _ _ n); [reflexivity|now left|exact R].
  - intros r. reflexivity.
Qed.
Print Assumptions C162_serial_sum.
(** A build without MPI gives what one process gets with MPI. *)
Theorem C162_serial_alike root x : (forall y, alone bcast_types x = PyOk y -> root = 0%nat -> py_bcast root [x] = Returned [y]) /\
  (alone bcast_types x = PyType -> py_bcast root [x] = Refused).
Proof.
  unfold alone, py_bcast, together_. cbn [map forallb]. destruct (choose bcast_types x) as [[t v]|]; cbn [andb chosen option_map]; split; try discriminate; [|reflexivity].
  intros y H ->. injection H as <-. reflexivity.
Qed.
Print Assumptions C162_serial_alike.
(** Arrays are taken as they are: elements of the five types, writeable, elements
    adjacent column after column, vectors as columns. *)
Theorem C162_arrays a t r c : choose_array a = Some (t, (r, c)) <-> r_type a = Some t /\ f_contiguous a = true /\ r_writeable a = true /\ rows_cols (r_dims a) r c.
Proof. exact (choose_array_iff a t r c). Qed.
Print Assumptions C162_arrays.
Theorem C162_vectors a n : r_dims a = [n] -> (f_contiguous a = true <-> r_order a <> Apart).
Proof. exact (adjacent_vector a n). Qed.
Print Assumptions C162_vectors.
(** The communicator has the size of the argument, or there is an exception. *)
Theorem C162_factory mpi mpi4py a n : communicator mpi mpi4py a = Ok n <->
  (a = ANone /\ n = 1 \/ a = AOwn n \/ a = ASized n /\ (n = 1 \/ mpi = true /\ mpi4py = true)).
Proof.
  unfold communicator. destruct a as [|k|k|].
  - split; [intros H; injection H as <-; now left|]. intros [[_ ->]|[H|[H _]]]; [reflexivity|discriminate..].
  - split; [intros H; injection H as <-; right; now left|]. intros [[H _]|[H|[H _]]]; [discriminate|now injection H as ->|discriminate].
  - split.
    + destruct (Z.eqb_spec k 1) as [->|N]; [intros H; injection H as <-; right; right; auto|].
      destruct mpi, mpi4py; try discriminate. intros H; injection H as <-. right; right; auto.
    + intros [[H _]|[H|[H C]]]; [discriminate|discriminate|]. injection H as ->. destruct (Z.eqb_spec n 1) as [->|N]; [reflexivity|]. destruct C as [C|[-> ->]]; [contradiction|reflexivity].
  - split; [discriminate|]. intros [[H _]|[H|[H _]]]; discriminate.
Qed.
Print Assumptions C162_factory.

(** Three processes with 3, True and -7; two floats; large integers; 2.5 from the
    root; a build without MPI. *)
Example C162_case : forall fsum csum,
  py_sum fsum csum [NInt 3; NBool true; NInt (-7)] = Returned [NInt (-3); NInt (-3); NInt (-3)] /\
  py_cumulative_sum fsum csum [NInt 3; NBool true; NInt (-7)] = Returned [NInt 3; NInt 4; NInt (-3)] /\
  py_cumulative_sum fsum csum [NInt (2 ^ 40); NInt (2 ^ 41)] = Returned [NInt (2 ^ 40); NInt (2 ^ 40 + 2 ^ 41)] /\
  py_sum fsum csum [NFloat 5; NFloat 6] = Returned [NFloat (fsum [5; 6]); NFloat (fsum [5; 6])] /\
  py_bcast 1 [NFloat 7; NFloat 4612811918334230528; NFloat 0] = Returned (repeat (NFloat 4612811918334230528) 3) /\
  alone cumulative_types (NInt (2 ^ 62)) = PyOk (NInt (2 ^ 62)) /\ alone sum_types (NInt 2147483647) = PyOk (NInt 2147483647).
Proof. intros fsum csum. repeat split. Qed.
Example C162_overflow_case : no_overflow 32 [3; 1; -7] /\ ~ no_overflow 32 [2 ^ 31 - 1; 1; -5].
Proof.
  split.
  - intros part rest P. assert (B : forall p r l, Permutation l (p ++ r) -> - zsum (map Z.abs l) <= zsum p <= zsum (map Z.abs l)).
    { clear. intros p r l H. rewrite (perm_zsum _ _ (Permutation_map Z.abs H)), map_app, Base.zsum_app.
      assert (G : forall l, - zsum (map Z.abs l) <= zsum l <= zsum (map Z.abs l) /\ 0 <= zsum (map Z.abs l)) by (clear; unfold zsum; induction l as [|a l IH]; cbn [map fold_right]; lia).
      pose proof (G p). pose proof (G r). lia. }
    specialize (B part rest _ P). cbn in B. lia.
  - intros H. specialize (H [2 ^ 31 - 1; 1] [-5] (Permutation_refl _)). vm_compute in H. destruct H as [_ H]. discriminate.
Qed.
Example C162_array_case : choose_array (mk_pyarray (Some CUint) [3; 4]%nat Fortran true) = Some (CUint, (3, 4)%nat) /\
  choose_array (mk_pyarray (Some CReal) [5]%nat Plain true) = Some (CReal, (5, 1)%nat) /\ choose_array (mk_pyarray None [5]%nat Plain true) = None /\
  choose_array (mk_pyarray (Some CReal) [5]%nat Plain false) = None /\ choose_array (mk_pyarray (Some CReal) [2; 2; 2]%nat Fortran true) = None.
Proof. repeat split. Qed.
Example C162_factory_case : communicator true true (ASized 4) = Ok 4 /\ communicator false true (ASized 4) = Err RuntimeError /\ communicator false false (ASized 1) = Ok 1.
Proof. repeat split. Qed.

(** ** C163: what goes wrong *)
(** Without MPI [sum] of 2^53 + 1 is the float 2^53; [numpy.float32(2.5)] becomes 2, -2.5 becomes -2;
    [bcast] keeps such numbers; complex scalars are refused by [sum]. *)
Theorem C163_scalars_refuted :
  alone sum_types (NInt (2 ^ 53 + 1)) = PyOk (NFloat (1076 * 2 ^ 52)) /\ truncated (1076 * 2 ^ 52) = Some (2 ^ 53) /\
  alone sum_types (NReal 4612811918334230528) = PyOk (NInt 2) /\ alone sum_types (NReal 13836183955189006336) = PyOk (NInt (-2)) /\ alone cumulative_types (NReal 4612811918334230528) = PyOk (NInt 2) /\
  (forall r, alone bcast_types (NReal r) = PyOk (NFloat r)) /\ (forall r i, alone sum_types (NComplex r i) = PyType).
Proof. repeat split. Qed.
Print Assumptions C163_scalars_refuted.
(** Integers that are too large for [int], but not for [unsigned int], are added modulo
    2^32: from two processes on, the result of the last process is wrong. *)
Theorem C163_unsigned_refuted fsum csum ns : (2 <= length ns)%nat -> Forall uint_range ns -> exists l m,
  py_cumulative_sum fsum csum (map NInt ns) = Returned l /\ nth_error l (length ns - 1) = Some (NInt m) /\ 0 <= m < 2 ^ 32 /\ 2 ^ 32 <= fold_right Z.add 0 ns.
Proof.
  intros L R. assert (N : ns <> []) by (destruct ns; cbn in L; [lia|discriminate]). eexists. exists (zsum ns mod 2 ^ 32).
  split; [exact (cumulative_uint fsum csum ns N R)|]. split.
  - rewrite (map_nth_error _ _ _ (d := (length ns - 1)%nat)).
    + unfold up_to. replace (S (length ns - 1)) with (length ns) by lia. now rewrite firstn_all.
    + rewrite (nth_error_nth' _ 0%nat) by (rewrite seq_length; lia). now rewrite seq_nth by lia.
  - split; [apply Z.mod_pos_bound; lia|].
    destruct ns as [|a [|b l]]; cbn in L; [lia|lia|]. inversion R as [|? ? Ra R']; subst. inversion R' as [|? ? Rb R'']; subst.
    assert (P : 0 <= zsum l) by (clear - R''; induction R'' as [|x l H R IH]; unfold zsum in *; cbn [fold_right]; [lia|unfold uint_range in H; lia]).
    unfold uint_range in *. unfold zsum in *. cbn [fold_right]. lia.
Qed.
Print Assumptions C163_unsigned_refuted.
(** The types of a call are chosen by each process from its own argument: they differ if
    the root has 2^40, or 2.5, and the other process 0; or for the sum of 1 and 1.5. *)
Theorem C163_kinds_refuted fsum csum : py_bcast 0 [NInt (2 ^ 40); NInt 0] = Mismatched /\ py_bcast 0 [NFloat 4612811918334230528; NInt 0] = Mismatched /\
  py_sum fsum csum [NInt 1; NFloat 4609434218613702656] = Mismatched /\ py_sum fsum csum [NInt 1; NComplex 0 0] = Waiting.
Proof. repeat split. Qed.
Print Assumptions C163_kinds_refuted.
(** Matrices in the default order of numpy are refused, whatever their elements. *)
Theorem C163_order_refuted a n m : r_dims a = [n; m] -> (2 <= n)%nat -> (2 <= m)%nat -> r_order a = Plain -> choose_array a = None.
Proof.
  intros D N M O. destruct (choose_array a) as [[t [r c]]|] eqn:E; [|reflexivity]. apply choose_array_iff in E as (_ & F & _).
  apply (adjacent_matrix a n m D N M) in F. congruence.
Qed.
Print Assumptions C163_order_refuted.
Example C163_case : forall fsum csum, py_cumulative_sum fsum csum [NInt 3000000000; NInt 3000000000] = Returned [NInt 3000000000; NInt 1705032704] /\
  choose_array (mk_pyarray (Some CReal) [2; 3]%nat Plain true) = None /\ choose_array (mk_pyarray (Some CReal) [2; 1]%nat Plain true) = Some (CReal, (2, 1)%nat).
Proof. intros fsum csum. repeat split. Qed.
