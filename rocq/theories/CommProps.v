(** Properties of collective operations. *)
From Verif Require Import Base SqrtModel CommModel CommSpec CommProofs.
Local Open Scope Z_scope.
Local Open Scope list_scope.

(** ** C44 *)
(** The columns of the gathered matrix are the columns of all arguments in order
    of ranks, on every rank; processes may contribute nothing. *)
Theorem C44_gather {A} (zero : A) rows (args : list (matrix A)) rank :
  (0 < rows)%nat -> Forall (gatherable rows) args -> Forall backed args -> Forall contiguous args -> (exists m, In m args /\ m_rows m = rows) ->
  Z.of_nat (nsum (map msize args)) < 2 ^ 31 ->
  exists m, gather zero args rank = Ok m /\ m_rows m = rows /\ columns m = concat (map columns args).
Proof. exact (gather_all zero rows args rank). Qed.
Print Assumptions C44_gather.
Theorem C44_gather_nothing {A} (zero : A) (args : list (matrix A)) rank : Forall (fun m => m_rows m = 0%nat) args -> gather zero args rank = Ok (mk_matrix 0 0 0 []).
Proof. exact (gather_nothing zero args rank). Qed.
Print Assumptions C44_gather_nothing.
(** The offsets start at zero, follow each other, and the ranges they start
    partition all positions. *)
Theorem C44_offsets sizes : sizes <> [] -> offset sizes 0 = 0 /\
  (forall rank, (S rank < length sizes)%nat -> offset sizes (S rank) = offset sizes rank + nth rank sizes 0) /\
  (forall rank, S rank = length sizes -> offset sizes rank + nth rank sizes 0 = sum sizes rank).
Proof.
  intros N. split; [|split].
  - rewrite offset_prefix; [reflexivity|]. destruct sizes; [congruence|cbn; lia].
  - intros rank H. now apply offset_next.
  - intros rank H. rewrite offset_prefix by lia. unfold sum. rewrite <- (firstn_all sizes) at 3. rewrite <- H, firstn_next by lia. rewrite zsum_app. cbn. lia.
Qed.
Print Assumptions C44_offsets.
Theorem C44_offsets_partition sizes i : Forall (fun n => 0 <= n) sizes -> 0 <= i < sum sizes 0 ->
  exists rank, ((rank < length sizes)%nat /\ offset sizes rank <= i < offset sizes rank + nth rank sizes 0) /\
  forall s, (s < length sizes)%nat /\ offset sizes s <= i < offset sizes s + nth s sizes 0 -> s = rank.
Proof.
  intros F H. destruct (covered sizes i F H) as (r & Hr & B). exists r. split; [auto|]. intros s [Hs Bs]. exact (disjoint sizes s r i F Hs Hr Bs B).
Qed.
Print Assumptions C44_offsets_partition.
(** Sums of matrices of one shape are entry by entry. *)
Theorem C44_sum_matrix rows cols args rank : (rank < length args)%nat -> Forall (fun m => m_rows m = rows /\ m_cols m = cols /\ m_outer m = rows /\ backed m) args ->
  exists m, sum_matrix args rank = Ok m /\ m_rows m = rows /\ m_cols m = cols /\ forall i j, (i < rows)%nat -> (j < cols)%nat -> entry m i j = zsum (map (fun a => entry a i j) args).
Proof. exact (sum_matrix_entries rows cols args rank). Qed.
Print Assumptions C44_sum_matrix.
(** Scalar reductions: every rank gets the sum, the greatest argument, the
    argument of the root, the conjunction and the disjunction. *)
Theorem C44_scalars args rank : sum args rank = fold_right Z.add 0 args /\
  (args <> [] -> In (max args rank) args /\ Forall (fun x => x <= max args rank) args) /\
  (forall root x, nth_error args root = Some x -> bcast args root rank = Some x).
Proof.
  split; [reflexivity|]. split; [|auto]. destruct args as [|a l]; [congruence|]. intros _. cbn [max].
  assert (G : forall l a, (fold_left Z.max l a = a \/ In (fold_left Z.max l a) l) /\ a <= fold_left Z.max l a /\ Forall (fun x => x <= fold_left Z.max l a) l).
  { clear. induction l as [|b l IH]; intros a; cbn [fold_left]; [split; [now left|split; [lia|constructor]]|].
    destruct (IH (Z.max a b)) as (I & B & F). split; [|split; [lia|constructor; [lia|exact F]]].
    destruct I as [I|I]; [|right; now right]. destruct (Z.max_spec a b) as [[_ E]|[_ E]]; rewrite E in *; [right; left; congruence|left; exact I]. }
  destruct (G l a) as ([->|I] & B & F); split; try (now left); try (now right); constructor; try assumption; lia.
Qed.
Print Assumptions C44_scalars.
Theorem C44_logical args rank : (logical_and args rank = true <-> ~ In false args) /\ (logical_or args rank = true <-> In true args).
Proof.
  unfold logical_and, logical_or. rewrite forallb_forall, existsb_exists. split; split.
  - intros F I. specialize (F false I). discriminate.
  - intros N [|] I; [reflexivity|contradiction].
  - intros ([|] & I & E); [exact I|discriminate].
  - intros I. now exists true.
Qed.
Print Assumptions C44_logical.
(** A build without MPI behaves like one process. *)
Theorem C44_serial (x : Z) (b : bool) : serial x = sum [x] 0 /\ serial x = max [x] 0 /\ serial x = cumulative_sum [x] 0 /\ Some (serial x) = bcast [x] 0 0 /\
  serial b = logical_and [b] 0 /\ serial b = logical_or [b] 0.
Proof. unfold serial, sum, cumulative_sum, bcast, logical_and, logical_or, max. cbn. destruct b; repeat split; lia. Qed.
Print Assumptions C44_serial.
Theorem C44_serial_gather {A} (zero : A) (m : matrix A) : (0 < m_rows m)%nat -> backed m -> contiguous m -> Z.of_nat (msize m) < 2 ^ 31 ->
  exists g, gather zero [m] 0 = Ok g /\ m_rows g = m_rows m /\ columns g = columns (serial m).
Proof.
  intros R B C L. destruct (gather_all zero (m_rows m) [m] 0%nat R) as (g & G & Gr & Gc).
  - constructor; [now left|constructor].
  - now constructor.
  - now constructor.
  - exists m. split; [now left|reflexivity].
  - cbn [map nsum fold_right]. rewrite Nat.add_0_r. exact L.
  - exists g. cbn [map concat] in Gc. rewrite app_nil_r in Gc. auto.
Qed.
Print Assumptions C44_serial_gather.
Example C44_scalars_case : max [-5; -3; -9] 1 = -3 /\ sum [4; -1; 7] 2 = 10 /\ bcast [4; -1; 7] 1 2 = Some (-1) /\
  logical_and [true; false] 0 = false /\ logical_or [false; true] 0 = true /\ logical_and [true; true] 1 = true.
Proof. repeat split. Qed.
Example C44_case : let a := mk_matrix 2 1 2 [1; 2] in let b := mk_matrix 0 0 0 [] in let c := mk_matrix 2 2 2 [3; 4; 5; 6] in
  gather 0 [a; b; c] 1 = Ok (mk_matrix 2 3 2 [1; 2; 3; 4; 5; 6]) /\ columns c = [[3; 4]; [5; 6]] /\
  map (offset [2; 0; 3; 1]) [0; 1; 2; 3]%nat = [0; 2; 2; 5] /\ map (cumulative_sum [2; 3; 1; 5]) [0; 1; 2; 3]%nat = [2; 5; 6; 11] /\
  sum_matrix [a; mk_matrix 2 1 2 [10; 20]] 0 = Ok (mk_matrix 2 1 2 [11; 22]).
Proof. repeat split; reflexivity. Qed.

(** ** C69: arguments that are parts of a larger matrix *)
(** The first elements of the memory are sent instead of the entries. *)
Theorem C69_block_refuted : let m := mk_matrix 1 2 2 [1; 9; 2; 9] in backed m /\ columns m = [[1]; [2]] /\
  gather 0 [m] 0 = Ok (mk_matrix 1 2 1 [1; 9]) /\ sum_matrix [m] 0 = Ok (mk_matrix 1 2 1 [1; 9]).
Proof. split; [split; cbn; lia|]. repeat split. Qed.
Print Assumptions C69_block_refuted.
(** With two columns or more and a gap between them, the second column received
    starts with the memory after the first one. *)
Theorem C69_gap_refuted {A} (zero : A) (m : matrix A) rank : (0 < m_rows m)%nat -> (2 <= m_cols m)%nat -> (m_rows m < m_outer m)%nat -> backed m -> Z.of_nat (msize m) < 2 ^ 31 ->
  exists g, gather zero [m] rank = Ok g /\ column g 1 = firstn (m_rows m) (skipn (m_rows m) (m_buf m)) /\ column m 1 = firstn (m_rows m) (skipn (m_outer m) (m_buf m)).
Proof.
  intros R C O [Ho Hb] T. assert (L : (msize m <= length (m_buf m))%nat) by (unfold msize; destruct Hb as [Hb|Hb]; [lia|]; destruct (m_cols m) as [|k]; [lia|]; replace (S k - 1)%nat with k in Hb by lia; nia).
  set (m' := mk_matrix (m_rows m) (m_cols m) (m_rows m) (m_buf m)). assert (E : gather zero [m] rank = gather zero [m'] rank) by reflexivity.
  destruct (gather_all zero (m_rows m) [m'] rank R) as (g & G & Gr & Gc).
  - constructor; [left; reflexivity|constructor].
  - constructor; [|constructor]. split; cbn; [lia|]. right. unfold msize in L. destruct (m_cols m) as [|k]; [lia|]. replace (S k - 1)%nat with k by lia. nia.
  - constructor; [left; reflexivity|constructor].
  - exists m'. split; [now left|reflexivity].
  - cbn [map nsum fold_right]. unfold m', msize in *. cbn [m_rows m_cols]. lia.
  - exists g. split; [congruence|]. split; [|unfold column; now rewrite Nat.mul_1_l].
    cbn [map concat] in Gc. rewrite app_nil_r in Gc. assert (X : nth 1 (columns g) [] = nth 1 (columns m') []) by now rewrite Gc.
    assert (Y : forall q : matrix A, (2 <= m_cols q)%nat -> nth 1 (columns q) [] = column q 1).
    { intros q Hq. unfold columns. rewrite (nth_indep _ [] (column q 0)) by (rewrite map_length, seq_length; lia). rewrite map_nth, seq_nth by lia. reflexivity. }
    assert (Hg : m_cols g = m_cols m). { apply (f_equal (@length _)) in Gc. unfold columns in Gc. rewrite !map_length, !seq_length in Gc. exact Gc. }
    rewrite (Y g), (Y m') in X by (cbn; lia). rewrite X. unfold column. cbn [m' m_rows m_outer m_buf]. now rewrite Nat.mul_1_l.
Qed.
Print Assumptions C69_gap_refuted.
Example C69_case : let m := mk_matrix 2 2 3 [1; 2; 0; 3; 4; 0] in columns m = [[1; 2]; [3; 4]] /\ gather 0 [m] 0 = Ok (mk_matrix 2 2 2 [1; 2; 0; 3]).
Proof. repeat split. Qed.
