(** * Arithmetic ranges with 64-bit integers (C158) *)
From Verif Require Import Base CIntModel IterModel IterSpec IterProofs MachModel MachRangeModel.
Local Open Scope Z_scope.
Local Open Scope list_scope.

Lemma ix_fits z : - 2 ^ 63 <= z < 2 ^ 63 -> ix z = Ok z.
Proof. intros H. unfold ix, fits64. destruct (Z.leb_spec (- 2 ^ 63) z); [|lia]. destruct (Z.ltb_spec z (2 ^ 63)); [reflexivity|lia]. Qed.
Lemma quot_abs a b : b <> 0 -> Z.abs (Z.quot a b) <= Z.abs a.
Proof. intros H. rewrite <- Z.quot_abs by exact H. apply Z.quot_le_upper_bound; [lia|]. rewrite <- (Z.mul_1_l (Z.abs a)) at 1. apply Z.mul_le_mono_nonneg_r; lia. Qed.
Lemma stop_multiple start stop step : step <> 0 -> (if 0 <? step then start <= stop else stop <= start) ->
  exists q, 0 <= q /\ arange_stop start stop step = start + q * step.
Proof.
  intros Hs Hd. unfold arange_stop. assert (E := Z.quot_rem' (stop - start) step).
  assert (Q : 0 <= Z.quot (stop - start) step).
  { destruct (Z.ltb_spec 0 step); [apply Z.quot_pos; lia|]. rewrite <- (Z.quot_opp_opp (stop - start) step) by exact Hs. apply Z.quot_pos; lia. }
  destruct (Z.eqb_spec (Z.rem (stop - start) step) 0) as [X|X].
  - exists (Z.quot (stop - start) step). split; [exact Q|]. rewrite X in E. lia.
  - exists (1 + Z.quot (stop - start) step). split; [lia|reflexivity].
Qed.
Lemma rem_side d step : step <> 0 -> (if 0 <? step then 0 <= d else d <= 0) -> Z.abs (Z.quot d step * step + step) <= Z.abs d + Z.abs step /\ d = step * Z.quot d step + Z.rem d step.
Proof.
  intros Hs Hd. assert (E := Z.quot_rem' d step). split; [|exact E]. destruct (Z.ltb_spec 0 step).
  - assert (R := Z.rem_bound_pos d step Hd ltac:(lia)). assert (0 <= Z.quot d step) by (apply Z.quot_pos; lia). assert (0 <= Z.quot d step * step) by (apply Z.mul_nonneg_nonneg; lia). lia.
  - assert (R := Z.rem_bound_pos (- d) (- step) ltac:(lia) ltac:(lia)). rewrite Z.rem_opp_opp in R by exact Hs.
    assert (Q := Z.quot_pos (- d) (- step) ltac:(lia) ltac:(lia)). rewrite Z.quot_opp_opp in Q by exact Hs. assert (Z.quot d step * step <= 0) by (apply Z.mul_nonneg_nonpos; lia). lia.
Qed.
Lemma between q step i : 0 <= i <= q -> 0 <= i * step <= q * step \/ q * step <= i * step <= 0.
Proof.
  intros H. destruct (Z.le_ge_cases 0 step) as [P|P].
  - left. split; [apply Z.mul_nonneg_nonneg; lia|apply Z.mul_le_mono_nonneg_r; lia].
  - right. split; [apply Z.mul_le_mono_nonpos_r; lia|apply Z.mul_nonneg_nonpos; lia].
Qed.
Lemma by_position {A} (l : list A) : forall f, (forall i v, nth_error l i = Some v -> v = f i) -> l = map f (seq 0 (length l)).
Proof.
  induction l as [|a l IH]; intros f H; [reflexivity|]. cbn [length seq map]. rewrite (H 0%nat a eq_refl) at 1. f_equal. rewrite <- seq_shift, map_map. apply IH. intros i v E. exact (H (S i) v E).
Qed.
Section Range.
Context (start stop step : Z) (Hs : step <> 0) (Hd : if 0 <? step then start <= stop else stop <= start)
  (B1 : - 2 ^ 63 <= start < 2 ^ 63) (B2 : - 2 ^ 63 <= arange_stop start stop step < 2 ^ 63) (B3 : Z.abs (stop - start) + Z.abs step < 2 ^ 63).
Lemma stop_exact : m_arange_stop start stop step = Ok (arange_stop start stop step).
Proof using Hs Hd B2 B3.
  assert (S : if 0 <? step then 0 <= stop - start else stop - start <= 0) by (destruct (0 <? step); lia). destruct (rem_side (stop - start) step Hs S) as [P _]. clear S.
  unfold m_arange_stop. rewrite ix_fits by lia. cbn [bind]. unfold ix_rem, ix_div. destruct (Z.eqb_spec step 0); [contradiction|]. assert (Q := quot_abs (stop - start) step Hs).
  rewrite (ix_fits (Z.quot (stop - start) step)) by lia. cbn [bind]. unfold arange_stop in *. assert (1 <= Z.abs step) by lia. set (q := Z.quot (stop - start) step) in *.
  destruct (Z.eqb_spec (Z.rem (stop - start) step) 0) as [X|X]; [reflexivity|]. cbn [bind]. rewrite (ix_fits (1 + _)) by lia. cbn [bind]. rewrite ix_fits by lia. cbn [bind]. now rewrite ix_fits by lia.
Qed.
Lemma loop_exact q : 0 <= q -> arange_stop start stop step = start + q * step -> forall k fuel i, (k <= fuel)%nat -> 0 <= i -> i + Z.of_nat k = q ->
  m_arange_loop fuel (start + i * step) (arange_stop start stop step) step = Some (Ok (map (fun j => start + (i + Z.of_nat j) * step) (seq 0 k))).
Proof using Hs B1 B2.
  intros Q E. rewrite E in *. induction k as [|k IH]; intros fuel i F P S.
  - assert (i = q) by lia. subst i. destruct fuel; cbn [m_arange_loop]; rewrite Z.eqb_refl; reflexivity.
  - destruct fuel as [|fuel]; [lia|]. cbn [m_arange_loop]. destruct (Z.eqb_spec (start + i * step) (start + q * step)) as [X|_].
    { exfalso. assert (Y : i * step = q * step) by lia. apply Z.mul_reg_r in Y; [lia|exact Hs]. }
    replace (start + i * step + step) with (start + (i + 1) * step) by lia. rewrite ix_fits by (destruct (between q step (i + 1) ltac:(lia)); lia).
    rewrite (IH fuel (i + 1)) by lia. cbn [seq map]. rewrite <- seq_shift, map_map. do 3 f_equal; [lia|]. apply map_ext. intros j. f_equal. f_equal. lia.
Qed.
Lemma at_exact q i : arange_stop start stop step = start + q * step -> 0 <= Z.of_nat i <= q -> m_arange_at start step i = start + Z.of_nat i * step.
Proof using B1 B2.
  clear Hs Hd B3. intros E I. rewrite E in B2. unfold m_arange_at, to_index, us. rewrite <- Z.mul_mod by lia. rewrite <- Z.add_mod by lia. rewrite Z.add_mod_idemp_l by lia.
  destruct (between q step (Z.of_nat i) I); rewrite Z.mod_small; lia.
Qed.
End Range.

(** C158: a range of [Index_t] whose bound lies on the side of the step, with start and
    rounded stop in the type and less than 2^63 apart, even with another step, consists
    of the elements of unbounded integers; size and subscripts agree with it. *)
Theorem C158_range start stop step : step <> 0 -> (if 0 <? step then start <= stop else stop <= start) ->
  - 2 ^ 63 <= start < 2 ^ 63 -> - 2 ^ 63 <= arange_stop start stop step < 2 ^ 63 -> Z.abs (stop - start) + Z.abs step < 2 ^ 63 ->
  exists l, progression start stop step l /\ completes (fun fuel => m_arange fuel start stop step) l /\ m_arange_size start stop step = Ok (Z.of_nat (length l)) /\
  forall i v, nth_error l i = Some v -> m_arange_at start step i = v.
Proof.
  intros Hs Hd B1 B2 B3. destruct (arange_progression start stop step Hs Hd) as (r & l & _ & _ & Pr). exists l. split; [exact Pr|].
  destruct (arange_access start stop step l Hs Hd Pr) as [Sz _]. destruct (stop_multiple start stop step Hs Hd) as (q & Q & E).
  assert (L : Z.of_nat (length l) = q).
  { unfold arange_size in Sz. destruct (Z.eqb_spec step 0); [contradiction|]. injection Sz as Sz. rewrite E in Sz. replace (start + q * step - start) with (q * step) in Sz by lia. rewrite Z.quot_mul in Sz by exact Hs. congruence. }
  assert (X := stop_exact start stop step Hs Hd B2 B3). split; [|split].
  - exists (length l). intros fuel F. unfold m_arange. rewrite X. assert (Y := loop_exact start stop step Hs B1 B2 q Q E (length l) fuel 0 F ltac:(lia) L). rewrite Z.mul_0_l, Z.add_0_r in Y. rewrite Y. f_equal. f_equal. symmetry.
    exact (by_position l (fun j => start + Z.of_nat j * step) (proj1 Pr)).
  - unfold m_arange_size. rewrite X. cbn [bind]. assert (D : Z.abs (arange_stop start stop step - start) < 2 ^ 63).
    { assert (S : if 0 <? step then 0 <= stop - start else stop - start <= 0) by (destruct (0 <? step); lia). destruct (rem_side (stop - start) step Hs S) as [P _]. unfold arange_stop in *. destruct (Z.eqb_spec (Z.rem (stop - start) step) 0); lia. }
    rewrite ix_fits by lia. cbn [bind]. unfold ix_div. destruct (Z.eqb_spec step 0); [contradiction|]. rewrite E in *. replace (start + q * step - start) with (q * step) in * by lia. rewrite Z.quot_mul by exact Hs.
    assert (A := quot_abs (q * step) step Hs). rewrite Z.quot_mul in A by exact Hs. rewrite ix_fits by lia. now rewrite L.
  - intros i v H. rewrite (proj1 Pr i v H). assert (i < length l)%nat by (apply nth_error_Some; congruence). apply (at_exact start stop step B1 B2 q); [exact E|lia].
Qed.
Print Assumptions C158_range.
(** A stop value that is rounded beyond the type overflows, although all elements are in
    it. *)
Theorem C158_range_overflow : progression (2 ^ 63 - 4) (2 ^ 63 - 1) 2 [2 ^ 63 - 4; 2 ^ 63 - 2] /\ forall fuel, m_arange fuel (2 ^ 63 - 4) (2 ^ 63 - 1) 2 = Some UB.
Proof.
  split; [|intros fuel; reflexivity]. split.
  - intros [|[|i]] v H; cbn in H; try (injection H as <-; reflexivity). destruct i; discriminate.
  - intros i. cbn [length]. change (0 <? 2) with true. cbv iota. lia.
Qed.
Print Assumptions C158_range_overflow.
Example C158_range_case : m_arange 9 10 3 (-2) = Some (Ok [10; 8; 6; 4]) /\ m_arange_size 10 3 (-2) = Ok 4 /\ map (m_arange_at 10 (-2)) [0; 1; 2; 3]%nat = [10; 8; 6; 4] /\
  m_arange 9 (- 2 ^ 63) (5 - 2 ^ 63) 2 = Some (Ok [- 2 ^ 63; 2 - 2 ^ 63; 4 - 2 ^ 63]) /\ m_arange_stop 0 (- 2 ^ 63) (-1) = UB /\ arange_stop 10 3 (-2) = 2.
Proof. repeat split; vm_compute; reflexivity. Qed.
