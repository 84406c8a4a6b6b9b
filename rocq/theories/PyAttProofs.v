(** Proofs about attributes in Python programs: bytes and floats. *)
From Coq Require Import String.
From Verif Require Import Base AttModel AttSpec PyAttModel PyAttSpec.
Local Open Scope Z_scope.
Local Open Scope list_scope.

(** *** Bytes *)
Lemma le_length k n : List.length (le k n) = k.
Proof. revert n. induction k; intros n; cbn [le List.length]; auto. Qed.
Lemma of_le_le k n : of_le (le k n) = n mod 256 ^ Z.of_nat k.
Proof.
  revert n. induction k as [|k IH]; intros n; cbn [le of_le].
  - change (256 ^ Z.of_nat 0) with 1. now rewrite Z.mod_1_r.
  - rewrite IH, Nat2Z.inj_succ, Z.pow_succ_r by apply Nat2Z.is_nonneg.
    rewrite Z.rem_mul_r; [reflexivity|lia|apply Z.pow_pos_nonneg; lia].
Qed.
Lemma chunks_flat k l : (0 < k)%nat -> forall f, (List.length l <= f)%nat -> chunks f k (flat_map (le k) l) = map (le k) l.
Proof.
  intros Hk. induction l as [|n l IH]; intros f Hf; cbn [flat_map map].
  - destruct f; reflexivity.
  - cbn [List.length] in Hf. destruct f as [|f]; [lia|].
    assert (X : le k n ++ flat_map (le k) l <> []) by (intros E; apply app_eq_nil in E; destruct E as [E _]; apply (f_equal (@List.length Z)) in E; rewrite le_length in E; cbn in E; lia).
    destruct (le k n ++ flat_map (le k) l) as [|b r] eqn:E; [congruence|]. cbn [chunks]. rewrite <- E.
    assert (L := le_length k n). f_equal.
    + rewrite firstn_app, L, Nat.sub_diag. cbn [firstn]. rewrite app_nil_r. rewrite <- L at 1. apply firstn_all.
    + rewrite skipn_app, L, Nat.sub_diag. rewrite (skipn_all2 (le k n)) by lia. cbn [skipn app]. apply IH. lia.
Qed.
Lemma flat_length k l : List.length (flat_map (le k) l) = (List.length l * k)%nat.
Proof. induction l as [|n l IH]; cbn [flat_map List.length]; [reflexivity|]. rewrite app_length, le_length, IH. lia. Qed.
Lemma unpack_flat k l : (0 < k)%nat -> unpack k (flat_map (le k) l) = map (fun n => n mod 256 ^ Z.of_nat k) l.
Proof.
  intros Hk. unfold unpack. rewrite chunks_flat; [|exact Hk|rewrite flat_length; nia].
  rewrite map_map. apply map_ext. intros n. apply of_le_le.
Qed.
Lemma signed_mod bits n : 0 < bits -> - 2 ^ (bits - 1) <= n <= 2 ^ (bits - 1) - 1 -> signed bits (n mod 2 ^ bits) = n.
Proof.
  intros Hb H. unfold signed. assert (E : 2 ^ bits = 2 * 2 ^ (bits - 1)) by (rewrite <- Z.pow_succ_r by lia; f_equal; lia).
  assert (P : 0 < 2 ^ (bits - 1)) by (apply Z.pow_pos_nonneg; lia). rewrite E. set (h := 2 ^ (bits - 1)) in *. clearbody h. clear E Hb bits.
  destruct (Z_lt_le_dec n 0) as [N|N].
  - assert (M : n mod (2 * h) = n + 2 * h) by (symmetry; apply (Z.mod_unique n (2 * h) (-1)); lia). rewrite M. destruct (Z.leb_spec h (n + 2 * h)); lia.
  - rewrite Z.mod_small by lia. destruct (Z.leb_spec h n); lia.
Qed.

(** *** Floats *)
Lemma float_make (s : bool) L q : 0 <= L <= 1023 -> 2 ^ 52 <= q < 2 ^ 53 ->
  float_value ((if s then 2 ^ 63 else 0) + ((L + 1022) * 2 ^ 52 + q)) = Some ((if s then -1 else 1) * q, L - 52).
Proof.
  intros HL Hq. unfold float_value. set (x := (L + 1022) * 2 ^ 52 + q).
  assert (Ex : x = (L + 1023) * 2 ^ 52 + (q - 2 ^ 52)) by (unfold x; lia).
  assert (Hx : 0 <= x < 2 ^ 63) by (rewrite Ex; change (2 ^ 63) with (2048 * 2 ^ 52); lia).
  assert (Em : ((if s then 2 ^ 63 else 0) + x) mod 2 ^ 63 = x).
  { destruct s; [|apply Z.mod_small; lia]. rewrite <- (Z.mul_1_l (2 ^ 63)) at 1. rewrite Z.add_comm, Z_mod_plus_full. apply Z.mod_small. lia. }
  assert (Es : (if (if s then 2 ^ 63 else 0) + x <? 2 ^ 63 then 1 else -1) = (if s then -1 else 1)) by (destruct s; [destruct (Z.ltb_spec (2 ^ 63 + x) (2 ^ 63)); lia|destruct (Z.ltb_spec (0 + x) (2 ^ 63)); lia]).
  rewrite Em, Es.
  assert (Ed : x / 2 ^ 52 = L + 1023) by (symmetry; apply (Z.div_unique x (2 ^ 52) (L + 1023) (q - 2 ^ 52)); lia).
  assert (Er : x mod 2 ^ 52 = q - 2 ^ 52) by (symmetry; apply (Z.mod_unique x (2 ^ 52) (L + 1023) (q - 2 ^ 52)); lia).
  rewrite Ed, Er. destruct (Z.eqb_spec (L + 1023) 2047); [lia|]. destruct (Z.eqb_spec (L + 1023) 0); [lia|].
  f_equal. f_equal; lia.
Qed.
Lemma float_range x m k : 0 <= x < 2 ^ 64 -> float_value x = Some (m, k) -> Z.abs m < 2 ^ 53 /\ -1074 <= k <= 971.
Proof.
  intros Hx E. unfold float_value in E. set (y := x mod 2 ^ 63) in *. assert (Hy : 0 <= y < 2 ^ 63) by (apply Z.mod_pos_bound; lia).
  assert (He : 0 <= y / 2 ^ 52 < 2048) by (split; [apply Z.div_pos; lia|apply Z.div_lt_upper_bound; lia]).
  assert (Hr : 0 <= y mod 2 ^ 52 < 2 ^ 52) by (apply Z.mod_pos_bound; lia).
  set (e := y / 2 ^ 52) in *. set (r := y mod 2 ^ 52) in *. clearbody e r. clear Hy. clearbody y.
  set (sg := if x <? 2 ^ 63 then 1 else -1) in E. assert (Hs : Z.abs sg = 1) by (unfold sg; destruct (x <? 2 ^ 63); reflexivity). clearbody sg. clear Hx.
  change (2 ^ 53) with (2 ^ 52 + 2 ^ 52). set (w := 2 ^ 52) in *. assert (Hw : 0 < w) by reflexivity. clearbody w.
  destruct (Z.eqb_spec e 2047); [discriminate|]. destruct (Z.eqb_spec e 0).
  - apply (f_equal (fun o => match o with Some p => p | None => (0, 0) end)) in E. pose proof (f_equal fst E) as Em. pose proof (f_equal snd E) as Ek. cbn [fst snd] in Em, Ek. rewrite <- Em, <- Ek, Z.abs_mul, Hs. lia.
  - apply (f_equal (fun o => match o with Some p => p | None => (0, 0) end)) in E. pose proof (f_equal fst E) as Em. pose proof (f_equal snd E) as Ek. cbn [fst snd] in Em, Ek. rewrite <- Em, <- Ek, Z.abs_mul, Hs. lia.
Qed.
Lemma double_of_range n x : double_of n = Some x -> 0 <= x < 2 ^ 64.
Proof.
  unfold double_of. destruct (n =? 0); [intros E; injection E as <-; lia|].
  set (k := Z.log2 (Z.abs n)). cbv zeta.
  assert (Hk : 0 <= k) by apply Z.log2_nonneg.
  set (q := if k <=? 52 then _ else _).
  assert (Hq : 0 <= q).
  { subst q. destruct (Z.leb_spec k 52); [apply Z.mul_nonneg_nonneg; [lia|apply Z.pow_nonneg; lia]|].
    assert (0 <= Z.abs n / 2 ^ (k - 52)) by (rewrite <- Z.shiftr_div_pow2 by lia; apply Z.shiftr_nonneg; lia).
    destruct (_ || _); lia. }
  clearbody q k. destruct (Z.leb_spec (2047 * 2 ^ 52) ((k + 1022) * 2 ^ 52 + q)); [discriminate|]. intros E. injection E as <-. destruct (n <? 0); lia.
Qed.
Lemma abs_eq_mul n m k : 0 <= k + 1074 -> n * 2 ^ 1074 = m * 2 ^ (k + 1074) -> Z.abs n * 2 ^ 1074 = Z.abs m * 2 ^ (k + 1074).
Proof.
  intros Hk E. apply (f_equal Z.abs) in E. rewrite !Z.abs_mul in E. rewrite (Z.abs_eq (2 ^ 1074)) in E by (apply Z.pow_nonneg; lia).
  rewrite (Z.abs_eq (2 ^ (k + 1074))) in E by (apply Z.pow_nonneg; lia). exact E.
Qed.
Lemma representable_form n : n <> 0 -> representable n -> exists m k, 0 <= k <= 971 /\ 0 <= m < 2 ^ 53 /\ Z.abs n = m * 2 ^ k.
Proof.
  intros Hn (x & m & k & Hx & Ev & E). destruct (float_range x m k Hx Ev) as [Hm Hk]. apply abs_eq_mul in E; [|lia].
  destruct (Z_lt_le_dec k 0) as [N|N].
  - exists (Z.abs n), 0. split; [lia|]. split; [|rewrite Z.pow_0_r; lia]. split; [lia|].
    assert (X : 2 ^ 1074 = 2 ^ (k + 1074) * 2 ^ (- k)) by (rewrite <- Z.pow_add_r by lia; f_equal; lia).
    rewrite X, Z.mul_assoc in E. assert (P : 0 < 2 ^ (k + 1074)) by (apply Z.pow_pos_nonneg; lia). assert (P' : 0 < 2 ^ (- k)) by (apply Z.pow_pos_nonneg; lia).
    set (a := 2 ^ (k + 1074)) in *. set (b := 2 ^ (- k)) in *. clearbody a b. clear X Ev.
    assert (Y : Z.abs n * b = Z.abs m) by (apply (Z.mul_reg_r _ _ a); [lia|]; rewrite <- E; ring).
    nia.
  - exists (Z.abs m), k. split; [lia|]. split; [lia|].
    rewrite Z.pow_add_r, (Z.mul_comm (2 ^ k)), Z.mul_assoc in E by lia. assert (P : 0 < 2 ^ 1074) by (apply Z.pow_pos_nonneg; lia).
    set (a := 2 ^ 1074) in *. clearbody a. apply (Z.mul_reg_r _ _ a); [lia|]. rewrite E. ring.
Qed.
(** The exact case of the conversion. *)
Lemma double_of_exact n : representable n -> exists x, double_of n = Some x /\ number (PFloat x) = Some (n * 2 ^ 1074).
Proof.
  intros R. destruct (Z.eq_dec n 0) as [->|Hn].
  { exists 0. split; reflexivity. }
  destruct (representable_form n Hn R) as (m & j & Hj & Hm & E). unfold double_of. destruct (Z.eqb_spec n 0); [lia|]. cbv zeta.
  set (a := Z.abs n) in *. assert (Ha : 0 < a) by (unfold a; lia). set (L := Z.log2 a). destruct (Z.log2_spec a Ha) as [L1 L2]. fold L in L1, L2.
  assert (HL : 0 <= L) by apply Z.log2_nonneg.
  assert (HL2 : L <= 1023).
  { destruct (Z_le_gt_dec L 1023) as [|G]; [assumption|exfalso]. assert (X : 2 ^ 1024 <= 2 ^ L) by (apply Z.pow_le_mono_r; lia).
    assert (Y : a < 2 ^ 1024). { rewrite E. assert (2 ^ j <= 2 ^ 971) by (apply Z.pow_le_mono_r; lia). change (2 ^ 1024) with (2 ^ 53 * 2 ^ 971).
      assert (0 < 2 ^ j) by (apply Z.pow_pos_nonneg; lia). set (u := 2 ^ j) in *. set (w := 2 ^ 971) in *. clearbody u w. nia. }
    lia. }
  set (q := if L <=? 52 then _ else _).
  assert (Q : exists d, q * 2 ^ (L - 52 + 1074) = a * 2 ^ 1074 /\ 2 ^ 52 <= q < 2 ^ 53 /\ d = 0).
  { exists 0. subst q. destruct (Z.leb_spec L 52) as [S|S].
    - split; [|split; [|reflexivity]].
      + rewrite <- Z.mul_assoc, <- Z.pow_add_r by lia. f_equal. f_equal. lia.
      + replace (Z.succ L) with (L + 1) in L2 by lia. assert (P : 0 < 2 ^ (52 - L)) by (apply Z.pow_pos_nonneg; lia).
        assert (E1 : 2 ^ 52 = 2 ^ L * 2 ^ (52 - L)) by (rewrite <- Z.pow_add_r by lia; f_equal; lia).
        assert (E2 : 2 ^ 53 = 2 ^ (L + 1) * 2 ^ (52 - L)) by (rewrite <- Z.pow_add_r by lia; f_equal; lia).
        rewrite E1, E2. set (b := 2 ^ (52 - L)) in *. clearbody b. split; [apply Z.mul_le_mono_nonneg_r; lia|apply Z.mul_lt_mono_pos_r; lia].
    - assert (Hd : L - 52 <= j).
      { destruct (Z_le_gt_dec (L - 52) j) as [|G]; [assumption|exfalso]. assert (X : 2 ^ L = 2 ^ 53 * 2 ^ (L - 53)) by (rewrite <- Z.pow_add_r by lia; f_equal; lia).
        assert (Y : 2 ^ j <= 2 ^ (L - 53)) by (apply Z.pow_le_mono_r; lia). rewrite X, E in L1. assert (0 < 2 ^ j) by (apply Z.pow_pos_nonneg; lia).
        set (u := 2 ^ j) in *. set (w := 2 ^ (L - 53)) in *. clearbody u w. nia. }
      assert (Ea : a = m * 2 ^ (j - (L - 52)) * 2 ^ (L - 52)) by (rewrite <- Z.mul_assoc, <- Z.pow_add_r by lia; rewrite E; f_equal; f_equal; lia).
      assert (P : 0 < 2 ^ (L - 52)) by (apply Z.pow_pos_nonneg; lia).
      assert (Er : a mod 2 ^ (L - 52) = 0) by (rewrite Ea; apply Z_mod_mult).
      assert (Eq : a / 2 ^ (L - 52) * 2 ^ (L - 52) = a) by (rewrite Ea at 1; rewrite Z.div_mul by lia; symmetry; exact Ea).
      assert (H0 : 0 < 2 ^ (L - 52 - 1)) by (apply Z.pow_pos_nonneg; lia).
      rewrite Er. destruct (Z.ltb_spec (2 ^ (L - 52 - 1)) 0); [lia|]. destruct (Z.eqb_spec 0 (2 ^ (L - 52 - 1))); [lia|]. cbn [andb orb].
      set (q := a / 2 ^ (L - 52)) in *. clearbody q. split; [|split; [|reflexivity]].
      + rewrite Z.pow_add_r by lia. rewrite Z.mul_assoc, Eq. reflexivity.
      + assert (E1 : 2 ^ L = 2 ^ 52 * 2 ^ (L - 52)) by (rewrite <- Z.pow_add_r by lia; f_equal; lia).
        assert (E2 : 2 ^ Z.succ L = 2 ^ 53 * 2 ^ (L - 52)) by (rewrite <- Z.pow_add_r by lia; f_equal; lia).
        rewrite E1 in L1. rewrite E2 in L2. rewrite <- Eq in L1, L2. split; [apply (Z.mul_le_mono_pos_r _ _ (2 ^ (L - 52))); lia|apply (Z.mul_lt_mono_pos_r (2 ^ (L - 52))); lia]. }
  destruct Q as (_ & Q1 & Q2 & _). clearbody q. destruct (Z.leb_spec (2047 * 2 ^ 52) ((L + 1022) * 2 ^ 52 + q)); [lia|].
  eexists. split; [reflexivity|]. cbn [number].
  assert (F := float_make (n <? 0) L q (conj HL HL2) Q2). rewrite F. f_equal. rewrite <- Z.mul_assoc, Q1. unfold a.
  set (w := 2 ^ 1074). clearbody w. destruct (Z.ltb_spec n 0); [rewrite Z.abs_neq by lia|rewrite Z.abs_eq by lia]; ring.
Qed.
Lemma representable_small n : Z.abs n <= 2 ^ 53 -> representable n.
Proof.
  intros H. destruct (Z.eq_dec (Z.abs n) (2 ^ 53)) as [E|N].
  { destruct (Z.abs_spec n) as [[_ X]|[_ X]]; rewrite E in X.
    - exists (1076 * 2 ^ 52), (2 ^ 52), 1. rewrite <- X. vm_compute. repeat split; congruence.
    - exists (2 ^ 63 + 1076 * 2 ^ 52), (- 2 ^ 52), 1. replace n with (- 2 ^ 53) by lia. vm_compute. repeat split; congruence. }
  destruct (Z.eq_dec n 0) as [->|Hn]; [exists 0, 0, (-1074); vm_compute; repeat split; congruence|].
  set (a := Z.abs n) in *. assert (Ha : 0 < a < 2 ^ 53) by (unfold a in *; lia). destruct (Z.log2_spec a (proj1 Ha)) as [L1 L2]. set (L := Z.log2 a) in *.
  assert (HL : 0 <= L) by apply Z.log2_nonneg. assert (HL2 : L <= 52) by (assert (L < 53); [apply Z.log2_lt_pow2; lia|lia]).
  set (q := a * 2 ^ (52 - L)). assert (P : 0 < 2 ^ (52 - L)) by (apply Z.pow_pos_nonneg; lia).
  assert (Q : 2 ^ 52 <= q < 2 ^ 53).
  { assert (E1 : 2 ^ 52 = 2 ^ L * 2 ^ (52 - L)) by (rewrite <- Z.pow_add_r by lia; f_equal; lia).
    assert (E2 : 2 ^ 53 = 2 ^ Z.succ L * 2 ^ (52 - L)) by (rewrite <- Z.pow_add_r by lia; f_equal; lia).
    rewrite E1, E2. unfold q. split; [apply Z.mul_le_mono_nonneg_r; lia|apply Z.mul_lt_mono_pos_r; lia]. }
  assert (HL3 : 0 <= L <= 1023) by (clear - HL HL2; lia). assert (F := float_make (n <? 0) L q HL3 Q).
  assert (Eq : q * 2 ^ (L - 52 + 1074) = a * 2 ^ 1074) by (unfold q; rewrite <- Z.mul_assoc, <- Z.pow_add_r by lia; f_equal; f_equal; lia).
  clearbody q. eexists _, _, _. split; [|split; [exact F|]].
  - destruct (n <? 0); lia.
  - rewrite <- Z.mul_assoc, Eq. unfold a. set (w := 2 ^ 1074). clearbody w. destruct (Z.ltb_spec n 0); [rewrite Z.abs_neq by lia|rewrite Z.abs_eq by lia]; ring.
Qed.
