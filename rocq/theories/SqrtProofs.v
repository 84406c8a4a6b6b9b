(** Proofs about the compile-time square root. *)
From Verif Require Import Base IterSpec SqrtModel.
Local Open Scope Z_scope.

Lemma as_int_ok z : - 2 ^ 31 <= z < 2 ^ 31 -> as_int z = Ok z.
Proof. intros H. unfold as_int. destruct (Z.leb_spec (- 2 ^ 31) z); [|lia]. destruct (Z.ltb_spec z (2 ^ 31)); [reflexivity|lia]. Qed.
Lemma as_int_big z : 2 ^ 31 <= z -> as_int z = UB.
Proof. intros H. unfold as_int. destruct (Z.leb_spec (- 2 ^ 31) z); [|lia]. destruct (Z.ltb_spec z (2 ^ 31)); [lia|reflexivity]. Qed.

Lemma half l r : 1 <= l < r -> let m := Z.quot (r + l) 2 in l <= m < r /\ (2 * m = r + l \/ 2 * m + 1 = r + l).
Proof. intros H m. pose proof (Z.quot_rem' (r + l) 2). pose proof (Z.rem_bound_pos (r + l) 2 ltac:(lia) ltac:(lia)). fold m in H0. lia. Qed.

Lemma search n : n <= 92680 -> forall k l r fuel, 1 <= l <= r -> (l - 1) * (l - 1) < n <= r * r -> r <= 92680 -> Z.quot (r + l) 2 <= 46340 -> r - l <= Z.of_nat k -> (k <= fuel)%nat ->
  exists v, ct_sqrt3 fuel n l r = Some (Ok v) /\ 1 <= v /\ (v - 1) * (v - 1) < n <= v * v.
Proof.
  intros Hn. induction k as [|k IH]; intros l r fuel Hl Hb Hr Hm Hk Hf.
  - assert (l = r) by lia. subst. exists r. split; [destruct fuel; cbn [ct_sqrt3]; now rewrite Z.eqb_refl|]. split; [lia|exact Hb].
  - destruct (Z.eq_dec l r) as [->|Ne]; [exists r; split; [destruct fuel; cbn [ct_sqrt3]; now rewrite Z.eqb_refl|]; split; [lia|exact Hb]|].
    destruct fuel as [|fuel]; [lia|]. cbn [ct_sqrt3]. destruct (Z.eqb_spec l r) as [|_]; [contradiction|].
    rewrite as_int_ok by lia. destruct (half l r ltac:(lia)) as [Hmid Hq]. set (m := Z.quot (r + l) 2) in *. clearbody m. cbv zeta.
    assert (Hsq : 0 <= m * m <= 46340 * 46340) by (split; [nia|apply Z.square_le_mono_nonneg; lia]).
    rewrite as_int_ok by lia. destruct (Z.leb_spec n (m * m)) as [C|C].
    + apply IH; lia.
    + assert (m <= 304) by nia. apply IH; lia.
Qed.

Lemma root_small n : 1 <= n <= 92680 -> exists v, completes (fun fuel => ct_sqrt fuel n) v /\ 1 <= v /\ (v - 1) * (v - 1) < n <= v * v.
Proof.
  intros H. destruct (search n ltac:(lia) (Z.to_nat (n - 1)) 1 n (Z.to_nat (n - 1))) as (v & E & B); try lia; [nia|].
  exists v. split; [|exact B]. exists (Z.to_nat (n - 1)). intros fuel Hf. unfold ct_sqrt.
  destruct (search n ltac:(lia) (Z.to_nat (n - 1)) 1 n fuel) as (w & E' & B'); try lia.
  rewrite E'. f_equal. f_equal. nia.
Qed.

Lemma root_perfect v : 1 <= v -> v * v <= 92680 -> completes (fun fuel => ct_sqrt fuel (v * v)) v.
Proof. intros H1 H2. destruct (root_small (v * v) ltac:(nia)) as (w & C & W & B). assert (w = v) as -> by nia. exact C. Qed.

Lemma dim_exact rows : 1 <= rows <= 92680 ->
  (forall v, completes (fun fuel => dim_counter fuel rows rows) v <-> 0 < v /\ v * v = rows) /\
  ((forall v, v * v <> rows) -> exists k, forall fuel, (k <= fuel)%nat -> dim_counter fuel rows rows = Some (Err RuntimeError)).
Proof.
  intros H. destruct (root_small rows H) as (w & (k & C) & W & B). split.
  - intros v. split.
    + intros (k' & D). specialize (D (Nat.max k k') ltac:(lia)). unfold dim_counter in D. destruct (Z.eqb_spec rows (-1)); [lia|]. rewrite Z.eqb_refl in D. cbn [negb] in D. rewrite C in D by lia.
      destruct (Z.eqb_spec (w * w) rows) as [E|]; [|discriminate]. injection D as <-. lia.
    + intros [Hv E]. assert (w = v) by nia. subst w. exists k. intros fuel F. unfold dim_counter. destruct (Z.eqb_spec rows (-1)); [lia|]. rewrite Z.eqb_refl. cbn [negb]. rewrite C by lia. now rewrite E, Z.eqb_refl.
  - intros N. exists k. intros fuel F. unfold dim_counter. destruct (Z.eqb_spec rows (-1)); [lia|]. rewrite Z.eqb_refl. cbn [negb]. rewrite C by lia. destruct (Z.eqb_spec (w * w) rows) as [E|]; [now apply N in E|reflexivity].
Qed.

Lemma root_large n fuel : 92680 < n < 2 ^ 31 -> ct_sqrt (S fuel) n = Some UB.
Proof.
  intros H. unfold ct_sqrt. cbn [ct_sqrt3]. destruct (Z.eqb_spec 1 n); [lia|]. destruct (Z.eq_dec (n + 1) (2 ^ 31)) as [E|E].
  - rewrite as_int_big by lia. reflexivity.
  - rewrite as_int_ok by lia. cbv zeta. destruct (half 1 n ltac:(lia)) as [Hm Hq]. set (m := Z.quot (n + 1) 2) in *. clearbody m. rewrite as_int_big; [reflexivity|].
    assert (46341 <= m) by lia. apply Z.le_trans with (46341 * 46341); [now vm_compute|]. apply Z.square_le_mono_nonneg; lia.
Qed.

Lemma root_nonpositive n : - 92681 <= n <= 0 -> endless (fun fuel => ct_sqrt fuel n).
Proof.
  intros H fuel. unfold ct_sqrt. assert (A : forall fuel r, - 92681 <= r <= 0 -> ct_sqrt3 fuel n 1 r = None); [|now apply A].
  clear fuel. induction fuel as [|f IH]; intros r Hr; cbn [ct_sqrt3]; (destruct (Z.eqb_spec 1 r); [lia|]); [reflexivity|].
  rewrite as_int_ok by lia. cbv zeta.
  assert (Hm : - 46340 <= Z.quot (r + 1) 2 <= 0) by (pose proof (Z.quot_rem' (r + 1) 2); destruct (Z.eq_dec r 0) as [->|]; [cbn; lia|pose proof (Z.rem_bound_pos_neg (r + 1) 2 ltac:(lia) ltac:(lia)); lia]).
  set (m := Z.quot (r + 1) 2) in *. clearbody m. assert (0 <= m * m <= 46340 * 46340) by nia. rewrite as_int_ok by lia. destruct (Z.leb_spec n (m * m)); [|lia]. apply IH. lia.
Qed.
