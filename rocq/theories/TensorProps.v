(** Tensor algebra, changes of axes and functions of matrices. *)
From Coq Require Import ZArith QArith Qcanon.
From Verif Require Import Base RingModel RingProofs TensorModel TensorSpec TensorProofs TensorProofs2 TensorProofs3.
Local Open Scope nat_scope.
Local Open Scope list_scope.

(** The rational numbers, for the examples. *)
Definition qops : ops Qc := mk_ops (Q2Qc 0) (Q2Qc 1) Qcplus Qcmult Qcminus Qcopp.
Lemma qops_lawful : lawful qops.
Proof. exact Qcrt. Qed.
Definition qhalf : Qc := Q2Qc (1 # 2).
Definition q (z : Z) : Qc := Q2Qc (inject_Z z).

(** * C41 *)
Theorem C41_access_one_to_one : forall dim,
  (forall i j, i < dim -> j < dim -> t4_index dim 1 (dim * dim) i j < dim * dim) /\
  (forall i j i' j', i < dim -> j < dim -> i' < dim -> j' < dim -> t4_index dim 1 (dim * dim) i j = t4_index dim 1 (dim * dim) i' j' -> i = i' /\ j = j') /\
  (forall r, r < dim * dim -> exists i j, i < dim /\ j < dim /\ t4_index dim 1 (dim * dim) i j = r).
Proof.
  intros dim. split; [|split].
  - intros i j Hi Hj. rewrite t4_index_eq. now apply pair_bound.
  - intros i j i' j' Hi _ Hi' _. rewrite !t4_index_eq. now apply pair_unique.
  - intros r Hr. destruct (pair_split dim r Hr) as (i & j & Hi & Hj & ->). exists i, j. now rewrite t4_index_eq.
Qed.
Print Assumptions C41_access_one_to_one.

Theorem C41_outer_products : forall R (o : ops R) dim junk A B i j k l, i < dim -> j < dim -> k < dim -> l < dim ->
  get dim (outer o dim junk A B) i j k l = mul o (A i j) (B k l) /\
  get dim (outer_under o dim junk A B) i j k l = mul o (A i k) (B j l) /\
  get dim (outer_over o dim junk A B) i j k l = mul o (A i l) (B j k).
Proof. intros R o dim junk A B i j k l Hi Hj Hk Hl. split; [now apply outer_value|]. split; [now apply under_value|now apply over_value]. Qed.
Print Assumptions C41_outer_products.

Theorem C41_tensor_forms : forall R (o : ops R) (half : R) A B i j k l,
  t_outer o A B i j k l = mul o (A i j) (B k l) /\ t_outer_under o A B i j k l = mul o (A i k) (B j l) /\ t_outer_over o A B i j k l = mul o (A i l) (B j k) /\
  t_I4S o half i j k l = mul o half (add o (mul o (delta o i k) (delta o j l)) (mul o (delta o i l) (delta o j k))).
Proof. intros. repeat split. Qed.
Print Assumptions C41_tensor_forms.

Example C41_outer_case :
  let A := fun i j => (Z.of_nat (1 + i + 2 * j))%Z in let B := fun i j => (Z.of_nat (5 + i + 2 * j))%Z in
  get 2 (outer zops 2 (fun _ _ => 99%Z) A B) 0 1 1 0 = 18%Z /\ get 2 (outer_under zops 2 (fun _ _ => 99%Z) A B) 0 1 1 0 = 18%Z /\ get 2 (outer_over zops 2 (fun _ _ => 99%Z) A B) 0 1 1 0 = 8%Z.
Proof. repeat split. Qed.

(** Products of a tensor with one of half its rank. *)
Theorem C41_tensmult_fourth : forall R (o : ops R), lawful o -> forall dim T B, 1 < dim ->
  exists X, tensmult o (dim * dim) (dim * dim) dim dim T B = Some X /\
            forall i j, i < dim -> j < dim -> X i j = sum2 o dim (fun k l => mul o (get dim T i j k l) (B k l)).
Proof.
  intros R o L dim T B Hd. exists (tensmult4 o dim T B). split; [|intros i j; now apply tensmult_value].
  assert (D1 : (dim =? 1) = false) by (apply Nat.eqb_neq; lia). assert (D2 : (dim * dim =? 1) = false) by (apply Nat.eqb_neq; intros E; apply Nat.eq_mul_1 in E; lia).
  assert (D3 : (dim * dim =? dim) = false) by (apply Nat.eqb_neq; nia).
  unfold tensmult, get_rank. rewrite !Nat.eqb_refl, D1, D2, D3. cbn. reflexivity.
Qed.
Print Assumptions C41_tensmult_fourth.

Theorem C41_tensmult_second : forall R (o : ops R) dim A v, 0 < dim ->
  exists X, tensmult o dim dim dim 1 A v = Some X /\ forall i, i < dim -> X i 0 = sum1 o dim (fun k => mul o (A i k) (v k 0)).
Proof.
  intros R o dim A v Hd. exists (mm o dim A v). split; [|reflexivity].
  unfold tensmult, get_rank. rewrite !Nat.eqb_refl. destruct (Nat.eqb_spec dim 1) as [->|Ne]; reflexivity.
Qed.
Print Assumptions C41_tensmult_second.

(** Nothing else compiles. *)
Theorem C41_tensmult_shapes : forall R (o : ops R) lrows lcols rows cols A B X, 0 < rows -> tensmult o lrows lcols rows cols A B = Some X ->
  (lrows = rows * rows /\ lcols = rows * rows /\ cols = rows) \/ (lrows = rows /\ lcols = rows /\ cols = 1).
Proof.
  intros R o lrows lcols rows cols A B X P. unfold tensmult, get_rank. rewrite Nat.eqb_refl. cbn [andb].
  destruct (Nat.eqb_spec cols 1) as [->|C1]; [|destruct (Nat.eqb_spec cols rows) as [->|C2]].
  - destruct (Nat.eqb_spec rows 1) as [->|R1].
    + intros E. right. destruct (Nat.eqb_spec lrows 1) as [->|L1]; destruct (Nat.eqb_spec lcols 1) as [->|L2]; cbn in E; try discriminate E; [now split| | |];
        repeat match type of E with context [Nat.eqb ?a ?b] => destruct (Nat.eqb_spec a b); cbn in E end; try discriminate E; lia.
    + destruct (Nat.eqb_spec lrows rows) as [->|L1]; destruct (Nat.eqb_spec lcols 1) as [->|L2]; cbn [andb].
      * destruct (1 =? rows) eqn:Q; cbn; discriminate.
      * destruct (Nat.eqb_spec lcols rows) as [->|L3]; [now right|]. cbn.
        destruct (Nat.eqb_spec rows (rows * rows)); [nia|]. discriminate.
      * destruct (Nat.eqb_spec lrows (rows * rows)); destruct (Nat.eqb_spec 1 (rows * rows)); cbn; try discriminate; nia.
      * destruct (Nat.eqb_spec lrows (rows * rows)); destruct (Nat.eqb_spec lcols (rows * rows)); cbn; discriminate.
  - destruct (Nat.eqb_spec rows 1) as [->|R1]; [lia|].
    destruct (Nat.eqb_spec lrows rows) as [->|L1]; destruct (Nat.eqb_spec lcols 1) as [->|L2]; cbn [andb order].
    + cbn. discriminate.
    + destruct (Nat.eqb_spec lcols rows) as [->|L3]; cbn; [discriminate|]. destruct (Nat.eqb_spec rows (rows * rows)); [nia|]. discriminate.
    + destruct (Nat.eqb_spec lrows (rows * rows)); destruct (Nat.eqb_spec 1 (rows * rows)); cbn; try discriminate; nia.
    + destruct (Nat.eqb_spec lrows (rows * rows)); destruct (Nat.eqb_spec lcols (rows * rows)); cbn; try discriminate. now left.
  - destruct (Nat.eqb_spec rows (rows * rows)) as [Q|]; cbn; [|discriminate].
    destruct (Nat.eqb_spec cols (rows * rows)) as [Q2|]; cbn; [congruence|discriminate].
Qed.
Print Assumptions C41_tensmult_shapes.

Example C41_tensmult_case :
  exists X, tensmult zops 4 4 2 2 (fun r c => Z.of_nat (r * 4 + c)) (fun i j => Z.of_nat (1 + i + 10 * j)) = Some X /\ X 1 0 = (4 * 1 + 5 * 2 + 6 * 11 + 7 * 12)%Z.
Proof. eexists. split; [reflexivity|]. reflexivity. Qed.

(** Identity, transposition, trace and symmetrisation. *)
Theorem C41_identity_transposer_tracer : forall R (o : ops R), lawful o -> forall dim junk B i j, i < dim -> j < dim ->
  tensmult4 o dim (Iiden o dim junk) B i j = B i j /\
  tensmult4 o dim (Itrns o dim junk) B i j = B j i /\
  tensmult4 o dim (Itrac o dim junk) B i j = mul o (delta o i j) (sum1 o dim (fun k => B k k)).
Proof. intros R o L dim junk B i j Hi Hj. split; [now apply Iiden_action|]. split; [now apply Itrns_action|now apply Itrac_action]. Qed.
Print Assumptions C41_identity_transposer_tracer.

Theorem C41_symmetriser : forall R (o : ops R), lawful o -> forall half, add o half half = one o -> forall dim junk B,
  (forall i j, i < dim -> j < dim -> tensmult4 o dim (Isymm o dim half junk) B i j = tensmult4 o dim (Isymm o dim half junk) B j i) /\
  (forall i j, i < dim -> j < dim -> add o (tensmult4 o dim (Isymm o dim half junk) B i j) (tensmult4 o dim (Isymm o dim half junk) B i j) = add o (B i j) (B j i)) /\
  ((forall i j, i < dim -> j < dim -> B i j = B j i) -> forall i j, i < dim -> j < dim -> tensmult4 o dim (Isymm o dim half junk) B i j = B i j).
Proof.
  intros R o L half Hh dim junk B. pose proof (Radd_comm L) as AC. pose proof (Rdistr_l L) as DL. pose proof (Rmul_1_l L) as M1.
  assert (HH : forall x, add o (mul o half x) (mul o half x) = x) by (intros x; rewrite <- DL, Hh; apply M1).
  split; [|split].
  - intros i j Hi Hj. rewrite !(Isymm_action o L) by assumption. f_equal. apply AC.
  - intros i j Hi Hj. rewrite !(Isymm_action o L) by assumption. apply HH.
  - intros S i j Hi Hj. rewrite (Isymm_action o L) by assumption. rewrite <- (S i j Hi Hj). rewrite <- (HH (B i j)) at 3. rewrite (Rmul_comm L half), DL, !(Rmul_comm L _ half). reflexivity.
Qed.
Print Assumptions C41_symmetriser.
Example C41_symmetriser_case : tensmult4 qops 2 (Isymm qops 2 qhalf (fun _ _ => q 7)) (fun i j => q (Z.of_nat (i + 5 * j))) 0 1 = q 3.
Proof. apply Qc_is_canon. vm_compute. reflexivity. Qed.

(** Contractions. *)
Theorem C41_dot : forall R (o : ops R), lawful o -> forall dim A T i j k l, i < dim -> j < dim -> k < dim -> l < dim ->
  get dim (dot24 o dim A T) i j k l = sum1 o dim (fun a => mul o (A i a) (get dim T a j k l)) /\
  get dim (dot42 o dim T A) i j k l = sum1 o dim (fun a => mul o (get dim T i j k a) (A a l)).
Proof. intros R o L dim A T i j k l Hi Hj Hk Hl. split; [now apply dot24_value|now apply dot42_value]. Qed.
Print Assumptions C41_dot.
Theorem C41_double_contraction : forall R (o : ops R), lawful o -> forall dim,
  (forall S T i j k l, get dim (ddot44 o dim S T) i j k l = sum2 o dim (fun a b => mul o (get dim S i j a b) (get dim T a b k l))) /\
  (forall A B, ddot22 o dim A B = sum2 o dim (fun i j => mul o (A i j) (B i j))).
Proof. intros R o L dim. split; [intros; now apply ddot44_value|intros; apply ddot22_value]. Qed.
Print Assumptions C41_double_contraction.
Theorem C41_double_contraction_associative : forall R (o : ops R), lawful o -> forall dim S T U B,
  same (dim * dim) (dim * dim) (ddot44 o dim (ddot44 o dim S T) U) (ddot44 o dim S (ddot44 o dim T U)) /\
  same dim dim (tensmult4 o dim (ddot44 o dim S T) B) (tensmult4 o dim S (tensmult4 o dim T B)).
Proof. intros R o L dim S T U B. split; [now apply ddot44_assoc|now apply ddot_tensmult]. Qed.
Print Assumptions C41_double_contraction_associative.
Example C41_contraction_case :
  let T := fun r c => (Z.of_nat (r * 4 + c))%Z in
  get 2 (ddot44 zops 2 T T) 1 0 0 1 = 196%Z /\ get 2 (dot24 zops 2 (fun i j => Z.of_nat (i + 2 * j)) T) 1 0 0 1 = (1 * 2 + 3 * 6)%Z /\ get 2 (dot42 zops 2 T (fun i j => Z.of_nat (i + 2 * j))) 1 0 0 1 = (4 * 2 + 6 * 3)%Z /\ ddot22 zops 2 (fun i j => Z.of_nat (i + 2 * j)) (fun i j => Z.of_nat (1 + i)) = (0 * 1 + 1 * 2 + 2 * 1 + 3 * 2)%Z.
Proof. repeat split. Qed.

(** * C42 *)
Definition tensor_shape (dim rows cols : nat) : Prop := (rows = dim /\ cols = 1) \/ (rows = dim /\ cols = dim) \/ (rows = dim * dim /\ cols = dim * dim).

Lemma ranks dim : 1 < dim -> get_rank dim dim 1 = Some FirstOrder /\ get_rank dim dim dim = Some SecondOrder /\ get_rank dim (dim * dim) (dim * dim) = Some FourthOrder.
Proof.
  intros Hd. assert (D1 : (dim =? 1) = false) by (apply Nat.eqb_neq; lia). assert (D3 : (dim * dim =? dim) = false) by (apply Nat.eqb_neq; nia).
  unfold get_rank. now rewrite !Nat.eqb_refl, D1, D3.
Qed.

Theorem C42_index_formulas : forall R (o : ops R), lawful o -> forall dim junk t F, 1 < dim ->
  (exists u, push_forward o dim dim 1 junk t F = Some u /\ forall i, i < dim -> u i 0 = sum1 o dim (fun a => mul o (F i a) (t a 0))) /\
  (exists u, push_forward o dim dim dim junk t F = Some u /\ forall i j, i < dim -> j < dim -> u i j = sum2 o dim (fun a b => mul o (mul o (F i a) (F j b)) (t a b))) /\
  (exists u, push_forward o dim (dim * dim) (dim * dim) junk t F = Some u /\ forall i j k l, i < dim -> j < dim -> k < dim -> l < dim ->
     get dim u i j k l = sum4 o dim (fun a b c d => mul o (mul o (mul o (F i a) (F j b)) (mul o (F k c) (F l d))) (get dim t a b c d))).
Proof.
  intros R o L dim junk t F Hd. destruct (ranks dim Hd) as (R1 & R2 & R4). unfold push_forward. rewrite R1, R2, R4. split; [|split]; eexists; (split; [reflexivity|]).
  - reflexivity.
  - intros i j _ _. now apply push2_value.
  - intros i j k l Hi Hj Hk Hl. now apply push4_value.
Qed.
Print Assumptions C42_index_formulas.

Theorem C42_round_trip : forall R (o : ops R), lawful o -> forall inverse dim rows cols junk junk' t F u w, 1 < dim -> tensor_shape dim rows cols -> inverse_of o dim F (inverse F) ->
  (push_forward o dim rows cols junk t F = Some u -> pull_back o inverse dim rows cols junk' u F = Some w -> same rows cols w t) /\
  (pull_back o inverse dim rows cols junk' t F = Some u -> push_forward o dim rows cols junk u F = Some w -> same rows cols w t).
Proof.
  intros R o L inverse dim rows cols junk junk' t F u w Hd Sh I. destruct (ranks dim Hd) as (R1 & R2 & R4). destruct (inverse_mm o dim F (inverse F) I) as (GF & FG).
  destruct Sh as [(-> & ->)|[(-> & ->)|(-> & ->)]]; unfold pull_back, push_forward; rewrite ?R1, ?R2, ?R4; split; intros H1 H2; injection H1 as <-; injection H2 as <-.
  - now apply push1_round.
  - now apply push1_round.
  - now apply push2_round.
  - now apply push2_round.
  - now apply push4_round.
  - now apply push4_round.
Qed.
Print Assumptions C42_round_trip.

Theorem C42_composition : forall R (o : ops R), lawful o -> forall dim rows cols j1 j2 j3 t F G u v w, 1 < dim -> tensor_shape dim rows cols ->
  push_forward o dim rows cols j1 t F = Some u -> push_forward o dim rows cols j2 u G = Some v ->
  push_forward o dim rows cols j3 t (fun i j => sum1 o dim (fun k => mul o (G i k) (F k j))) = Some w -> same rows cols v w.
Proof.
  intros R o L dim rows cols j1 j2 j3 t F G u v w Hd Sh. destruct (ranks dim Hd) as (R1 & R2 & R4).
  destruct Sh as [(-> & ->)|[(-> & ->)|(-> & ->)]]; unfold push_forward; rewrite ?R1, ?R2, ?R4; intros H1 H2 H3; injection H1 as <-; injection H2 as <-; injection H3 as <-.
  - now apply push1_push.
  - now apply push2_push.
  - now apply push4_push.
Qed.
Print Assumptions C42_composition.
Example C42_case :
  let F := fun i j => nth j (nth i [[1; 2]; [0; 1]]%Z []) 0%Z in let G := fun i j => nth j (nth i [[1; -2]; [0; 1]]%Z []) 0%Z in
  inverse_of zops 2 F G /\ exists u, push_forward zops 2 2 2 (fun _ _ => 0%Z) (fun i j => Z.of_nat (1 + i + 3 * j)) F = Some u /\ u 0 0 = 33%Z /\ u 0 1 = 14%Z /\ u 1 1 = 5%Z.
Proof.
  split.
  - intros i j Hi Hj. assert (i = 0 \/ i = 1) as [-> | ->] by lia; assert (j = 0 \/ j = 1) as [-> | ->] by lia; split; reflexivity.
  - eexists. split; [reflexivity|]. repeat split.
Qed.
Example C42_case_fourth :
  let F := fun i j => nth j (nth i [[1; 2]; [0; 1]]%Z []) 0%Z in
  exists u, push_forward zops 2 4 4 (fun _ _ => 0%Z) (fun r c => if (r =? 3) && (c =? 1) then 1%Z else 0%Z) F = Some u /\ get 2 u 0 0 0 0 = 8%Z /\ get 2 u 1 0 1 0 = 2%Z.
Proof. eexists. split; [reflexivity|]. repeat split. Qed.

(** * C73: in one dimension a second-rank tensor is taken for a vector *)
Theorem C73_one_dimension_refuted :
  ~ (forall R (o : ops R), lawful o -> forall dim junk t F u, 0 < dim -> push_forward o dim dim dim junk t F = Some u ->
       forall i j, i < dim -> j < dim -> u i j = sum2 o dim (fun a b => mul o (mul o (F i a) (F j b)) (t a b))).
Proof.
  intros H. specialize (H Z zops zops_lawful 1 (fun _ _ => 0%Z) (fun _ _ => 1%Z) (fun _ _ => 2%Z) _ Nat.lt_0_1 eq_refl 0 0 Nat.lt_0_1 Nat.lt_0_1). discriminate H.
Qed.
Print Assumptions C73_one_dimension_refuted.
(** What is computed there, for tensors of every rank. *)
Theorem C73_one_dimension_partial : forall R (o : ops R) junk t F,
  push_forward o 1 1 1 junk t F = Some (push1 o 1 t F) /\ push1 o 1 t F 0 0 = add o (mul o (F 0 0) (t 0 0)) (zero o).
Proof. intros. split; reflexivity. Qed.
Print Assumptions C73_one_dimension_partial.

(** * C74: the asymmetriser *)
Definition qthird : Qc := Q2Qc (1 # 3).
Theorem C74_asymmetriser_refuted :
  ~ (forall dim junk B i j, i < dim -> j < dim -> add qops (tensmult4 qops dim (Iasymm qops dim qhalf qthird junk) B i j) (tensmult4 qops dim (Iasymm qops dim qhalf qthird junk) B i j) = sub qops (B i j) (B j i)).
Proof.
  intros H. specialize (H 2 (fun _ _ => q 0) (fun i j => if (i =? 0) && (j =? 1) then q 1 else q 0) 1 0 ltac:(lia) ltac:(lia)).
  apply (f_equal (fun x : Qc => Qnum (this x))) in H. vm_compute in H. discriminate H.
Qed.
Print Assumptions C74_asymmetriser_refuted.
Theorem C74_asymmetriser_partial : forall R (o : ops R), lawful o -> forall dim half third junk B i j, i < dim -> j < dim ->
  tensmult4 o dim (Iasymm o dim half third junk) B i j = sub o (mul o half (add o (B i j) (B j i))) (mul o third (mul o (delta o i j) (sum1 o dim (fun k => B k k)))).
Proof. intros R o L dim half third junk B i j Hi Hj. now apply Iasymm_action. Qed.
Print Assumptions C74_asymmetriser_partial.

(** * C43 *)
(** [inv] gives reciprocals of everything but zero. *)
Definition reciprocal {R} (o : ops R) (inv : R -> option R) : Prop :=
  (forall a s, inv a = Some s -> mul o s a = one o) /\ (forall a, a <> zero o -> exists s, inv a = Some s).
Definition distinct {R} (n : nat) (eigs : nat -> R) : Prop := forall a b, a < n -> b < n -> a <> b -> eigs a <> eigs b.

Theorem C43_logm : forall R (o : ops R), lawful o -> forall inv log, reciprocal o inv -> forall dim eigs T, 0 < dim -> distinct dim eigs -> (forall m, m < dim -> exists l, log (eigs m) = Some l) ->
  exists X, logm o inv log dim eigs T = Some X /\
            forall m v l, m < dim -> eigenpair o dim T (eigs m) v -> log (eigs m) = Some l -> eigenpair o dim X l v.
Proof.
  intros R o L inv log (I1 & I2) dim eigs T Hd D HL. destruct (logm_some o L inv log I2 dim eigs T Hd D HL) as (X & HX). exists X. split; [exact HX|].
  intros m v l Hm Ev Hl. exact (logm_mv o L inv log I1 dim eigs T X m v l Hm Hl Ev HX).
Qed.
Print Assumptions C43_logm.

(** With a basis of eigenvectors (columns of [V], inverse [W]) the result is
    determined. *)
Theorem C43_logm_value : forall R (o : ops R), lawful o -> forall inv log, reciprocal o inv -> forall dim eigs T V W (l : nat -> R), 0 < dim -> distinct dim eigs ->
  (forall m, m < dim -> log (eigs m) = Some (l m)) -> inverse_of o dim V W -> (forall m, m < dim -> eigenpair o dim T (eigs m) (fun r => V r m)) ->
  exists X, logm o inv log dim eigs T = Some X /\ same dim dim X (fun i j => sum1 o dim (fun m => mul o (l m) (mul o (V i m) (W m j)))).
Proof.
  intros R o L inv log (I1 & I2) dim eigs T V W l Hd D HL HI HE. destruct (logm_some o L inv log I2 dim eigs T Hd D) as (X & HX); [eauto|]. exists X. split; [exact HX|].
  destruct (inverse_mm o dim V W HI) as (_ & VW). apply (by_columns o L dim X V W l VW). intros m Hm. exact (logm_mv o L inv log I1 dim eigs T X m _ (l m) Hm (HL m Hm) (HE m Hm) HX).
Qed.
Print Assumptions C43_logm_value.

(** The functions that use eigenvectors, also for repeated eigenvalues. *)
Theorem C43_spectral : forall R (o : ops R), lawful o -> forall fn dim eigs V, orthonormal o dim V -> (forall m, m < dim -> exists l, fn (eigs m) = Some l) ->
  exists X, spectral_sum o fn dim eigs V = Some X /\ forall m l, m < dim -> fn (eigs m) = Some l -> eigenpair o dim X l (fun r => V r m).
Proof.
  intros R o L fn dim eigs V O HL. destruct (spectral_some o fn dim eigs V HL) as (X & HX). exists X. split; [exact HX|]. intros m l Hm Hl. exact (spectral_eigen o L fn dim eigs V X m l O HX Hm Hl).
Qed.
Print Assumptions C43_spectral.

(** [V] and its transpose are inverse to each other, and its columns are
    eigenvectors of [T]. *)
Definition decomposition {R} (o : ops R) (n : nat) (T : nat -> nat -> R) (eigs : nat -> R) (V : nat -> nat -> R) : Prop :=
  orthonormal o n V /\ orthonormal o n (fun i j => V j i) /\ forall m, m < n -> eigenpair o n T (eigs m) (fun r => V r m).
Definition integral {R} (o : ops R) : Prop := forall a b : R, mul o a b = zero o -> a = zero o \/ b = zero o.

(** Every decomposition the solver may return gives the same result. *)
Theorem C43_spectral_unique : forall R (o : ops R), lawful o -> integral o -> forall fn dim T eigs V eigs' V' X X',
  decomposition o dim T eigs V -> decomposition o dim T eigs' V' -> spectral_sum o fn dim eigs V = Some X -> spectral_sum o fn dim eigs' V' = Some X' -> same dim dim X X'.
Proof.
  intros R o L ID fn dim T eigs V eigs' V' X X' (O & O2 & E) (O' & O2' & E') H H'.
  destruct (spectral_value o L fn dim eigs' V' X' H') as (d & D1 & D2). intros i j Hi Hj. rewrite D2. revert i j Hi Hj.
  apply (by_columns o L dim X V' (tr V') d); [intros p r Hp Hr; exact (O2' p r Hp Hr)|]. intros m Hm. exact (spectral_eigen_any o L fn dim eigs V T X (eigs' m) _ (d m) ID O O2 E H (E' m Hm) (D1 m Hm)).
Qed.
Print Assumptions C43_spectral_unique.

(** Both logarithms agree. *)
Theorem C43_both_logarithms : forall R (o : ops R), lawful o -> forall inv log, reciprocal o inv -> forall dim T eigs V X Y, 0 < dim -> distinct dim eigs ->
  decomposition o dim T eigs V -> logm o inv log dim eigs T = Some X -> spectral_sum o log dim eigs V = Some Y -> same dim dim X Y.
Proof.
  intros R o L inv log (I1 & I2) dim T eigs V X Y Hd D (O & O2 & E) HX HY. destruct (spectral_value o L log dim eigs V Y HY) as (d & D1 & D2). intros i j Hi Hj. rewrite D2. revert i j Hi Hj.
  apply (by_columns o L dim X V (tr V) d); [intros p r Hp Hr; exact (O2 p r Hp Hr)|]. intros m Hm. exact (logm_mv o L inv log I1 dim eigs T X m _ (d m) Hm (D1 m Hm) (E m Hm) HX).
Qed.
Print Assumptions C43_both_logarithms.

(** The exponential undoes the logarithm. *)
Theorem C43_exp_of_log : forall R (o : ops R), lawful o -> integral o -> forall exp log dim T eigs V X eigs' V' Y,
  (forall x l, log x = Some l -> exp l = Some x) -> decomposition o dim T eigs V -> spectral_sum o log dim eigs V = Some X ->
  decomposition o dim X eigs' V' -> spectral_sum o exp dim eigs' V' = Some Y -> same dim dim Y T.
Proof.
  intros R o L ID exp log dim T eigs V X eigs' V' Y EL D HX D' HY. destruct D as (O & O2 & E). destruct (spectral_value o L log dim eigs V X HX) as (d & D1 & D2).
  assert (DX : decomposition o dim X d V) by (split; [exact O|]; split; [exact O2|]; intros m Hm; exact (spectral_eigen o L log dim eigs V X m (d m) O HX Hm (D1 m Hm))).
  destruct (spectral_some o exp dim d V) as (Y' & HY'); [intros m Hm; exists (eigs m); apply EL, D1, Hm|].
  apply (same_trans dim dim Y Y' T); [exact (C43_spectral_unique R o L ID exp dim X eigs' V' d V Y Y' D' DX HY HY')|]. apply same_sym.
  destruct (spectral_value o L exp dim d V Y' HY') as (e & E1 & E2). intros i j Hi Hj. rewrite E2. revert i j Hi Hj.
  apply (by_columns o L dim T V (tr V) e); [intros p r Hp Hr; exact (O2 p r Hp Hr)|]. intros m Hm. assert (e m = eigs m) as -> by (specialize (E1 m Hm); rewrite (EL (eigs m) (d m) (D1 m Hm)) in E1; congruence). now apply E.
Qed.
Print Assumptions C43_exp_of_log.

(** A case over the rational numbers: the diagonal matrix with entries 3 and 5
    and a made-up logarithm. *)
Definition qinv (a : Qc) : option Qc := if Qc_eq_dec a (Q2Qc 0) then None else Some (Qcinv a).
Lemma qinv_reciprocal : reciprocal qops qinv.
Proof.
  split; intros a.
  - intros s. unfold qinv. destruct (Qc_eq_dec a (Q2Qc 0)) as [|Ne]; [discriminate|]. intros H. injection H as <-. exact (Qcmult_inv_l a Ne).
  - intros Ne. unfold qinv. destruct (Qc_eq_dec a (Q2Qc 0)) as [E|_]; [contradiction|eauto].
Qed.
Definition diag2 (a b : Qc) : nat -> nat -> Qc := fun i j => if i =? j then (if i =? 0 then a else b) else q 0.
Example C43_case :
  let eigs := fun m => if m =? 0 then q 3 else q 5 in let log := fun x => Some (Qcmult x x) in
  distinct 2 eigs /\ (forall m, m < 2 -> eigenpair qops 2 (diag2 (q 3) (q 5)) (eigs m) (fun r => ident qops r m)) /\
  exists X, logm qops qinv log 2 eigs (diag2 (q 3) (q 5)) = Some X /\ X 0 0 = q 9 /\ X 1 1 = q 25 /\ X 0 1 = q 0.
Proof.
  split; [|split].
  - intros a b Ha Hb Ne. assert (a = 0 \/ a = 1) as [-> | ->] by lia; assert (b = 0 \/ b = 1) as [-> | ->] by lia; try lia; intros H; apply (f_equal (fun x : Qc => Qnum (this x))) in H; vm_compute in H; discriminate H.
  - intros m Hm i Hi. assert (m = 0 \/ m = 1) as [-> | ->] by lia; assert (i = 0 \/ i = 1) as [-> | ->] by lia; apply Qc_is_canon; vm_compute; reflexivity.
  - eexists. split; [reflexivity|]. repeat split; apply Qc_is_canon; vm_compute; reflexivity.
Qed.

(** * C75: equal eigenvalues *)
Theorem C75_repeated_eigenvalues_refuted :
  ~ (forall R (o : ops R), lawful o -> forall inv log, reciprocal o inv -> forall dim eigs T, 0 < dim -> (forall m, m < dim -> exists l, log (eigs m) = Some l) ->
       (forall m, m < dim -> eigenpair o dim T (eigs m) (fun r => delta o r m)) -> exists X, logm o inv log dim eigs T = Some X).
Proof.
  intros H. destruct (H Qc qops qops_lawful qinv (fun _ => Some (q 0)) qinv_reciprocal 2 (fun _ => q 1) (ident qops)) as (X & HX).
  - lia.
  - eauto.
  - intros m Hm i Hi. assert (m = 0 \/ m = 1) as [-> | ->] by lia; assert (i = 0 \/ i = 1) as [-> | ->] by lia; apply Qc_is_canon; vm_compute; reflexivity.
  - rewrite (logm_none qops qops_lawful qinv (fun _ => Some (q 0)) 2 (fun _ => q 1) (ident qops) 0 1) in HX; try lia; [discriminate HX|vm_compute; reflexivity|reflexivity].
Qed.
Print Assumptions C75_repeated_eigenvalues_refuted.
Theorem C75_repeated_eigenvalues_partial : forall R (o : ops R), lawful o -> forall inv log, inv (zero o) = None -> forall dim eigs T a b, a < dim -> b < dim -> a <> b -> eigs a = eigs b -> logm o inv log dim eigs T = None.
Proof. intros R o L inv log H0 dim eigs T a b Ha Hb Ne E. exact (logm_none o L inv log dim eigs T b a H0 Hb Ha Ne E). Qed.
Print Assumptions C75_repeated_eigenvalues_partial.

(** * C76: component access by strides *)
Theorem C76_access_refuted :
  (* the transposed expression *)
  ~ (forall R (T : nat -> nat -> R) dim i j k l, i < dim -> j < dim -> k < dim -> l < dim -> get_at dim (dim * dim) 1 (tr T) i j k l = get dim T k l i j) /\
  (* a block of a matrix with [outer] rows *)
  ~ (forall dim outer i j, i < dim -> j < dim -> dim * dim <= outer -> t4_index dim 1 outer i j < dim * dim).
Proof.
  split; intros H.
  - specialize (H nat (fun r c => 10 * r + c) 2 0 1 0 0 ltac:(lia) ltac:(lia) ltac:(lia) ltac:(lia)). vm_compute in H. discriminate H.
  - specialize (H 2 8 0 1 ltac:(lia) ltac:(lia) ltac:(lia)). vm_compute in H. lia.
Qed.
Print Assumptions C76_access_refuted.
Theorem C76_access_partial : forall R (T : nat -> nat -> R) dim i j k l,
  get_at dim (dim * dim) 1 (tr T) i j k l = get dim T l k j i.
Proof.
  intros R T dim i j k l. rewrite get_eq. unfold get_at, tr. pose proof (t4_index_eq dim j i) as A. pose proof (t4_index_eq dim l k) as B. unfold t4_index in *. f_equal; lia.
Qed.
Print Assumptions C76_access_partial.
