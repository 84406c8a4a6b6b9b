(** Lemmas about units. *)
From Verif Require Import Base UnitsModel UnitsSpec.
From Coq Require Import Znumtheory QArith Qfield Qreduction.
Open Scope Z_scope.

(** ** [int] expressions *)
Lemma ci_ok z v : ci z = Ok v -> v = z /\ - 2 ^ 31 <= z < 2 ^ 31.
Proof. unfold ci. destruct ((- 2 ^ 31 <=? z) && (z <? 2 ^ 31)) eqn:E; [|discriminate]. intros H; injection H as <-. lia. Qed.

Lemma ci_in z : - 2 ^ 31 <= z < 2 ^ 31 -> ci z = Ok z.
Proof. intros H. unfold ci. replace ((- 2 ^ 31 <=? z) && (z <? 2 ^ 31)) with true by lia. reflexivity. Qed.

Lemma ci_not_err z e : ci z <> Err e.
Proof. unfold ci. destruct ((- 2 ^ 31 <=? z) && (z <? 2 ^ 31)); discriminate. Qed.

(** ** The binary gcd *)
Lemma shiftr1 a : Z.shiftr a 1 = a / 2.
Proof. now rewrite Z.shiftr_div_pow2 by lia. Qed.
Lemma shiftl1 a : Z.shiftl a 1 = 2 * a.
Proof. rewrite Z.shiftl_mul_pow2 by lia. change (2 ^ 1) with 2. ring. Qed.

Lemma odd_rel_prime_2 a : Z.odd a = true -> rel_prime a 2.
Proof.
  intros H. apply Zgcd_1_rel_prime. pose proof (Z.gcd_nonneg a 2).
  assert (D2 : (Z.gcd a 2 | 2)) by apply Z.gcd_divide_r. apply Z.divide_pos_le in D2 as L; [|lia].
  assert (Z.gcd a 2 = 0 \/ Z.gcd a 2 = 1 \/ Z.gcd a 2 = 2) as [E|[E|E]] by lia; [|exact E|].
  - apply Z.gcd_eq_0_r in E. lia.
  - pose proof (Z.gcd_divide_l a 2) as D. rewrite E in D. destruct D as [q Eq]. rewrite Eq in H.
    rewrite Z.odd_mul in H. rewrite andb_false_r in H. discriminate.
Qed.

Lemma gcd_double_odd a b : Z.odd b = true -> Z.gcd (2 * a) b = Z.gcd a b.
Proof.
  intros H. rewrite (Z.gcd_comm (2 * a)), (Z.gcd_comm a).
  apply Zis_gcd_gcd; [apply Z.gcd_nonneg|].
  pose proof (Zgcd_is_gcd b a) as G. destruct G as [G1 G2 G3].
  constructor; [exact G1|now apply Z.divide_mul_r|].
  intros x Hb Ha. apply G3; [exact Hb|]. apply Gauss with 2; [exact Ha|].
  apply (rel_prime_div b 2 x).
  - now apply odd_rel_prime_2.
  - exact Hb.
Qed.

Lemma even_half a : Z.even a = true -> a = 2 * (a / 2).
Proof. intros H. apply Z.even_spec in H. destruct H as [k ->]. rewrite Z.mul_comm, Z.div_mul by lia. lia. Qed.

Lemma log2_half a : 2 <= a -> Z.log2 (a / 2) = Z.log2 a - 1.
Proof.
  intros H. change 2 with (2 ^ 1) at 1. rewrite <- Z.shiftr_div_pow2 by lia.
  rewrite Z.log2_shiftr by lia. pose proof (Z.log2_le_mono 2 a H). change (Z.log2 2) with 1 in H0. lia.
Qed.

Lemma gcd_worker_correct fuel : forall a b, 0 <= a -> 0 <= b ->
  Z.log2 a + Z.log2 b < Z.of_nat fuel -> gcd_worker fuel a b = Some (Z.gcd a b).
Proof.
  induction fuel as [|k IH]; intros a b Ha Hb Hf.
  - pose proof (Z.log2_nonneg a). pose proof (Z.log2_nonneg b). lia.
  - cbn [gcd_worker].
    destruct (Z.eqb_spec a b) as [->|Hab]; [now rewrite Z.gcd_diag, Z.abs_eq|].
    destruct (Z.eqb_spec a 0) as [->|Ha0]; [now rewrite Z.gcd_0_l, Z.abs_eq|].
    destruct (Z.eqb_spec b 0) as [->|Hb0]; [now rewrite Z.gcd_0_r, Z.abs_eq|].
    rewrite !shiftr1.
    destruct (Z.even a) eqn:Ea.
    + pose proof (even_half a Ea) as Ea2. assert (La : Z.log2 (a / 2) = Z.log2 a - 1) by (apply log2_half; lia).
      destruct (Z.even b) eqn:Eb.
      * pose proof (even_half b Eb) as Eb2. assert (Lb : Z.log2 (b / 2) = Z.log2 b - 1) by (apply log2_half; lia).
        rewrite IH by lia. cbn [option_map]. rewrite shiftl1. f_equal.
        rewrite Ea2 at 2. rewrite Eb2 at 2. rewrite Z.gcd_mul_mono_l. reflexivity.
      * rewrite IH by lia. f_equal. rewrite Ea2 at 2. rewrite gcd_double_odd; [reflexivity|].
        rewrite <- Z.negb_even. now rewrite Eb.
    + destruct (Z.even b) eqn:Eb.
      * pose proof (even_half b Eb) as Eb2. assert (Lb : Z.log2 (b / 2) = Z.log2 b - 1) by (apply log2_half; lia).
        rewrite IH by lia. f_equal. rewrite Eb2 at 2. rewrite !(Z.gcd_comm a). rewrite gcd_double_odd; [reflexivity|].
        rewrite <- Z.negb_even. now rewrite Ea.
      * assert (Eab : Z.even (a - b) = true) by (rewrite Z.even_sub, Ea, Eb; reflexivity).
        assert (Eba : Z.even (b - a) = true) by (rewrite Z.even_sub, Ea, Eb; reflexivity).
        assert (Oa : Z.odd a = true) by (rewrite <- Z.negb_even; now rewrite Ea).
        assert (Ob : Z.odd b = true) by (rewrite <- Z.negb_even; now rewrite Eb).
        destruct (Z.ltb_spec b a) as [Hlt|Hge].
        -- pose proof (even_half _ Eab) as E2.
           assert (L : Z.log2 ((a - b) / 2) <= Z.log2 a - 1).
           { rewrite <- log2_half by lia. apply Z.log2_le_mono. apply Z.div_le_mono; lia. }
           rewrite IH by lia. f_equal.
           rewrite <- (gcd_double_odd ((a - b) / 2) b Ob), <- E2.
           rewrite Z.gcd_comm, Z.gcd_sub_diag_r. apply Z.gcd_comm.
        -- pose proof (even_half _ Eba) as E2.
           assert (L : Z.log2 ((b - a) / 2) <= Z.log2 b - 1).
           { rewrite <- log2_half by lia. apply Z.log2_le_mono. apply Z.div_le_mono; lia. }
           rewrite IH by lia. f_equal.
           rewrite <- (gcd_double_odd ((b - a) / 2) a Oa), <- E2.
           rewrite Z.gcd_comm, Z.gcd_sub_diag_r. reflexivity.
Qed.

Lemma log2_small a : 0 <= a < 2 ^ 31 -> Z.log2 a <= 30.
Proof.
  intros H. destruct (Z.eq_dec a 0) as [->|Hn]; [cbn; lia|].
  assert (Z.log2 a < 31) by (apply Z.log2_lt_pow2; lia). lia.
Qed.

Lemma compute_gcd_correct a b :
  - 2 ^ 31 < a < 2 ^ 31 -> - 2 ^ 31 < b < 2 ^ 31 -> compute_gcd a b = Ok (Z.gcd a b).
Proof.
  intros Ha Hb. unfold compute_gcd. rewrite !ci_in by lia. cbn [bind].
  pose proof (log2_small (Z.abs a) ltac:(lia)). pose proof (log2_small (Z.abs b) ltac:(lia)).
  rewrite gcd_worker_correct by (try lia; unfold gcd_fuel; lia).
  now rewrite Z.gcd_abs_l, Z.gcd_abs_r.
Qed.

(** ** Exponents *)

Lemma gcd_abs_pos a b : b <> 0 -> 0 < Z.gcd a b.
Proof.
  intros H. pose proof (Z.gcd_nonneg a b).
  destruct (Z.eq_dec (Z.gcd a b) 0) as [E|E]; [apply Z.gcd_eq_0_r in E; contradiction|lia].
Qed.

Lemma ue_make_spec num den :
  den <> 0 -> int_ok num -> int_ok den ->
  exists e, ue_make num den = Ok e /\ valid e /\ ue_num e * den = num * ue_den e /\
    Z.abs (ue_num e) <= Z.abs num /\ Z.abs (ue_den e) <= Z.abs den.
Proof.
  intros Hd Hn Hdr. unfold ue_make. destruct (Z.eqb_spec den 0); [contradiction|].
  unfold ue_reduce; cbn [ue_num ue_den]. rewrite compute_gcd_correct by assumption. cbn [bind].
  pose proof (gcd_abs_pos num den Hd) as Hg. remember (Z.gcd num den) as g eqn:Hgdef.
  set (s := if den <? 0 then -1 else 1).
  assert (Hs : s = 1 \/ s = -1) by (unfold s; destruct (den <? 0); auto).
  assert (Hss : 0 < s * den) by (unfold s; destruct (Z.ltb_spec den 0); lia).
  destruct (Z.eqb_spec (s * g) 0); [nia|].
  destruct (Z.gcd_divide_l num den) as [p Ep]. destruct (Z.gcd_divide_r num den) as [q Eq]. rewrite <- Hgdef in Ep, Eq.
  assert (En : Z.quot num (s * g) = s * p).
  { apply (Z.mul_reg_r _ _ (s * g)); [lia|]. rewrite Ep at 1.
    replace (p * g) with (s * p * (s * g)) by nia. rewrite Z.quot_mul by lia. ring. }
  assert (Ed : Z.quot den (s * g) = s * q).
  { apply (Z.mul_reg_r _ _ (s * g)); [lia|]. rewrite Eq at 1.
    replace (q * g) with (s * q * (s * g)) by nia. rewrite Z.quot_mul by lia. ring. }
  rewrite En, Ed. unfold int_ok in *.
  assert (Has : Z.abs s = 1) by (destruct Hs as [-> | ->]; reflexivity).
  assert (Hpa : Z.abs (s * p) = Z.abs p) by (rewrite Z.abs_mul, Has; apply Z.mul_1_l).
  assert (Hqa : Z.abs (s * q) = Z.abs q) by (rewrite Z.abs_mul, Has; apply Z.mul_1_l).
  assert (Bp : Z.abs p <= Z.abs num).
  { rewrite Ep, Z.abs_mul. rewrite (Z.abs_eq g) by lia. clear -Hg. pose proof (Z.abs_nonneg p). nia. }
  assert (Bq : Z.abs q <= Z.abs den).
  { rewrite Eq, Z.abs_mul. rewrite (Z.abs_eq g) by lia. clear -Hg. pose proof (Z.abs_nonneg q). nia. }
  assert (Rp : - 2 ^ 31 < s * p < 2 ^ 31) by (clear -Hpa Bp Hn; lia).
  assert (Rq : - 2 ^ 31 < s * q < 2 ^ 31) by (clear -Hqa Bq Hdr; lia).
  assert (Pq : 0 < s * q).
  { clear -Hss Eq Hg. rewrite Eq in Hss. rewrite Z.mul_assoc in Hss. revert Hss. generalize (s * q). intros z Hz. nia. }
  clear Hss. rewrite !ci_in by (revert Rp Rq; clear; intros; lia). cbn [bind].
  eexists; split; [reflexivity|]. cbn [ue_num ue_den].
  assert (Hgcd : Z.gcd (s * p) (s * q) = 1).
  { rewrite Z.gcd_mul_mono_l. rewrite Has, Z.mul_1_l.
    assert (E : g * Z.gcd p q = g * 1).
    { rewrite Z.mul_1_r. transitivity (Z.abs g * Z.gcd p q); [now rewrite (Z.abs_eq g (Z.lt_le_incl _ _ Hg))|].
      rewrite <- Z.gcd_mul_mono_l, (Z.mul_comm g p), (Z.mul_comm g q), <- Ep, <- Eq. exact (eq_sym Hgdef). }
    clear -E Hg. apply Z.mul_reg_l in E; lia. }
  split; [|split; [|split; [now rewrite Hpa|now rewrite Hqa]]].
  - unfold valid, int_ok; cbn [ue_num ue_den]. split; [exact Pq|]. split; [exact Hgcd|]. split; assumption.
  - rewrite Ep, Eq. ring.
Qed.

Lemma ue_make_ok_inv num den e :
  ue_make num den = Ok e -> den <> 0 /\ int_ok num /\ int_ok den.
Proof.
  unfold ue_make. destruct (Z.eqb_spec den 0); [discriminate|]. unfold ue_reduce, compute_gcd; cbn [ue_num ue_den].
  destruct (ci (Z.abs num)) as [x| |] eqn:E1; cbn [bind]; try discriminate.
  destruct (ci (Z.abs den)) as [y| |] eqn:E2; cbn [bind]; try discriminate.
  apply ci_ok in E1. apply ci_ok in E2. intros _. unfold int_ok. lia.
Qed.

Lemma valid_unique a b : valid a -> valid b -> ue_num a * ue_den b = ue_num b * ue_den a -> a = b.
Proof.
  intros (Da & Ga & _) (Db & Gb & _) E. destruct a as [na da], b as [nb db]; cbn [ue_num ue_den] in *.
  assert (D1 : (da | db)).
  { apply (Z.gauss da na db); [exists nb; lia|now rewrite Z.gcd_comm]. }
  assert (D2 : (db | da)).
  { apply (Z.gauss db nb da); [exists na; lia|now rewrite Z.gcd_comm]. }
  assert (da = db) as -> by (apply Z.divide_antisym_nonneg; lia || assumption).
  f_equal. nia.
Qed.

Lemma q_of_eq a b : 0 < ue_den a -> 0 < ue_den b ->
  (q_of a == q_of b)%Q <-> ue_num a * ue_den b = ue_num b * ue_den a.
Proof.
  intros Ha Hb. unfold q_of.
  destruct a as [na da], b as [nb db]; cbn [ue_num ue_den] in *.
  destruct da as [|pa|pa]; try lia. destruct db as [|pb|pb]; try lia.
  unfold Qeq, Qdiv, Qinv, inject_Z; cbn. rewrite !Z.mul_1_r. reflexivity.
Qed.

Lemma ue_eqb_eq a b : ue_eqb a b = true <-> a = b.
Proof.
  unfold ue_eqb. destruct a as [na da], b as [nb db]; cbn. split.
  - intros H. f_equal; lia.
  - intros H; injection H as -> ->. lia.
Qed.

Lemma ue_make_value num den e :
  ue_make num den = Ok e -> valid e /\ ue_num e * den = num * ue_den e.
Proof.
  intros H. destruct (ue_make_ok_inv _ _ _ H) as (H1 & H2 & H3).
  destruct (ue_make_spec num den H1 H2 H3) as (e' & E & V & X & _). rewrite E in H. injection H as ->. auto.
Qed.

Lemma ue_mul_value a b c :
  ue_mul a b = Ok c -> valid c /\
  ue_num c * (ue_den a * ue_den b) = (ue_num a * ue_den b + ue_num b * ue_den a) * ue_den c /\
  ue_den a * ue_den b <> 0.
Proof.
  unfold ue_mul. destruct (ci (ue_num a * ue_den b)) as [x| |] eqn:E1; cbn [bind]; try discriminate.
  destruct (ci (ue_num b * ue_den a)) as [y| |] eqn:E2; cbn [bind]; try discriminate.
  destruct (ci (x + y)) as [z| |] eqn:E3; cbn [bind]; try discriminate.
  destruct (ci (ue_den a * ue_den b)) as [w| |] eqn:E4; cbn [bind]; try discriminate.
  apply ci_ok in E1, E2, E3, E4. destruct E1 as [-> _], E2 as [-> _], E3 as [-> _], E4 as [-> _].
  intros H. destruct (ue_make_value _ _ _ H) as [V X]. split; [exact V|]. split; [exact X|apply (ue_make_ok_inv _ _ _ H)].
Qed.

Lemma ue_div_value a b c :
  ue_div a b = Ok c -> valid c /\
  ue_num c * (ue_den a * ue_den b) = (ue_num a * ue_den b - ue_num b * ue_den a) * ue_den c /\
  ue_den a * ue_den b <> 0.
Proof.
  unfold ue_div. destruct (ci (ue_num a * ue_den b)) as [x| |] eqn:E1; cbn [bind]; try discriminate.
  destruct (ci (ue_num b * ue_den a)) as [y| |] eqn:E2; cbn [bind]; try discriminate.
  destruct (ci (x - y)) as [z| |] eqn:E3; cbn [bind]; try discriminate.
  destruct (ci (ue_den a * ue_den b)) as [w| |] eqn:E4; cbn [bind]; try discriminate.
  apply ci_ok in E1, E2, E3, E4. destruct E1 as [-> _], E2 as [-> _], E3 as [-> _], E4 as [-> _].
  intros H. destruct (ue_make_value _ _ _ H) as [V X]. split; [exact V|]. split; [exact X|apply (ue_make_ok_inv _ _ _ H)].
Qed.

Lemma q_of_spec e n d : 0 < ue_den e -> d <> 0 -> ue_num e * d = n * ue_den e ->
  (q_of e == inject_Z n / inject_Z d)%Q.
Proof.
  intros He Hd H. unfold q_of. 
  assert (X : ~ (inject_Z (ue_den e) == 0)%Q) by (unfold Qeq, inject_Z; cbn; lia).
  assert (Y : ~ (inject_Z d == 0)%Q) by (unfold Qeq, inject_Z; cbn; lia).
  apply Qmult_inj_r with (z := (inject_Z (ue_den e) * inject_Z d)%Q).
  - intros Hz. apply Qmult_integral in Hz. tauto.
  - field_simplify; [|assumption|assumption].
    rewrite <- !inject_Z_mult. rewrite H. apply inject_Z_injective. ring.
Qed.

Lemma q_of_mul a b c : 0 < ue_den a -> 0 < ue_den b -> ue_mul a b = Ok c -> (q_of c == q_of a + q_of b)%Q.
Proof.
  intros Ha Hb H. destruct (ue_mul_value a b c H) as (V & E & N).
  rewrite (q_of_spec c _ _ (proj1 V) N E). unfold q_of.
  rewrite inject_Z_plus, !inject_Z_mult. field.
  split; unfold Qeq, inject_Z; cbn; lia.
Qed.

Lemma q_of_div a b c : 0 < ue_den a -> 0 < ue_den b -> ue_div a b = Ok c -> (q_of c == q_of a - q_of b)%Q.
Proof.
  intros Ha Hb H. destruct (ue_div_value a b c H) as (V & E & N).
  rewrite (q_of_spec c _ _ (proj1 V) N E). unfold q_of.
  replace (ue_num a * ue_den b - ue_num b * ue_den a) with (ue_num a * ue_den b + - (ue_num b * ue_den a)) by ring.
  rewrite inject_Z_plus, inject_Z_opp, !inject_Z_mult. field.
  split; unfold Qeq, inject_Z; cbn; lia.
Qed.

Lemma valid_q_inj a b : valid a -> valid b -> (q_of a == q_of b)%Q -> a = b.
Proof.
  intros Va Vb H. apply valid_unique; try assumption. apply q_of_eq; [apply Va|apply Vb|exact H].
Qed.

Lemma reach_exp_valid e : reach_exp e -> valid e.
Proof.
  induction 1 as [num den e H|a b e Ha IHa Hb IHb H|a b e Ha IHa Hb IHb H|a b e Ha IHa Hb IHb H|a b e Ha IHa Hb IHb H].
  - now apply (ue_make_value num den).
  - now apply (ue_mul_value a b).
  - now apply (ue_div_value a b).
  - unfold ue_add in H. destruct (ue_eqb a b); [|discriminate]. injection H as <-. exact IHa.
  - unfold ue_sub in H. destruct (ue_eqb a b); [|discriminate]. injection H as <-. exact IHa.
Qed.

(** ** Ordering of exponents *)

Lemma ue_lt_value a b r :
  valid a -> valid b -> ue_lt a b = Ok r -> r = (ue_num a * ue_den b <? ue_num b * ue_den a).
Proof.
  intros Va Vb. unfold ue_lt. destruct (ue_div a b) as [d| |] eqn:E; cbn [bind]; try discriminate.
  intros H; injection H as <-. destruct (ue_div_value a b d E) as (Vd & X & _).
  destruct Va as (Da & _), Vb as (Db & _), Vd as (Dd & _).
  assert (0 < ue_den a * ue_den b) by nia.
  destruct (Z.ltb_spec (ue_num d) 0); destruct (Z.ltb_spec (ue_num a * ue_den b) (ue_num b * ue_den a)); try reflexivity; nia.
Qed.

Lemma small_products a b : small a -> small b ->
  - 1073676289 <= ue_num a * ue_den b <= 1073676289 /\ 0 < ue_den a * ue_den b <= 1073676289.
Proof. unfold small. intros [Ha Da] [Hb Db]. nia. Qed.

Lemma ue_mul_small a b : small a -> small b -> exists c, ue_mul a b = Ok c.
Proof.
  intros Ha Hb. destruct (small_products a b Ha Hb) as [H1 H2]. destruct (small_products b a Hb Ha) as [H3 H4].
  unfold ue_mul. rewrite !ci_in by lia. cbn [bind]. rewrite !ci_in by lia. cbn [bind].
  destruct (ue_make_spec (ue_num a * ue_den b + ue_num b * ue_den a) (ue_den a * ue_den b)) as (e & E & _); unfold int_ok; try lia.
  now exists e.
Qed.

Lemma ue_div_small a b : small a -> small b -> exists c, ue_div a b = Ok c.
Proof.
  intros Ha Hb. destruct (small_products a b Ha Hb) as [H1 H2]. destruct (small_products b a Hb Ha) as [H3 H4].
  unfold ue_div. rewrite !ci_in by lia. cbn [bind]. rewrite !ci_in by lia. cbn [bind].
  destruct (ue_make_spec (ue_num a * ue_den b - ue_num b * ue_den a) (ue_den a * ue_den b)) as (e & E & _); unfold int_ok; try lia.
  now exists e.
Qed.

Lemma ue_lt_small a b : valid a -> valid b -> small a -> small b ->
  ue_lt a b = Ok (ue_num a * ue_den b <? ue_num b * ue_den a).
Proof.
  intros Va Vb Sa Sb. destruct (ue_div_small a b Sa Sb) as (c & E).
  assert (H : ue_lt a b = Ok (ue_num c <? 0)) by (unfold ue_lt; rewrite E; reflexivity).
  rewrite H. f_equal. now apply (ue_lt_value a b).
Qed.

(** ** Units *)

Lemma zipM_ok_nth {A B C} (f : A -> B -> res C) l m r da db dc :
  zipM f l m = Ok r -> length l = length m ->
  length r = length l /\ forall i, (i < length l)%nat -> f (nth i l da) (nth i m db) = Ok (nth i r dc).
Proof.
  revert m r; induction l as [|x l IH]; intros [|y m] r H Hl; simpl in Hl; try lia; cbn [zipM] in H.
  - injection H as <-. split; [reflexivity|]. intros i Hi; simpl in Hi; lia.
  - destruct (f x y) as [z| |] eqn:Ef; cbn [bind] in H; try discriminate.
    destruct (zipM f l m) as [r'| |] eqn:Ez; cbn [bind] in H; try discriminate. injection H as <-.
    destruct (IH m r' Ez ltac:(lia)) as [L I]. split; [simpl; congruence|].
    intros [|i] Hi; cbn [nth]; [exact Ef|]. apply I. simpl in Hi; lia.
Qed.

Lemma zipM_total {A B C} (f : A -> B -> res C) l m :
  length l = length m -> (forall x y, In x l -> In y m -> exists z, f x y = Ok z) -> exists r, zipM f l m = Ok r.
Proof.
  revert m; induction l as [|x l IH]; intros [|y m] Hl H; simpl in Hl; try lia; cbn [zipM]; [now exists []|].
  destruct (H x y (or_introl eq_refl) (or_introl eq_refl)) as [z ->]. cbn [bind].
  destruct (IH m ltac:(lia)) as [r ->]; [intros a b Ha Hb; apply H; now right|]. cbn [bind]. eauto.
Qed.

Lemma valid_ex u i : valid_unit u -> (i < nb_units)%nat -> valid (ex u i).
Proof. intros [L F] Hi. rewrite Forall_forall in F. apply F, nth_In. lia. Qed.

Lemma unit_ext a b : valid_unit a -> valid_unit b -> u_tag a = u_tag b ->
  (forall i, (i < nb_units)%nat -> ex a i = ex b i) -> a = b.
Proof.
  intros [La _] [Lb _] Ht H. destruct a as [ea ta], b as [eb tb]; cbn in *. subst tb. f_equal.
  apply (nth_ext ea eb ue0 ue0); [congruence|]. intros i Hi. apply H. lia.
Qed.

Lemma unit_op_spec f a b c :
  valid_unit a -> valid_unit b -> unit_op f a b = Ok c ->
  u_tag a = u_tag b /\ u_tag c = u_tag a /\ length (u_exps c) = nb_units /\
  forall i, (i < nb_units)%nat -> f (ex a i) (ex b i) = Ok (ex c i).
Proof.
  intros [La _] [Lb _]. unfold unit_op. destruct (Z.eqb_spec (u_tag a) (u_tag b)); cbn [negb]; [|discriminate].
  destruct (zipM f (u_exps a) (u_exps b)) as [r| |] eqn:E; cbn [bind]; try discriminate.
  intros H; injection H as <-. destruct (zipM_ok_nth f _ _ r ue0 ue0 ue0 E ltac:(congruence)) as [L I].
  cbn [u_tag u_exps]. split; [assumption|]. split; [reflexivity|]. split; [congruence|].
  intros i Hi. unfold ex; cbn [u_exps]. apply I. lia.
Qed.

Lemma unit_mul_spec a b c : valid_unit a -> valid_unit b -> unit_mul a b = Ok c ->
  valid_unit c /\ u_tag c = u_tag a /\ u_tag b = u_tag a /\
  forall i, (i < nb_units)%nat -> (q_of (ex c i) == q_of (ex a i) + q_of (ex b i))%Q.
Proof.
  intros Va Vb H. destruct (unit_op_spec _ a b c Va Vb H) as (T1 & T2 & L & I). split; [|split; [assumption|split; [congruence|]]].
  - split; [exact L|]. apply Forall_forall. intros e He. apply (In_nth _ _ ue0) in He. destruct He as (i & Hi & <-).
    apply (ue_mul_value (ex a i) (ex b i)). apply I. lia.
  - intros i Hi. apply q_of_mul; [apply (valid_ex a i Va Hi)|apply (valid_ex b i Vb Hi)|now apply I].
Qed.

Lemma unit_div_spec a b c : valid_unit a -> valid_unit b -> unit_div a b = Ok c ->
  valid_unit c /\ u_tag c = u_tag a /\ u_tag b = u_tag a /\
  forall i, (i < nb_units)%nat -> (q_of (ex c i) == q_of (ex a i) - q_of (ex b i))%Q.
Proof.
  intros Va Vb H. destruct (unit_op_spec _ a b c Va Vb H) as (T1 & T2 & L & I). split; [|split; [assumption|split; [congruence|]]].
  - split; [exact L|]. apply Forall_forall. intros e He. apply (In_nth _ _ ue0) in He. destruct He as (i & Hi & <-).
    apply (ue_div_value (ex a i) (ex b i)). apply I. lia.
  - intros i Hi. apply q_of_div; [apply (valid_ex a i Va Hi)|apply (valid_ex b i Vb Hi)|now apply I].
Qed.

Lemma unit_eq_q a b : valid_unit a -> valid_unit b -> u_tag a = u_tag b ->
  (forall i, (i < nb_units)%nat -> (q_of (ex a i) == q_of (ex b i))%Q) -> a = b.
Proof.
  intros Va Vb Ht H. apply unit_ext; try assumption. intros i Hi.
  apply valid_q_inj; [now apply valid_ex|now apply valid_ex|now apply H].
Qed.

Lemma unit_mul_comm a b c c' : valid_unit a -> valid_unit b ->
  unit_mul a b = Ok c -> unit_mul b a = Ok c' -> c = c'.
Proof.
  intros Va Vb H1 H2. destruct (unit_mul_spec _ _ _ Va Vb H1) as (V1 & T1 & T1' & Q1).
  destruct (unit_mul_spec _ _ _ Vb Va H2) as (V2 & T2 & T2' & Q2).
  apply unit_eq_q; try assumption; [congruence|]. intros i Hi. rewrite Q1, Q2 by exact Hi. ring.
Qed.

Lemma unit_mul_assoc a b c ab bc x y : valid_unit a -> valid_unit b -> valid_unit c ->
  unit_mul a b = Ok ab -> unit_mul ab c = Ok x -> unit_mul b c = Ok bc -> unit_mul a bc = Ok y -> x = y.
Proof.
  intros Va Vb Vc H1 H2 H3 H4.
  destruct (unit_mul_spec _ _ _ Va Vb H1) as (V1 & T1 & T1' & Q1).
  destruct (unit_mul_spec _ _ _ V1 Vc H2) as (V2 & T2 & T2' & Q2).
  destruct (unit_mul_spec _ _ _ Vb Vc H3) as (V3 & T3 & T3' & Q3).
  destruct (unit_mul_spec _ _ _ Va V3 H4) as (V4 & T4 & T4' & Q4).
  apply unit_eq_q; try assumption; [congruence|]. intros i Hi. rewrite Q2, Q1, Q4, Q3 by exact Hi. ring.
Qed.

Lemma unit_mul_div a b c x : valid_unit a -> valid_unit b ->
  unit_mul a b = Ok c -> unit_div c b = Ok x -> x = a.
Proof.
  intros Va Vb H1 H2. destruct (unit_mul_spec _ _ _ Va Vb H1) as (V1 & T1 & T1' & Q1).
  destruct (unit_div_spec _ _ _ V1 Vb H2) as (V2 & T2 & T2' & Q2).
  apply unit_eq_q; try assumption; [congruence|]. intros i Hi. rewrite Q2, Q1 by exact Hi. ring.
Qed.

Lemma unit_div_mul a b c x : valid_unit a -> valid_unit b ->
  unit_div a b = Ok c -> unit_mul c b = Ok x -> x = a.
Proof.
  intros Va Vb H1 H2. destruct (unit_div_spec _ _ _ Va Vb H1) as (V1 & T1 & T1' & Q1).
  destruct (unit_mul_spec _ _ _ V1 Vb H2) as (V2 & T2 & T2' & Q2).
  apply unit_eq_q; try assumption; [congruence|]. intros i Hi. rewrite Q2, Q1 by exact Hi. ring.
Qed.

Lemma valid_ue0 : valid ue0.
Proof. unfold valid, int_ok, ue0; cbn. lia. Qed.

Lemma valid_unitless t : valid_unit (unitless t).
Proof. split; [reflexivity|]. apply Forall_forall. intros e He. apply repeat_spec in He. subst. apply valid_ue0. Qed.

Lemma valid_base i t : valid_unit (base_unit i t).
Proof.
  split; [unfold base_unit; cbn [u_exps]; now rewrite upd_length|].
  unfold base_unit; cbn [u_exps nb_units repeat].
  assert (V1 : valid (mk_ue 1 1)) by (unfold valid, int_ok; cbn; lia). pose proof valid_ue0 as V0.
  destruct i as [|[|[|[|[|[|[|i]]]]]]]; cbn [upd]; repeat (apply Forall_cons; [assumption|]); apply Forall_nil.
Qed.

Lemma ex_unitless t i : ex (unitless t) i = ue0.
Proof.
  unfold ex, unitless; cbn [u_exps]. destruct (le_lt_dec nb_units i).
  - apply nth_overflow. now rewrite repeat_length.
  - apply nth_repeat.
Qed.

Lemma q_ue0 : (q_of ue0 == 0)%Q.
Proof. reflexivity. Qed.

Lemma unit_mul_unitless a c : valid_unit a -> unit_mul a (unitless (u_tag a)) = Ok c -> c = a.
Proof.
  intros Va H. destruct (unit_mul_spec _ _ _ Va (valid_unitless _) H) as (V & T & _ & Q).
  apply unit_eq_q; try assumption. intros i Hi. rewrite Q by exact Hi. rewrite ex_unitless, q_ue0. ring.
Qed.

Lemma unit_div_self a c : valid_unit a -> unit_div a a = Ok c -> c = unitless (u_tag a).
Proof.
  intros Va H. destruct (unit_div_spec _ _ _ Va Va H) as (V & T & _ & Q).
  apply unit_eq_q; try assumption; [apply valid_unitless|]. intros i Hi. rewrite Q by exact Hi. rewrite ex_unitless, q_ue0. ring.
Qed.

(** Multiplying by the neutral exponent never overflows. *)
Lemma ue_mul_ue0 e : valid e -> ue_mul e ue0 = Ok e.
Proof.
  intros V. pose proof V as (D & G & N & I). unfold int_ok in N, I. unfold ue_mul, ue0; cbn [ue_num ue_den].
  rewrite !Z.mul_1_r, Z.mul_0_l. rewrite !ci_in by lia. cbn [bind]. rewrite Z.add_0_r. rewrite ci_in by lia. cbn [bind].
  destruct (ue_make_spec (ue_num e) (ue_den e)) as (e' & E & V' & X & _); [lia|assumption|assumption|].
  rewrite E. f_equal. apply valid_unique; try assumption.
Qed.

Lemma zipM_nth_intro {A B C} (f : A -> B -> res C) l m r da db dc :
  length l = length m -> length r = length l ->
  (forall i, (i < length l)%nat -> f (nth i l da) (nth i m db) = Ok (nth i r dc)) -> zipM f l m = Ok r.
Proof.
  revert m r; induction l as [|x l IH]; intros [|y m] [|z r] H1 H2 H; simpl in H1, H2; try lia; cbn [zipM]; [reflexivity|].
  pose proof (H 0%nat ltac:(simpl; lia)) as H0. cbn [nth] in H0. rewrite H0. cbn [bind].
  rewrite (IH m r) by (try lia; intros i Hi; apply (H (S i)); simpl; lia). reflexivity.
Qed.

Lemma unit_mul_unitless_total a : valid_unit a -> unit_mul a (unitless (u_tag a)) = Ok a.
Proof.
  intros [L F]. unfold unit_mul, unit_op, unitless at 1. cbn [u_tag]. rewrite Z.eqb_refl. cbn [negb].
  assert (E : zipM ue_mul (u_exps a) (u_exps (unitless (u_tag a))) = Ok (u_exps a)).
  { apply (zipM_nth_intro _ _ _ _ ue0 ue0 ue0); [now rewrite L|reflexivity|].
    intros i Hi. fold (ex (unitless (u_tag a)) i). rewrite ex_unitless. apply ue_mul_ue0.
    rewrite Forall_forall in F. now apply F, nth_In. }
  rewrite E. cbn [bind]. destruct a; reflexivity.
Qed.

Lemma unit_op_tags f a b : u_tag a <> u_tag b -> unit_op f a b = Err UnitError.
Proof. intros H. unfold unit_op. destruct (Z.eqb_spec (u_tag a) (u_tag b)); [contradiction|reflexivity]. Qed.

Lemma small_ex u i : small_unit u -> valid_unit u -> (i < nb_units)%nat -> small (ex u i).
Proof. intros F [L _] Hi. unfold small_unit in F. rewrite Forall_forall in F. apply F, nth_In. lia. Qed.

Lemma unit_op_small f a b : (forall x y, small x -> small y -> exists z, f x y = Ok z) ->
  valid_unit a -> valid_unit b -> small_unit a -> small_unit b -> u_tag a = u_tag b -> exists c, unit_op f a b = Ok c.
Proof.
  intros Hf [La _] [Lb _] Sa Sb Ht. unfold unit_op. rewrite Ht, Z.eqb_refl. cbn [negb].
  unfold small_unit in *. rewrite Forall_forall in Sa, Sb.
  destruct (zipM_total f (u_exps a) (u_exps b)) as [r ->]; [congruence| |cbn [bind]; eauto].
  intros x y Hx Hy. apply Hf; auto.
Qed.

(** ** Adding and subtracting *)
Lemma zipM_add_same l : zipM ue_add l l = Ok l.
Proof.
  induction l as [|x l IH]; [reflexivity|]. cbn [zipM]. unfold ue_add at 1.
  replace (ue_eqb x x) with true by (symmetry; now apply ue_eqb_eq). cbn [bind]. now rewrite IH.
Qed.
Lemma zipM_sub_same l : zipM ue_sub l l = Ok l.
Proof.
  induction l as [|x l IH]; [reflexivity|]. cbn [zipM]. unfold ue_sub at 1.
  replace (ue_eqb x x) with true by (symmetry; now apply ue_eqb_eq). cbn [bind]. now rewrite IH.
Qed.

Lemma zipM_add_diff l : forall m, length l = length m -> l <> m -> zipM ue_add l m = Err UnitError.
Proof.
  induction l as [|x l IH]; intros [|y m] Hl Hn; simpl in Hl; try lia; [congruence|]. cbn [zipM]. unfold ue_add at 1.
  destruct (ue_eqb x y) eqn:E; cbn [bind]; [|reflexivity]. apply ue_eqb_eq in E. subst y.
  rewrite IH; [reflexivity|lia|congruence].
Qed.
Lemma zipM_sub_diff l : forall m, length l = length m -> l <> m -> zipM ue_sub l m = Err UnitError.
Proof.
  induction l as [|x l IH]; intros [|y m] Hl Hn; simpl in Hl; try lia; [congruence|]. cbn [zipM]. unfold ue_sub at 1.
  destruct (ue_eqb x y) eqn:E; cbn [bind]; [|reflexivity]. apply ue_eqb_eq in E. subst y.
  rewrite IH; [reflexivity|lia|congruence].
Qed.

Lemma unit_addsub a b : length (u_exps a) = nb_units -> length (u_exps b) = nb_units ->
  (a = b -> unit_add a b = Ok a /\ unit_sub a b = Ok a) /\
  (a <> b -> unit_add a b = Err UnitError /\ unit_sub a b = Err UnitError).
Proof.
  intros La Lb. split.
  - intros <-. unfold unit_add, unit_sub, unit_op. rewrite Z.eqb_refl. cbn [negb].
    rewrite zipM_add_same, zipM_sub_same. cbn [bind]. destruct a; auto.
  - intros Hn. destruct (Z.eq_dec (u_tag a) (u_tag b)) as [Ht|Ht].
    + assert (He : u_exps a <> u_exps b) by (destruct a, b; cbn in *; congruence).
      unfold unit_add, unit_sub, unit_op. rewrite Ht, Z.eqb_refl. cbn [negb].
      rewrite zipM_add_diff, zipM_sub_diff by congruence. auto.
    + unfold unit_add, unit_sub. now rewrite !unit_op_tags.
Qed.

Lemma ues_eqb_eq l : forall m, ues_eqb l m = true <-> l = m.
Proof.
  induction l as [|x l IH]; intros [|y m]; cbn [ues_eqb]; split; intros H; try discriminate; try reflexivity.
  - apply andb_true_iff in H. destruct H as [H1 H2]. apply ue_eqb_eq in H1. apply IH in H2. congruence.
  - injection H as -> ->. apply andb_true_iff. split; [now apply ue_eqb_eq|now apply IH].
Qed.

Lemma unit_eqb_eq a b : unit_eqb a b = true <-> a = b.
Proof.
  unfold unit_eqb. destruct a as [la ta], b as [lb tb]; cbn [u_exps u_tag]. rewrite andb_true_iff, ues_eqb_eq. split.
  - intros [H ->]. f_equal. lia.
  - intros H; injection H as -> ->. split; [lia|reflexivity].
Qed.

(** ** Order *)
Definition qltb (a b : uexp) : bool := ue_num a * ue_den b <? ue_num b * ue_den a.

Lemma qltb_irrefl a : qltb a a = false.
Proof. unfold qltb. lia. Qed.
Lemma qltb_trans a b c : valid a -> valid b -> valid c -> qltb a b = true -> qltb b c = true -> qltb a c = true.
Proof.
  intros (Da & _) (Db & _) (Dc & _). unfold qltb. rewrite !Z.ltb_lt. intros H1 H2.
  apply (Zmult_lt_reg_r _ _ (ue_den b)); [assumption|].
  assert (ue_num a * ue_den b * ue_den c < ue_num b * ue_den a * ue_den c) by (apply Zmult_lt_compat_r; assumption).
  assert (ue_num b * ue_den c * ue_den a < ue_num c * ue_den b * ue_den a) by (apply Zmult_lt_compat_r; assumption).
  nia.
Qed.
Lemma qltb_total a b : valid a -> valid b -> qltb a b = false -> qltb b a = false -> a = b.
Proof. intros Va Vb. unfold qltb. intros. apply valid_unique; try assumption. lia. Qed.

Lemma qltb_Qlt a b : 0 < ue_den a -> 0 < ue_den b -> (qltb a b = true <-> (q_of a < q_of b)%Q).
Proof.
  intros Ha Hb. unfold q_of, qltb.
  destruct a as [na da], b as [nb db]; cbn [ue_num ue_den] in *.
  destruct da as [|pa|pa]; try lia. destruct db as [|pb|pb]; try lia.
  unfold Qlt, Qdiv, Qinv, inject_Z; cbn. rewrite !Z.mul_1_r. rewrite Z.ltb_lt. reflexivity.
Qed.

Fixpoint lexb (l m : list uexp) : bool :=
  match l, m with
  | x :: l', y :: m' => if qltb x y then true else if qltb y x then false else lexb l' m'
  | [], _ :: _ => true
  | _, [] => false
  end.

Lemma ues_lt_small l : forall m, Forall valid l -> Forall valid m -> Forall small l -> Forall small m -> ues_lt l m = Ok (lexb l m).
Proof.
  induction l as [|x l IH]; intros [|y m] Vl Vm Sl Sm; cbn [ues_lt lexb]; try reflexivity.
  inversion Vl; inversion Vm; inversion Sl; inversion Sm; subst.
  rewrite !ue_lt_small by assumption. cbn [bind]. fold (qltb x y). fold (qltb y x).
  destruct (qltb x y); [reflexivity|]. destruct (qltb y x); [reflexivity|]. now apply IH.
Qed.

(** Without the size restriction: if the comparison is defined it is this one. *)
Lemma ues_lt_value l : forall m r, Forall valid l -> Forall valid m -> ues_lt l m = Ok r -> r = lexb l m.
Proof.
  induction l as [|x l IH]; intros [|y m] r Vl Vm; cbn [ues_lt lexb]; try (intros H; injection H as <-; reflexivity).
  apply Forall_cons_iff in Vl, Vm. destruct Vl as [Vx Vl], Vm as [Vy Vm].
  destruct (ue_lt x y) as [b| |] eqn:E1; cbn [bind]; try discriminate.
  apply ue_lt_value in E1; try assumption. fold (qltb x y) in E1. subst b.
  destruct (qltb x y); [intros H; injection H as <-; reflexivity|].
  destruct (ue_lt y x) as [b| |] eqn:E2; cbn [bind]; try discriminate.
  apply ue_lt_value in E2; try assumption. fold (qltb y x) in E2. subst b.
  destruct (qltb y x); [intros H; injection H as <-; reflexivity|]. now apply IH.
Qed.

Lemma lexb_irrefl l : lexb l l = false.
Proof. induction l as [|x l IH]; [reflexivity|]. cbn [lexb]. now rewrite qltb_irrefl. Qed.

Lemma lexb_total l : forall m, length l = length m -> Forall valid l -> Forall valid m ->
  lexb l m = false -> lexb m l = false -> l = m.
Proof.
  induction l as [|x l IH]; intros [|y m] Hl Vl Vm H1 H2; simpl in Hl; try lia; [reflexivity|].
  apply Forall_cons_iff in Vl, Vm. destruct Vl as [Vx Vl], Vm as [Vy Vm]. cbn [lexb] in H1, H2.
  destruct (qltb x y) eqn:Exy; [discriminate|]. destruct (qltb y x) eqn:Eyx; [discriminate|].
  rewrite (qltb_total x y) by assumption. f_equal. apply IH; try assumption; lia.
Qed.

Lemma lexb_trans l : forall m n, length l = length m -> length m = length n ->
  Forall valid l -> Forall valid m -> Forall valid n -> lexb l m = true -> lexb m n = true -> lexb l n = true.
Proof.
  induction l as [|x l IH]; intros [|y m] [|z n] H1 H2 Vl Vm Vn E1 E2; simpl in H1, H2; try lia; try discriminate.
  apply Forall_cons_iff in Vl, Vm, Vn. destruct Vl as [Vx Vl], Vm as [Vy Vm], Vn as [Vz Vn].
  cbn [lexb] in *.
  destruct (qltb x y) eqn:Exy.
  - destruct (qltb y z) eqn:Eyz; [now rewrite (qltb_trans x y z)|].
    destruct (qltb z y) eqn:Ezy; [discriminate|].
    rewrite (qltb_total y z Vy Vz Eyz Ezy) in Exy. now rewrite Exy.
  - destruct (qltb y x) eqn:Eyx; [discriminate|]. rewrite (qltb_total x y Vx Vy Exy Eyx).
    destruct (qltb y z); [reflexivity|]. destruct (qltb z y); [discriminate|].
    apply (IH m n); try assumption; lia.
Qed.

Definition ultb (a b : unit_t) : bool :=
  if negb (u_tag a =? u_tag b) then u_tag a <? u_tag b else lexb (u_exps a) (u_exps b).

Lemma unit_lt_small a b : valid_unit a -> valid_unit b -> small_unit a -> small_unit b -> unit_lt a b = Ok (ultb a b).
Proof.
  intros [_ Va] [_ Vb] Sa Sb. unfold unit_lt, ultb. destruct (negb (u_tag a =? u_tag b)); [reflexivity|].
  now apply ues_lt_small.
Qed.

Lemma unit_lt_value a b r : valid_unit a -> valid_unit b -> unit_lt a b = Ok r -> r = ultb a b.
Proof.
  intros [_ Va] [_ Vb]. unfold unit_lt, ultb. destruct (negb (u_tag a =? u_tag b)); [intros H; injection H as <-; reflexivity|].
  now apply ues_lt_value.
Qed.

Lemma ultb_irrefl a : ultb a a = false.
Proof. unfold ultb. rewrite Z.eqb_refl. apply lexb_irrefl. Qed.

Lemma ultb_total a b : valid_unit a -> valid_unit b -> ultb a b = false -> ultb b a = false -> a = b.
Proof.
  intros [La Va] [Lb Vb]. unfold ultb. rewrite (Z.eqb_sym (u_tag b)).
  destruct (Z.eqb_spec (u_tag a) (u_tag b)) as [E|E]; cbn [negb]; [|lia].
  intros H1 H2. destruct a as [la ta], b as [lb tb]; cbn in *. subst tb. f_equal. apply lexb_total; congruence || assumption.
Qed.

Lemma ultb_trans a b c : valid_unit a -> valid_unit b -> valid_unit c -> ultb a b = true -> ultb b c = true -> ultb a c = true.
Proof.
  intros [La Va] [Lb Vb] [Lc Vc]. unfold ultb.
  destruct (Z.eqb_spec (u_tag a) (u_tag b)) as [E|E]; cbn [negb];
  destruct (Z.eqb_spec (u_tag b) (u_tag c)) as [E'|E']; cbn [negb];
  destruct (Z.eqb_spec (u_tag a) (u_tag c)) as [E''|E'']; cbn [negb]; try lia.
  apply lexb_trans; congruence || assumption.
Qed.

Lemma ultb_asym a b : valid_unit a -> valid_unit b -> ultb a b = true -> ultb b a = false.
Proof.
  intros Va Vb H. destruct (ultb b a) eqn:E; [|reflexivity].
  pose proof (ultb_trans a b a Va Vb Va H E) as X. now rewrite ultb_irrefl in X.
Qed.

(** Physics domains *)
Definition pltb (a b : pdomain) : bool :=
  if pd_rank a <? pd_rank b then true else if pd_rank b <? pd_rank a then false
  else if ultb (pd_in a) (pd_in b) then true else if ultb (pd_in b) (pd_in a) then false
  else ultb (pd_out a) (pd_out b).

Lemma pd_lt_small a b : valid_pd a -> valid_pd b -> small_pd a -> small_pd b -> pd_lt a b = Ok (pltb a b).
Proof.
  intros [Va Va'] [Vb Vb'] [Sa Sa'] [Sb Sb']. unfold pd_lt, pltb.
  destruct (pd_rank a <? pd_rank b); [reflexivity|]. destruct (pd_rank b <? pd_rank a); [reflexivity|].
  rewrite !unit_lt_small by assumption. cbn [bind]. destruct (ultb (pd_in a) (pd_in b)); [reflexivity|].
  destruct (ultb (pd_in b) (pd_in a)); reflexivity.
Qed.

Lemma pd_lt_value a b r : valid_pd a -> valid_pd b -> pd_lt a b = Ok r -> r = pltb a b.
Proof.
  intros [Va Va'] [Vb Vb']. unfold pd_lt, pltb.
  destruct (pd_rank a <? pd_rank b); [intros H; injection H as <-; reflexivity|].
  destruct (pd_rank b <? pd_rank a); [intros H; injection H as <-; reflexivity|].
  destruct (unit_lt (pd_in a) (pd_in b)) as [x| |] eqn:E1; cbn [bind]; try discriminate.
  apply unit_lt_value in E1; try assumption. subst x.
  destruct (ultb (pd_in a) (pd_in b)); [intros H; injection H as <-; reflexivity|].
  destruct (unit_lt (pd_in b) (pd_in a)) as [x| |] eqn:E2; cbn [bind]; try discriminate.
  apply unit_lt_value in E2; try assumption. subst x.
  destruct (ultb (pd_in b) (pd_in a)); [intros H; injection H as <-; reflexivity|]. now apply unit_lt_value.
Qed.

Lemma pltb_irrefl a : pltb a a = false.
Proof. unfold pltb. now rewrite Z.ltb_irrefl, !ultb_irrefl. Qed.

Lemma pltb_total a b : valid_pd a -> valid_pd b -> pltb a b = false -> pltb b a = false ->
  pd_rank a = pd_rank b /\ pd_in a = pd_in b /\ pd_out a = pd_out b.
Proof.
  intros [Va Va'] [Vb Vb']. unfold pltb.
  destruct (Z.ltb_spec (pd_rank a) (pd_rank b)); [discriminate|]. destruct (Z.ltb_spec (pd_rank b) (pd_rank a)); [discriminate|].
  destruct (ultb (pd_in a) (pd_in b)) eqn:E1; [discriminate|]. destruct (ultb (pd_in b) (pd_in a)) eqn:E2; [discriminate|].
  intros H1 H2. split; [lia|]. split; now apply ultb_total.
Qed.

Lemma pltb_trans a b c : valid_pd a -> valid_pd b -> valid_pd c -> pltb a b = true -> pltb b c = true -> pltb a c = true.
Proof.
  intros [Va Va'] [Vb Vb'] [Vc Vc']. unfold pltb.
  destruct (Z.ltb_spec (pd_rank a) (pd_rank b)); destruct (Z.ltb_spec (pd_rank b) (pd_rank a)); try lia; try discriminate;
  destruct (Z.ltb_spec (pd_rank b) (pd_rank c)); destruct (Z.ltb_spec (pd_rank c) (pd_rank b)); try lia; try discriminate;
  destruct (Z.ltb_spec (pd_rank a) (pd_rank c)); destruct (Z.ltb_spec (pd_rank c) (pd_rank a)); try lia; try reflexivity.
  destruct (ultb (pd_in a) (pd_in b)) eqn:Eab.
  - intros _. destruct (ultb (pd_in b) (pd_in c)) eqn:Ebc.
    + intros _. now rewrite (ultb_trans _ (pd_in b)).
    + destruct (ultb (pd_in c) (pd_in b)) eqn:Ecb; [discriminate|].
      intros _. rewrite <- (ultb_total _ _ Vb Vc Ebc Ecb). now rewrite Eab.
  - destruct (ultb (pd_in b) (pd_in a)) eqn:Eba; [discriminate|]. intros H5.
    rewrite (ultb_total _ _ Va Vb Eab Eba). destruct (ultb (pd_in b) (pd_in c)); [reflexivity|].
    destruct (ultb (pd_in c) (pd_in b)); [discriminate|]. intros H6. now apply (ultb_trans _ (pd_out b)).
Qed.

Lemma pd_eqb_eq a b : pd_eqb a b = true <-> pd_rank a = pd_rank b /\ pd_in a = pd_in b /\ pd_out a = pd_out b.
Proof. unfold pd_eqb. rewrite !andb_true_iff, !unit_eqb_eq, Z.eqb_eq. tauto. Qed.

(** ** Reachable units, and the orders packaged *)
Lemma reach_unit_valid u : reach_unit u -> valid_unit u.
Proof.
  induction 1 as [t|i t|es t L F|a b c Ha IHa Hb IHb H|a b c Ha IHa Hb IHb H|a b c Ha IHa Hb IHb H|a b c Ha IHa Hb IHb H].
  - apply valid_unitless.
  - apply valid_base.
  - split; [exact L|]. cbn [u_exps]. eapply Forall_impl; [|exact F]. exact reach_exp_valid.
  - now apply (unit_mul_spec a b).
  - now apply (unit_div_spec a b).
  - destruct (unit_addsub a b (proj1 IHa) (proj1 IHb)) as [X Y].
    destruct (unit_eqb a b) eqn:E.
    + apply unit_eqb_eq in E. destruct (X E) as [X1 _]. rewrite X1 in H. injection H as <-. exact IHa.
    + assert (N : a <> b) by (intros ->; now rewrite (proj2 (unit_eqb_eq b b) eq_refl) in E).
      destruct (Y N) as [Y1 _]. rewrite Y1 in H. discriminate.
  - destruct (unit_addsub a b (proj1 IHa) (proj1 IHb)) as [X Y].
    destruct (unit_eqb a b) eqn:E.
    + apply unit_eqb_eq in E. destruct (X E) as [_ X1]. rewrite X1 in H. injection H as <-. exact IHa.
    + assert (N : a <> b) by (intros ->; now rewrite (proj2 (unit_eqb_eq b b) eq_refl) in E).
      destruct (Y N) as [_ Y1]. rewrite Y1 in H. discriminate.
Qed.

Lemma unit_order : strict_total_order (fun u => valid_unit u /\ small_unit u) unit_lt eq.
Proof.
  split; [|split; [|split]].
  - intros a b [Va Sa] [Vb Sb]. rewrite unit_lt_small by assumption. destruct (ultb a b); auto.
  - intros a [Va Sa]. rewrite unit_lt_small by assumption. now rewrite ultb_irrefl.
  - intros a b c [Va Sa] [Vb Sb] [Vc Sc]. rewrite !unit_lt_small by assumption. intros H1 H2.
    f_equal. apply (ultb_trans a b c); congruence || assumption.
  - intros a b [Va Sa] [Vb Sb]. rewrite !unit_lt_small by assumption. split.
    + intros [H1 H2]. apply ultb_total; congruence || assumption.
    + intros <-. now rewrite ultb_irrefl.
Qed.

Lemma pd_order : strict_total_order (fun d => valid_pd d /\ small_pd d) pd_lt (fun a b => pd_eqb a b = true).
Proof.
  split; [|split; [|split]].
  - intros a b [Va Sa] [Vb Sb]. rewrite pd_lt_small by assumption. destruct (pltb a b); auto.
  - intros a [Va Sa]. rewrite pd_lt_small by assumption. now rewrite pltb_irrefl.
  - intros a b c [Va Sa] [Vb Sb] [Vc Sc]. rewrite !pd_lt_small by assumption. intros H1 H2.
    f_equal. apply (pltb_trans a b c); congruence || assumption.
  - intros a b [Va Sa] [Vb Sb]. rewrite !pd_lt_small by assumption. rewrite pd_eqb_eq. split.
    + intros [H1 H2]. apply pltb_total; congruence || assumption.
    + intros (H1 & H2 & H3). unfold pltb. rewrite H1, H2, H3. rewrite Z.ltb_irrefl, !ultb_irrefl. auto.
Qed.

Lemma unit_lt_trans_general a b c :
  valid_unit a -> valid_unit b -> valid_unit c -> unit_lt a b = Ok true -> unit_lt b c = Ok true ->
  unit_lt a c <> Ok false /\ unit_lt b a <> Ok true.
Proof.
  intros Va Vb Vc H1 H2. apply unit_lt_value in H1, H2; try assumption. split; intros H; apply unit_lt_value in H; try assumption.
  - rewrite (ultb_trans a b c) in H; try assumption; congruence.
  - rewrite ultb_asym in H; try assumption; congruence.
Qed.

Lemma ue_lt_Q a b r : valid a -> valid b -> ue_lt a b = Ok r -> (r = true <-> (q_of a < q_of b)%Q).
Proof.
  intros Va Vb H. apply ue_lt_value in H; try assumption. fold (qltb a b) in H. subst r. apply qltb_Qlt; [apply Va|apply Vb].
Qed.

Lemma pd_make_spec rank i o name d w :
  pd_make rank i o name = Ok (d, w) -> valid_unit i -> valid_unit o ->
  d = mk_pd rank i o name /\ u_tag i = u_tag o /\
  (w = false <-> u_tag i = 0 /\ forall k, (k < nb_units)%nat ->
     (q_of (ex i k) + q_of (ex o k) == nth k [-1; 1; -2; 0; 0; 0; 0] 0)%Q).
Proof.
  unfold pd_make. intros H Vi Vo.
  destruct (unit_mul i o) as [p| |] eqn:E; cbn [bind] in H; try discriminate.
  destruct energy_density as [ed| |] eqn:Ed; cbn [bind] in H; try discriminate. injection H as <- <-.
  destruct (unit_mul_spec i o p Vi Vo E) as (Vp & Tp & To & Q).
  split; [reflexivity|]. split; [congruence|].
  vm_compute in Ed. injection Ed as <-.
  set (ed := {| u_exps := _; u_tag := 0 |}).
  assert (Ved : valid_unit ed).
  { split; [reflexivity|]. cbn [u_exps ed]. unfold ed; cbn [u_exps].
    repeat (apply Forall_cons; [unfold valid, int_ok; cbn; lia|]). apply Forall_nil. }
  assert (Qed_ : forall k, (k < nb_units)%nat -> (q_of (ex ed k) == nth k [-1; 1; -2; 0; 0; 0; 0] 0)%Q).
  { intros k Hk. unfold nb_units in Hk. destruct k as [|[|[|[|[|[|[|k]]]]]]]; try lia; reflexivity. }
  split.
  - intros H. apply negb_false_iff, unit_eqb_eq in H. subst p. split; [now rewrite <- Tp|].
    intros k Hk. rewrite <- Q by exact Hk. now apply Qed_.
  - intros [T H]. apply negb_false_iff, unit_eqb_eq. apply unit_eq_q; try assumption; [now rewrite Tp|].
    intros k Hk. rewrite Q, Qed_ by exact Hk. now apply H.
Qed.

(** Units of the library, tag by tag. *)
Definition named_unit (tag : Z) (l : list Z) : unit_t := mk_unit (map (fun z => mk_ue z 1) l) tag.
Ltac library_unit :=
  unfold u_mass, u_length, u_time, u_temperature, base_unit, unitless; cbn [u_tag]; rewrite ?Z.eqb_refl; cbn [negb bind];
  repeat (match goal with |- context[zipM ?f ?l ?m] => let v := eval vm_compute in (zipM f l m) in change (zipM f l m) with v end;
          cbn [bind u_tag u_exps]; rewrite ?Z.eqb_refl; cbn [negb bind]).
Lemma force_units tag : u_force tag = Ok (named_unit tag [1; 1; -2; 0; 0; 0; 0]).
Proof. unfold u_force, unit_mul, unit_div, unit_op. library_unit. reflexivity. Qed.
Lemma stress_units tag : u_stress tag = Ok (named_unit tag [-1; 1; -2; 0; 0; 0; 0]).
Proof.
  unfold u_stress. rewrite force_units. cbn [bind]. unfold unit_div, unit_op, named_unit. cbn [map]. library_unit. reflexivity.
Qed.
Lemma mechanics_units tag : exists w, pd_mechanics tag = Ok (mk_pd 2 (unitless tag) (named_unit tag [-1; 1; -2; 0; 0; 0; 0]) 0, w).
Proof.
  unfold pd_mechanics. rewrite stress_units. cbn [bind]. unfold pd_make, unit_mul, unit_op, named_unit. cbn [map]. library_unit.
  match goal with |- context[energy_density] => let v := eval vm_compute in energy_density in change energy_density with v end.
  cbn [bind]. eexists. reflexivity.
Qed.
Lemma heat_units tag : pd_heat tag = Ok (mk_pd 1 (named_unit tag [-1; 0; 0; 1; 0; 0; 0]) (named_unit tag [0; 1; -3; 0; 0; 0; 0]) 1, true).
Proof.
  unfold pd_heat, pd_make, unit_mul, unit_div, unit_op. library_unit.
  match goal with |- context[energy_density] => let v := eval vm_compute in energy_density in change energy_density with v end.
  cbn [bind]. unfold unit_eqb. cbn [u_exps]. match goal with |- context[ues_eqb ?a ?b] => change (ues_eqb a b) with false end.
  rewrite andb_false_r. reflexivity.
Qed.
Lemma mechanics_tag_warns tag : tag <> 0 -> exists d, pd_mechanics tag = Ok (d, true).
Proof.
  intros H. unfold pd_mechanics, u_stress, u_force, pd_make, unit_mul, unit_div, unit_op.
  unfold u_mass, u_length, u_time, base_unit, unitless. cbn [u_tag].
  rewrite Z.eqb_refl. cbn [negb bind].
  repeat (match goal with |- context[zipM ?f ?l ?m] => let v := eval vm_compute in (zipM f l m) in change (zipM f l m) with v end;
          cbn [bind u_tag u_exps]; rewrite ?Z.eqb_refl; cbn [negb bind]).
  match goal with |- context[energy_density] => let v := eval vm_compute in energy_density in change energy_density with v end.
  cbn [bind]. eexists. unfold unit_eqb. cbn [u_tag]. replace (tag =? 0) with false by lia. reflexivity.
Qed.
