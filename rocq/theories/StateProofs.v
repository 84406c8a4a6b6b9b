(** Proofs about state fields. *)
From Coq Require Import String Ascii NArith DecimalString.
From Verif Require Import Base CIntModel GridModel GridSpec StridedModel UnitsModel LayoutModel LayoutSpec LayoutProofs.
From Verif Require Import FieldModel FieldSpec FieldProofs RegistryModel RegistrySpec RegistryProofs RegistryProofs2 RegistryProofs3 RegistryProofs4.
From Verif Require Import StateModel StateSpec.
Local Open Scope Z_scope.
Local Open Scope list_scope.

(** ** Initial indices *)
Lemma init_length mem : 0 <= mem -> length (init_indices mem) = Z.to_nat (mem + 1).
Proof. intros H. unfold init_indices, zrange. now rewrite !map_length, seq_length. Qed.

Lemma init_nth mem i : (i < Z.to_nat (mem + 1))%nat -> nth_error (init_indices mem) i = Some (Z.land (mem + 1 - Z.of_nat i) mem).
Proof.
  intros H. unfold init_indices, zrange. rewrite map_map, nth_error_map.
  rewrite (nth_error_nth' _ 0%nat) by (rewrite seq_length; exact H). rewrite seq_nth by exact H. reflexivity.
Qed.

Lemma land_range x mem : 0 <= mem -> 0 <= Z.land x mem <= mem.
Proof.
  intros H. split; [apply Z.land_nonneg; auto|]. rewrite Z.land_comm.
  rewrite <- (Z.lor_ldiff_and mem x) at 2.
  assert (E : Z.lor (Z.ldiff mem x) (Z.land mem x) = Z.ldiff mem x + Z.land mem x).
  { rewrite <- Z.lxor_lor; [rewrite <- Z.add_nocarry_lxor; [reflexivity|]|];
    apply Z.bits_inj'; intros k _; rewrite !Z.land_spec, Z.ldiff_spec, Z.bits_0; destruct (Z.testbit mem k), (Z.testbit x k); reflexivity. }
  rewrite E. assert (0 <= Z.ldiff mem x) by (apply Z.ldiff_nonneg; auto). lia.
Qed.

Lemma init_in_range mem v : 0 <= mem -> In v (init_indices mem) -> 0 <= v <= mem.
Proof. intros H I. unfold init_indices in I. apply in_map_iff in I. destruct I as (i & <- & _). now apply land_range. Qed.

Lemma land_pow2 mem x : power_of_two (mem + 1) -> Z.land x mem = x mod (mem + 1).
Proof.
  intros (p & Hp & E). replace mem with (Z.ones p) by (rewrite Z.ones_equiv; lia). rewrite Z.land_ones by exact Hp. rewrite Z.ones_equiv. f_equal. lia.
Qed.

Lemma init_pow2 mem i : power_of_two (mem + 1) -> (i < Z.to_nat (mem + 1))%nat ->
  nth_error (init_indices mem) i = Some ((- Z.of_nat i) mod (mem + 1)).
Proof.
  intros P H. rewrite init_nth by exact H. rewrite land_pow2 by exact P. f_equal.
  replace (mem + 1 - Z.of_nat i) with (- Z.of_nat i + 1 * (mem + 1)) by lia. apply Z.mod_add. lia.
Qed.

Lemma zero_bit mem : 1 <= mem -> ~ power_of_two (mem + 1) -> exists b, 0 <= b /\ Z.testbit mem b = false /\ 2 ^ b <= mem.
Proof.
  intros H N. pose proof (Z.log2_nonneg mem) as L0. pose proof (Z.log2_spec mem ltac:(lia)) as L.
  destruct (forallb (Z.testbit mem) (zrange (Z.to_nat (Z.log2 mem + 1)))) eqn:F.
  - exfalso. apply N. exists (Z.log2 mem + 1). split; [lia|]. rewrite forallb_forall in F.
    assert (E : mem = Z.ones (Z.log2 mem + 1)).
    { apply Z.bits_inj'. intros b Hb. rewrite Z.testbit_ones_nonneg by lia. destruct (Z.ltb_spec b (Z.log2 mem + 1)).
      - apply F. unfold zrange. apply in_map_iff. exists (Z.to_nat b). split; [lia|]. apply in_seq. lia.
      - apply Z.bits_above_log2; lia. }
    rewrite E at 1. rewrite Z.ones_equiv. lia.
  - assert (X : exists b, In b (zrange (Z.to_nat (Z.log2 mem + 1))) /\ Z.testbit mem b = false).
    { clear -F. induction (zrange _) as [|b l IH]; [discriminate|]. cbn in F. destruct (Z.testbit mem b) eqn:E.
      - destruct IH as (b' & I & E'); [exact F|]. exists b'. split; [now right|exact E'].
      - exists b. split; [now left|exact E]. }
    destruct X as (b & I & E). unfold zrange in I. apply in_map_iff in I. destruct I as (k & <- & I). apply in_seq in I.
    exists (Z.of_nat k). split; [lia|]. split; [exact E|]. assert (2 ^ Z.of_nat k <= 2 ^ Z.log2 mem) by (apply Z.pow_le_mono_r; lia). lia.
Qed.

Lemma dup_dec (l : list Z) : NoDup l \/ exists i j v, (i < j)%nat /\ nth_error l i = Some v /\ nth_error l j = Some v.
Proof.
  induction l as [|x l IH]; [left; constructor|]. destruct (in_dec Z.eq_dec x l) as [I|N].
  - right. apply In_nth_error in I. destruct I as [j E]. exists 0%nat, (S j), x. repeat split; [lia|exact E].
  - destruct IH as [D|(i & j & v & L & E1 & E2)]; [left; now constructor|]. right. exists (S i), (S j), v. repeat split; [lia|exact E1|exact E2].
Qed.

Lemma init_dup mem : 1 <= mem -> ~ power_of_two (mem + 1) ->
  exists i j v, (i < j <= Z.to_nat mem)%nat /\ nth_error (init_indices mem) i = Some v /\ nth_error (init_indices mem) j = Some v.
Proof.
  intros H N. destruct (dup_dec (init_indices mem)) as [D|(i & j & v & L & E1 & E2)].
  - exfalso. destruct (zero_bit mem H N) as (b & Hb & E & Lb).
    assert (I : incl (zrange (Z.to_nat (mem + 1))) (init_indices mem)).
    { apply NoDup_length_incl; [exact D|rewrite init_length by lia; unfold zrange; rewrite map_length, seq_length; lia|].
      intros v Hv. apply init_in_range in Hv; [|lia]. unfold zrange. apply in_map_iff. exists (Z.to_nat v). split; [lia|]. apply in_seq. lia. }
    assert (B : In (2 ^ b) (init_indices mem)).
    { apply I. unfold zrange. apply in_map_iff. exists (Z.to_nat (2 ^ b)). assert (0 < 2 ^ b) by (apply Z.pow_pos_nonneg; lia). split; [lia|]. apply in_seq. lia. }
    unfold init_indices in B. apply in_map_iff in B. destruct B as (x & B & _).
    assert (T : Z.testbit (Z.land (mem + 1 - x) mem) b = true) by (rewrite B; apply Z.pow2_bits_true; exact Hb).
    rewrite Z.land_spec, E, andb_false_r in T. discriminate.
  - exists i, j, v. repeat split; [lia| |exact E1|exact E2].
    assert (j < length (init_indices mem))%nat by (apply nth_error_Some; congruence). rewrite init_length in H0 by lia. lia.
Qed.

(** ** Names of sub-fields *)
Lemma split_last {B} (x : B) a : forall b u v, ~ In x a -> ~ In x b -> a ++ x :: u = b ++ x :: v -> a = b /\ u = v.
Proof.
  induction a as [|y a IH]; intros [|z b] u v Ha Hb E; cbn in *.
  - injection E as <-. auto.
  - injection E as <- _. tauto.
  - injection E as -> _. tauto.
  - injection E as -> E. destruct (IH b u v) as [-> ->]; tauto.
Qed.

Fixpoint chars (s : string) : list ascii := match s with EmptyString => [] | String a r => a :: chars r end.
Lemma chars_app s t : chars (s ++ t) = chars s ++ chars t.
Proof. induction s; cbn; congruence. Qed.
Lemma chars_inj s : forall t, chars s = chars t -> s = t.
Proof. induction s; intros [|]; cbn; try discriminate; [reflexivity|]. intros E. injection E as -> E. f_equal. auto. Qed.

Lemma uint_no_space d : ~ In " "%char (chars (NilEmpty.string_of_uint d)).
Proof. induction d; cbn; intros H; repeat (destruct H as [H|H]; [discriminate|]); auto. Qed.
Lemma decimal_no_space n : ~ In " "%char (chars (decimal n)).
Proof.
  unfold decimal, NilZero.string_of_uint. destruct (N.to_uint n) eqn:E; try (rewrite <- E; apply uint_no_space).
  cbn. intros [H|[]]. discriminate.
Qed.

Lemma sub_name_inj p q i j : sub_name p i = sub_name q j -> p = q /\ i = j.
Proof.
  intros E. apply (f_equal chars) in E. unfold sub_name in E. rewrite !chars_app in E.
  change (chars ", sub_field index ") with (chars ", sub_field index" ++ [" "%char]) in E.
  rewrite <- !app_assoc in E. apply (f_equal (@rev ascii)) in E. rewrite !rev_app_distr in E. cbn [rev app] in E. rewrite <- !app_assoc in E. cbn [app] in E.
  apply split_last in E; [|rewrite <- in_rev; apply decimal_no_space|rewrite <- in_rev; apply decimal_no_space].
  destruct E as [E1 E2]. apply (f_equal (@rev ascii)) in E1. rewrite !rev_involutive in E1. apply chars_inj, decimal_inj in E1.
  apply app_inv_head in E2. apply (f_equal (@rev ascii)) in E2. rewrite !rev_involutive in E2. apply chars_inj in E2. split; [exact E2|lia].
Qed.

Lemma in_sub_names p mem nm : In nm (sub_names p mem) <-> exists i, (i < Z.to_nat (mem + 1))%nat /\ nm = sub_name p i.
Proof.
  unfold sub_names. rewrite in_map_iff. split; intros (i & H1 & H2); exists i.
  - apply in_seq in H2. split; [lia|congruence].
  - split; [congruence|apply in_seq; lia].
Qed.
