(** The gradient operator computes the derivative of the discretisation. *)
From Coq Require Import ZArith Ring Permutation.
From Verif Require Import Base GridModel GridSpec GridProofs3 RingModel RingProofs GradModel GradSpec GradProofs GradProofs2.
Local Open Scope list_scope.

Lemma mapM_ok {A B} (f : A -> res B) (g : A -> B) l : (forall x, In x l -> f x = Ok (g x)) -> mapM f l = Ok (map g l).
Proof.
  induction l as [|x l IH]; intros H; [reflexivity|]. cbn [mapM map]. rewrite (H x) by now left. cbn [bind]. rewrite IH by (intros; apply H; now right). reflexivity.
Qed.
Lemma concat_nth {B} (l : list (list B)) n i k d : Forall (fun e => length e = n) l -> (i < length l)%nat -> (k < n)%nat ->
  nth (i * n + k) (concat l) d = nth k (nth i l []) d.
Proof.
  intros F. revert i. induction F as [|x l Hx F IH]; intros i Hi Hk; [cbn in Hi; lia|]. destruct i as [|i]; cbn [concat nth].
  - rewrite app_nth1; [reflexivity|]. lia.
  - cbn [length] in Hi. rewrite app_nth2 by lia. replace (S i * n + k - length x)%nat with (i * n + k)%nat by lia. apply IH; [lia|exact Hk].
Qed.
Lemma concat_length_uniform {B} (l : list (list B)) n : Forall (fun e => length e = n) l -> length (concat l) = (length l * n)%nat.
Proof. induction 1 as [|x l Hx F IH]; [reflexivity|]. cbn [concat length]. rewrite app_length, IH. lia. Qed.

(** Binary digits. *)
Fixpoint bin (l : list Z) : Z := match l with [] => 0 | x :: r => x + 2 * bin r end.
Fixpoint bits (n : nat) (i : nat) : list Z := match n with O => [] | S k => Z.of_nat (i mod 2) :: bits k (i / 2) end.
Definition bit_list (sd : nat) (l : list Z) : Prop := length l = sd /\ forall k, (k < sd)%nat -> 0 <= zn l k <= 1.

Lemma bit_list_cons sd x l : bit_list (S sd) (x :: l) -> 0 <= x <= 1 /\ bit_list sd l.
Proof. intros (H1 & H2). split; [apply (H2 0%nat); lia|]. split; [cbn in H1; lia|]. intros k Hk. apply (H2 (S k)). lia. Qed.
Lemma bits_list sd : forall i, bit_list sd (bits sd i).
Proof.
  induction sd as [|sd IH]; intros i; [split; [reflexivity|intros k Hk; lia]|]. destruct (IH (i / 2)%nat) as (H1 & H2). split; [cbn [bits length]; now rewrite H1|].
  intros [|k] Hk; cbn [bits zn nth]; [|apply H2; lia]. pose proof (Nat.mod_upper_bound i 2 ltac:(lia)). unfold zn. cbn [nth]. lia.
Qed.
Lemma bin_bounds sd : forall l, bit_list sd l -> 0 <= bin l < Z.of_nat (2 ^ sd).
Proof.
  induction sd as [|sd IH]; intros [|x l] H; [cbn; lia|destruct H as (H & _); cbn in H; lia|destruct H as (H & _); cbn in H; lia|].
  apply bit_list_cons in H. destruct H as (H1 & H2). specialize (IH l H2). cbn [bin Nat.pow]. lia.
Qed.
Lemma bits_bin sd : forall l, bit_list sd l -> bits sd (Z.to_nat (bin l)) = l.
Proof.
  induction sd as [|sd IH]; intros [|x l] H; [reflexivity|destruct H as (H & _); cbn in H; lia|destruct H as (H & _); cbn in H; lia|].
  apply bit_list_cons in H. destruct H as (H1 & H2). pose proof (bin_bounds sd l H2) as Hb. cbn [bin bits].
  replace (Z.to_nat (x + 2 * bin l)) with (Z.to_nat x + Z.to_nat (bin l) * 2)%nat by lia. rewrite Nat.mod_add, Nat.div_add by lia.
  rewrite Nat.mod_small, (Nat.div_small (Z.to_nat x)) by lia. cbn [Nat.add]. rewrite IH by exact H2. f_equal. lia.
Qed.
Lemma linear_index_bin npn node offs : linear_index npn node offs = node + Z.of_nat npn * bin offs.
Proof.
  unfold linear_index. generalize (Z.of_nat npn) as s. revert node. induction offs as [|x l IH]; intros nd s; cbn [fold_left fst snd bin]; [lia|]. rewrite IH. ring.
Qed.

Lemma stencil_value sd : (1 <= sd <= 3)%nat -> stencil sd = Ok (map (fun i => (i, bits sd i)) (seq 0 (2 ^ sd))).
Proof. intros H. assert (sd = 1 \/ sd = 2 \/ sd = 3)%nat as [->|[->| ->]] by lia; vm_compute; reflexivity. Qed.

Lemma combine_zrange {A} (l : list A) d : combine (zrange (length l)) l = map (fun k => (Z.of_nat k, nth k l d)) (seq 0 (length l)).
Proof.
  apply (nth_ext _ _ (0, d) (0, d)); [rewrite combine_length, zrange_length, map_length, seq_length; lia|].
  intros i Hi. rewrite combine_length, zrange_length, Nat.min_id in Hi. rewrite combine_nth by now rewrite zrange_length. rewrite zrange_nth by exact Hi. now rewrite nth_map_seq by exact Hi.
Qed.

(** The grid. *)
Lemma grid_good n p : grid_of n p -> px_good p /\ px_nb p = n /\ px_loc p = repeat 0 (length n) /\ length (px_strides p) = length n.
Proof.
  intros (Hp & [E|(axes & s & H1 & H2 & H3 & H4)]).
  - split; [now apply (px_good_default n [])|]. apply pixels_default_fields in E. destruct E as (E1 & E2 & E3 & E4 & E5 & E6 & E7). rewrite E1. split; [reflexivity|]. split; [exact E2|]. rewrite E3. apply GridProofs2.col_major_strides_length.
  - split; [now apply (px_good_strided axes n [] s)|]. apply pixels_strided_fields in H2. destruct H2 as (E1 & E2 & E3 & E4 & E5 & E6 & E7). rewrite E1. split; [reflexivity|]. split; [exact E2|]. now rewrite E3.
Qed.
