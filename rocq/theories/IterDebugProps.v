(** C176: subscripts of arithmetic ranges in builds with assertions. *)
From Verif Require Import Base IterModel IterSpec IterProofs IterDebugModel.
Local Open Scope Z_scope.
Local Open Scope list_scope.

Lemma checked_steps start stop step i : step <> 0 ->
  arange_checked start stop step i = if Z.of_nat i * step <? steps start stop step * step then Some (Ok (start + Z.of_nat i * step)) else None.
Proof.
  intros N. unfold arange_checked, arange_at. destruct (Z.eqb_spec step 0) as [|_]; [contradiction|]. rewrite (arange_stop_multiple start stop step N).
  destruct (Z.ltb_spec (start + Z.of_nat i * step) (start + steps start stop step * step)), (Z.ltb_spec (Z.of_nat i * step) (steps start stop step * step)); auto; lia.
Qed.
Lemma size_steps start stop step l : step <> 0 -> (if 0 <? step then start <= stop else stop <= start) -> progression start stop step l -> steps start stop step = Z.of_nat (length l).
Proof.
  intros N B P. destruct (arange_access start stop step l N B P) as [E _]. unfold arange_size in E. destruct (Z.eqb_spec step 0) as [|_]; [contradiction|]. injection E as E. exact E.
Qed.

(** Ranges that go up: elements are given, other positions end the program. *)
Theorem C176_up_partial start stop step l i : 0 < step -> start <= stop -> progression start stop step l ->
  arange_checked start stop step i = option_map Ok (nth_error l i).
Proof.
  intros S B P. assert (N : step <> 0) by lia. assert (B' : if 0 <? step then start <= stop else stop <= start) by (destruct (Z.ltb_spec 0 step); lia).
  rewrite (checked_steps start stop step i N), (size_steps start stop step l N B' P).
  destruct (nth_error l i) as [v|] eqn:E.
  - destruct (arange_access start stop step l N B' P) as [_ A]. specialize (A i v E). unfold arange_at in A. destruct (Z.eqb_spec step 0) as [|_]; [contradiction|]. injection A as <-.
    assert (i < length l)%nat by (apply nth_error_Some; congruence). cbn [option_map]. destruct (Z.ltb_spec (Z.of_nat i * step) (Z.of_nat (length l) * step)) as [|H']; [reflexivity|].
    apply Z.mul_le_mono_pos_r in H'; lia.
  - apply nth_error_None in E. destruct (Z.ltb_spec (Z.of_nat i * step) (Z.of_nat (length l) * step)) as [H'|]; [|reflexivity]. apply Z.mul_lt_mono_pos_r in H'; lia.
Qed.
Print Assumptions C176_up_partial.

(** Ranges that go down: every element ends the program, as does the position after the
    last; all positions beyond it are let pass. *)
Theorem C176_down_refuted start stop step l i : step < 0 -> stop <= start -> progression start stop step l ->
  arange_checked start stop step i = if (i <=? length l)%nat then None else Some (Ok (start + Z.of_nat i * step)).
Proof.
  intros S B P. assert (N : step <> 0) by lia. assert (B' : if 0 <? step then start <= stop else stop <= start) by (destruct (Z.ltb_spec 0 step); lia).
  rewrite (checked_steps start stop step i N), (size_steps start stop step l N B' P).
  destruct (Nat.leb_spec i (length l)) as [L|L], (Z.ltb_spec (Z.of_nat i * step) (Z.of_nat (length l) * step)) as [H|H]; auto.
  - apply Z.mul_lt_mono_neg_r in H; lia.
  - apply Z.mul_le_mono_neg_r in H; lia.
Qed.
Print Assumptions C176_down_refuted.

Example C176_case : progression 2 9 3 [2; 5; 8] /\ arange_checked 2 9 3 2 = Some (Ok 8) /\ arange_checked 2 9 3 3 = None /\
  progression 5 0 (-2) [5; 3; 1] /\ arange_checked 5 0 (-2) 0 = None /\ arange_checked 5 0 (-2) 3 = None /\ arange_checked 5 0 (-2) 4 = Some (Ok (-3)).
Proof.
  assert (P : forall l : list Z, length l = 3%nat -> forall start stop step, (forall k, (k < 3)%nat -> nth_error l k = Some (start + Z.of_nat k * step)) ->
    (forall k, (k < 3)%nat <-> if 0 <? step then start + Z.of_nat k * step < stop else stop < start + Z.of_nat k * step) -> progression start stop step l).
  { intros l L start stop step V I. split; [|intros k; rewrite L; apply I]. intros k v E. assert (k < 3)%nat by (rewrite <- L; apply nth_error_Some; congruence). rewrite V in E by assumption. congruence. }
  split; [|split; [reflexivity|split; [reflexivity|split; [|repeat split; reflexivity]]]]; apply P; try reflexivity.
  1, 3: intros k K; destruct k as [|[|[|k]]]; try reflexivity; lia.
  all: intros k; cbn [Z.ltb Z.compare]; lia.
Qed.
