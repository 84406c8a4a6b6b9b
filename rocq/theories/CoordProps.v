(** Properties of coordinates of runtime dimension ([DynCcoord]). *)
From Verif Require Import Base CoordModel CoordSpec CoordProofs.
Local Open Scope Z_scope.
Local Open Scope list_scope.

(** A coordinate can be built from exactly the lists that fit, and then holds
    that list; the three ways of construction agree. *)
Theorem C104_construction : forall M l,
  (if (length l <=? M)%nat then exists c, c_of_list M l = Ok c /\ holds M c l /\ c_of_array M l = c else c_of_list M l = Err RuntimeError) /\
  holds M (c_default M) [] /\
  (forall c k, holds M c k -> (length l <= M)%nat -> holds M (c_assign c l) l).
Proof.
  intros M l. split; [|split].
  - unfold c_of_list, c_of_array. destruct (Nat.leb_spec (length l) M).
    + destruct (Z.gtb_spec (Z.of_nat (length l)) (Z.of_nat M)); [lia|]. eexists. split; [reflexivity|]. split; [|reflexivity]. now apply holds_of_list.
    + destruct (Z.gtb_spec (Z.of_nat (length l)) (Z.of_nat M)); [reflexivity|lia].
  - repeat split. apply repeat_length.
  - intros c k (L & _) H. now apply assign_holds.
Qed.
Print Assumptions C104_construction.
Example C104_construction_ex :
  c_of_list 3 [4; 5] = Ok (mk_coord 2 [4; 5; 0]) /\ c_of_list 3 [1; 2; 3; 4] = Err RuntimeError.
Proof. split; reflexivity. Qed.

(** All ways of reading a coordinate give the entries of its list: as a vector,
    by index (in Python with the bounds checked), and the last one; [size] is the length. *)
Theorem C104_reading : forall M c l, holds M c l ->
  d_dim c = Z.of_nat (length l) /\
  c_to_vector c = Ok l /\
  c_get (length l) c = l /\
  (forall i, 0 <= i < Z.of_nat (length l) -> c_index c i = Ok (nth (Z.to_nat i) l 0)) /\
  (forall i, c_getitem c i = if (0 <=? i) && (i <? Z.of_nat (length l)) then Ok (nth (Z.to_nat i) l 0) else Err OutOfRange) /\
  (forall k x, l = k ++ [x] -> c_back c = Ok x).
Proof.
  intros M c l H. split; [exact (proj1 (proj2 H))|]. split; [exact (vector_holds M c l H)|]. split; [exact (proj2 (proj2 H))|].
  split; [intros i Hi; exact (arr_get_holds M c l i H Hi)|]. split; [exact (fun i => getitem_holds M c l i H)|].
  intros k x ->. exact (back_holds M c k x H).
Qed.
Print Assumptions C104_reading.
Example C104_reading_ex : let c := mk_coord 2 [4; 5; 9] in
  holds 3 c [4; 5] /\ c_to_vector c = Ok [4; 5] /\ c_getitem c 1 = Ok 5 /\ c_getitem c 2 = Err OutOfRange /\ c_back c = Ok 5.
Proof. repeat split. Qed.

(** Comparison decides equality of the lists, whatever is stored behind them. *)
Theorem C104_comparison : forall M a b la lb, holds M a la -> holds M b lb ->
  (exists q, c_eq a b = Ok q /\ (q = true <-> la = lb)) /\
  (forall l, c_eq_array a l = true <-> la = l).
Proof. intros M a b la lb Ha Hb. split; [exact (eq_holds M a b la lb Ha Hb)|]. intros l. exact (eq_array_holds M a la l Ha). Qed.
Print Assumptions C104_comparison.
Example C104_comparison_ex :
  c_eq (mk_coord 2 [4; 5; 9]) (mk_coord 2 [4; 5; 0]) = Ok true /\ c_eq (mk_coord 2 [4; 5; 0]) (mk_coord 3 [4; 5; 0]) = Ok false.
Proof. split; reflexivity. Qed.

(** Appending works until the capacity is used up. *)
Theorem C104_push_back : forall M c l v, holds M c l -> Z.of_nat M < 2 ^ 64 ->
  if (length l <? M)%nat then exists c', c_push_back M c v = Ok c' /\ holds M c' (l ++ [v]) else c_push_back M c v = Err RuntimeError.
Proof. exact push_holds. Qed.
Print Assumptions C104_push_back.
Example C104_push_back_ex : exists c, c_push_back 3 (mk_coord 2 [4; 5; 9]) 7 = Ok c /\ holds 3 c [4; 5; 7] /\ c_push_back 3 c 8 = Err RuntimeError.
Proof. eexists. split; [reflexivity|]. split; [repeat split|reflexivity]. Qed.

(** Sum, difference, quotient and remainder are taken entry by entry; for the
    first three different dimensions are refused. *)
Theorem C104_arithmetic : forall M a b la lb, holds M a la -> holds M b lb ->
  (match pointwise Z.add la lb with Some l => exists r, c_add M a b = Ok r /\ holds M r l | None => c_add M a b = Err RuntimeError end) /\
  (match pointwise Z.sub la lb with Some l => exists r, c_sub M a b = Ok r /\ holds M r l | None => c_sub M a b = Err RuntimeError end) /\
  (Forall (fun y => y <> 0) lb ->
   match pointwise Z.quot la lb with Some l => exists r, c_div M a b = Ok r /\ holds M r l | None => c_div M a b = Err RuntimeError end) /\
  (Forall (fun y => y <> 0) lb -> length la = length lb ->
   exists r l, c_mod a b = Ok r /\ holds M r l /\ pointwise Z.rem la lb = Some l).
Proof.
  intros M a b la lb Ha Hb. split; [|split; [|split]].
  - exact (zip_holds M _ Z.add a b la lb Ha Hb (fun _ _ _ => eq_refl)).
  - exact (zip_holds M _ Z.sub a b la lb Ha Hb (fun _ _ _ => eq_refl)).
  - intros Hz. apply (zip_holds M _ Z.quot a b la lb Ha Hb). intros j _ Hj.
    rewrite Forall_forall in Hz. destruct (Z.eqb_spec (zn lb j) 0) as [E|]; [|reflexivity].
    exfalso. apply (Hz (zn lb j)); [apply nth_In; exact Hj|exact E].
  - intros Hz HL. exact (mod_holds M a b la lb Ha Hb HL Hz).
Qed.
Print Assumptions C104_arithmetic.
Example C104_arithmetic_ex : let a := mk_coord 2 [-7; 5; 9] in let b := mk_coord 2 [3; 2; 1] in
  c_add 3 a b = Ok (mk_coord 2 [-4; 7; 0]) /\ c_sub 3 a b = Ok (mk_coord 2 [-10; 3; 0]) /\
  c_div 3 a b = Ok (mk_coord 2 [-2; 2; 0]) /\ c_mod a b = Ok (mk_coord 2 [-1; 1; 9]) /\
  c_add 3 a (mk_coord 3 [1; 1; 1]) = Err RuntimeError.
Proof. repeat split. Qed.

(** [ipow] is the power for exponents that are not negative. *)
Theorem C104_ipow : forall base exponent, 0 <= exponent -> ipow base exponent = base ^ exponent.
Proof. intros base e H. unfold ipow. rewrite ipow_loop_spec, Z2Nat.id by exact H. ring. Qed.
Print Assumptions C104_ipow.
Example C104_ipow_ex : ipow 3 4 = 81 /\ ipow (-2) 3 = -8.
Proof. split; reflexivity. Qed.

(** Converting to an array of another dimension does not respect equality: after
    assigning a shorter array, the old entries reappear. *)
Theorem C105_conversion_refuted :
  exists a b, c_of_list 3 [1; 2; 3] = Ok a /\ c_of_list 3 [4; 5] = Ok b /\
    c_eq (c_assign a [4; 5]) b = Ok true /\ c_get 3 (c_assign a [4; 5]) = [4; 5; 3] /\ c_get 3 b = [4; 5; 0].
Proof. eexists. eexists. repeat split. Qed.
Print Assumptions C105_conversion_refuted.

(** A coordinate made from a number has that number as its dimension without a
    check, and reading its last entry leaves the array. *)
Theorem C105_dimension_refuted :
  d_dim (c_of_dim 3 5) = 5 /\ c_getitem (c_of_dim 3 5) 4 = UB /\ c_to_vector (c_of_dim 3 5) = UB /\
  c_push_back 3 (c_of_dim 3 (-1)) 7 = Err RuntimeError /\ c_back (c_default 3) = UB.
Proof. repeat split. Qed.
Print Assumptions C105_dimension_refuted.

(** The remainder for different dimensions is not refused: the shorter decides,
    and the result keeps the unreduced entries of the first. *)
Theorem C105_modulo_refuted :
  c_mod (mk_coord 3 [7; 8; 9]) (mk_coord 2 [4; 5; 0]) = Ok (mk_coord 3 [3; 3; 9]).
Proof. reflexivity. Qed.
Print Assumptions C105_modulo_refuted.

(** [ipow] with a negative exponent is one. *)
Theorem C105_ipow_refuted : forall base exponent, exponent < 0 -> ipow base exponent = 1.
Proof. intros base e H. unfold ipow. replace (Z.to_nat e) with 0%nat by lia. reflexivity. Qed.
Print Assumptions C105_ipow_refuted.

(** What remains of it: for dimensions that fit, a coordinate made from a number
    holds that many zeros, so that everything above applies; and conversion to an
    array of the coordinate's own dimension does respect equality. *)
Theorem C105_conversion_partial : forall M a b la lb, holds M a la -> holds M b lb -> c_eq a b = Ok true ->
  c_get (length la) a = c_get (length la) b.
Proof.
  intros M a b la lb Ha Hb E. destruct (eq_holds M a b la lb Ha Hb) as (q & Eq & Sq). assert (X : la = lb) by (apply Sq; congruence).
  unfold c_get. rewrite (proj2 (proj2 Ha)). rewrite X. symmetry. exact (proj2 (proj2 Hb)).
Qed.
Print Assumptions C105_conversion_partial.
Theorem C105_dimension_partial : forall M d, 0 <= d <= Z.of_nat M -> holds M (c_of_dim M d) (repeat 0 (Z.to_nat d)).
Proof.
  intros M d H. repeat split; cbn [d_arr d_dim c_of_dim]; rewrite ?repeat_length; [reflexivity|lia|].
  replace M with (Z.to_nat d + (M - Z.to_nat d))%nat by lia. rewrite repeat_app, firstn_app_le by (rewrite repeat_length; lia).
  rewrite <- (repeat_length 0 (Z.to_nat d)) at 1. apply firstn_all.
Qed.
Print Assumptions C105_dimension_partial.
Example C105_dimension_partial_ex : holds 3 (c_of_dim 3 2) [0; 0].
Proof. exact (C105_dimension_partial 3 2 ltac:(lia)). Qed.
