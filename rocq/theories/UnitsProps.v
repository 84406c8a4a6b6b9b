(** Properties C26-C30 and C46: physical units. *)
From Verif Require Import Base UnitsModel UnitsSpec UnitsProofs.
From Coq Require Import QArith.
Open Scope Z_scope.

(** C26: exponents are in lowest terms with a positive denominator. *)
Theorem C26_lowest_terms : forall e, reach_exp e ->
  0 < ue_den e /\ Z.gcd (ue_num e) (ue_den e) = 1.
Proof. intros e H. destruct (reach_exp_valid e H) as (A & B & _). exact (conj A B). Qed.
Print Assumptions C26_lowest_terms.
Example C26_lowest_terms_case : ue_make 6 (-4) = Ok (mk_ue (-3) 2) /\ reach_exp (mk_ue (-3) 2).
Proof. split; [vm_compute; reflexivity|]. apply (re_make 6 (-4)). vm_compute; reflexivity. Qed.

Theorem C26_equal_iff_same_rational : forall a b, reach_exp a -> reach_exp b ->
  (ue_eqb a b = true <-> (q_of a == q_of b)%Q).
Proof.
  intros a b Ha Hb. rewrite ue_eqb_eq. split; [intros ->; reflexivity|].
  apply valid_q_inj; now apply reach_exp_valid.
Qed.
Print Assumptions C26_equal_iff_same_rational.

(** What construction, multiplication and division of exponents denote. *)
Theorem C26_construction : forall num den, int_ok num -> int_ok den -> den <> 0 ->
  exists e, ue_make num den = Ok e /\ (q_of e == inject_Z num / inject_Z den)%Q.
Proof.
  intros num den Hn Hd Hz. destruct (ue_make_spec num den Hz Hn Hd) as (e & E & V & X & _).
  exists e. split; [exact E|]. now apply q_of_spec; [apply V| |].
Qed.
Print Assumptions C26_construction.

Theorem C26_operations : forall a b c, reach_exp a -> reach_exp b ->
  (ue_mul a b = Ok c -> (q_of c == q_of a + q_of b)%Q) /\ (ue_div a b = Ok c -> (q_of c == q_of a - q_of b)%Q).
Proof.
  intros a b c Ha Hb. apply reach_exp_valid in Ha, Hb.
  split; [apply q_of_mul|apply q_of_div]; (apply Ha || apply Hb).
Qed.
Print Assumptions C26_operations.
Example C26_operations_case :
  ue_mul (mk_ue 1 2) (mk_ue 1 6) = Ok (mk_ue 2 3) /\ ue_div (mk_ue 1 2) (mk_ue 1 6) = Ok (mk_ue 1 3).
Proof. split; vm_compute; reflexivity. Qed.

(** Operations on exponents of moderate size are always defined. *)
Theorem C26_no_overflow : forall a b, small a -> small b ->
  (exists c, ue_mul a b = Ok c) /\ (exists c, ue_div a b = Ok c).
Proof. intros a b Ha Hb. split; [now apply ue_mul_small|now apply ue_div_small]. Qed.
Print Assumptions C26_no_overflow.
Example C26_no_overflow_case : small (mk_ue (-32767) 2) /\ small (mk_ue 5 32767).
Proof. unfold small; cbn; lia. Qed.

Theorem C26_zero_denominator_rejected : forall num, ue_make num 0 = Err UnitError.
Proof. reflexivity. Qed.
Print Assumptions C26_zero_denominator_rejected.

(** Finding: the default constructor gives 0/0, which no later operation accepts. *)
Theorem C26_default_constructed_refuted :
  ~ 0 < ue_den ue_default /\
  forall e, - 2 ^ 31 < ue_den e < 2 ^ 31 -> - 2 ^ 31 < ue_num e < 2 ^ 31 ->
    ue_mul ue_default e = Err UnitError /\ ue_lt ue_default e = Err UnitError.
Proof.
  split; [cbn; lia|]. intros e Hd Hn. unfold ue_mul, ue_lt, ue_div, ue_default; cbn [ue_num ue_den].
  rewrite !Z.mul_0_l, !Z.mul_0_r. split; reflexivity.
Qed.
Print Assumptions C26_default_constructed_refuted.

(** Finding: products of representable exponents overflow [int]. *)
Theorem C26_overflow_refuted : exists a b, reach_exp a /\ reach_exp b /\ ue_mul a b = UB.
Proof.
  exists (mk_ue 1 65536), (mk_ue 1 65536). assert (R : reach_exp (mk_ue 1 65536)) by (apply (re_make 1 65536); vm_compute; reflexivity).
  split; [exact R|]. split; [exact R|]. vm_compute. reflexivity.
Qed.
Print Assumptions C26_overflow_refuted.

(** C27: the greatest common divisor. *)
Theorem C27_gcd : forall a b, - 2 ^ 31 < a < 2 ^ 31 -> - 2 ^ 31 < b < 2 ^ 31 ->
  exists g, compute_gcd a b = Ok g /\ 0 <= g /\ (g | a) /\ (g | b) /\ forall d, (d | a) -> (d | b) -> (d | g).
Proof.
  intros a b Ha Hb. exists (Z.gcd a b). split; [now apply compute_gcd_correct|]. split; [apply Z.gcd_nonneg|].
  split; [apply Z.gcd_divide_l|]. split; [apply Z.gcd_divide_r|]. intros d. apply Z.gcd_greatest.
Qed.
Print Assumptions C27_gcd.
Example C27_gcd_case : compute_gcd (-2147483646) 1431655764 = Ok 715827882.
Proof. vm_compute; reflexivity. Qed.

(** Termination: for all non-negative arguments of any size the recursion stops
    after at most the combined bit length, whatever larger bound is allowed. *)
Theorem C27_terminates : forall fuel a b, 0 <= a -> 0 <= b ->
  Z.log2 a + Z.log2 b < Z.of_nat fuel -> gcd_worker fuel a b = Some (Z.gcd a b).
Proof. exact gcd_worker_correct. Qed.
Print Assumptions C27_terminates.

Theorem C27_smallest_int_refuted : compute_gcd (- 2 ^ 31) 6 = UB.
Proof. vm_compute; reflexivity. Qed.
Print Assumptions C27_smallest_int_refuted.

(** C28: units of one tag form a commutative group. *)
Theorem C28_reachable_valid : forall u, reach_unit u -> valid_unit u.
Proof. exact reach_unit_valid. Qed.
Print Assumptions C28_reachable_valid.

Theorem C28_commutative : forall a b x y, valid_unit a -> valid_unit b ->
  unit_mul a b = Ok x -> unit_mul b a = Ok y -> x = y.
Proof. exact unit_mul_comm. Qed.
Print Assumptions C28_commutative.

Theorem C28_associative : forall a b c ab bc x y, valid_unit a -> valid_unit b -> valid_unit c ->
  unit_mul a b = Ok ab -> unit_mul ab c = Ok x -> unit_mul b c = Ok bc -> unit_mul a bc = Ok y -> x = y.
Proof. exact unit_mul_assoc. Qed.
Print Assumptions C28_associative.

Theorem C28_neutral : forall a, valid_unit a -> unit_mul a (unitless (u_tag a)) = Ok a.
Proof. exact unit_mul_unitless_total. Qed.
Print Assumptions C28_neutral.

Theorem C28_division_inverts : forall a b c x, valid_unit a -> valid_unit b ->
  (unit_mul a b = Ok c -> unit_div c b = Ok x -> x = a) /\ (unit_div a b = Ok c -> unit_mul c b = Ok x -> x = a) /\
  (unit_div a a = Ok x -> x = unitless (u_tag a)).
Proof.
  intros a b c x Va Vb. split; [|split].
  - exact (unit_mul_div a b c x Va Vb).
  - exact (unit_div_mul a b c x Va Vb).
  - exact (unit_div_self a x Va).
Qed.
Print Assumptions C28_division_inverts.

(** Multiplication adds and division subtracts every one of the exponents. *)
Theorem C28_exponents : forall a b c, valid_unit a -> valid_unit b ->
  (unit_mul a b = Ok c -> u_tag c = u_tag a /\ forall i, (i < nb_units)%nat -> (q_of (ex c i) == q_of (ex a i) + q_of (ex b i))%Q) /\
  (unit_div a b = Ok c -> u_tag c = u_tag a /\ forall i, (i < nb_units)%nat -> (q_of (ex c i) == q_of (ex a i) - q_of (ex b i))%Q).
Proof.
  intros a b c Va Vb. split; intros H.
  - destruct (unit_mul_spec a b c Va Vb H) as (_ & T & _ & Q). exact (conj T Q).
  - destruct (unit_div_spec a b c Va Vb H) as (_ & T & _ & Q). exact (conj T Q).
Qed.
Print Assumptions C28_exponents.

Theorem C28_defined : forall a b, valid_unit a -> valid_unit b -> small_unit a -> small_unit b -> u_tag a = u_tag b ->
  (exists c, unit_mul a b = Ok c) /\ (exists c, unit_div a b = Ok c).
Proof.
  intros a b Va Vb Sa Sb T. split.
  - exact (unit_op_small ue_mul a b ue_mul_small Va Vb Sa Sb T).
  - exact (unit_op_small ue_div a b ue_div_small Va Vb Sa Sb T).
Qed.
Print Assumptions C28_defined.

Theorem C28_mixed_tags_rejected : forall a b, u_tag a <> u_tag b ->
  unit_mul a b = Err UnitError /\ unit_div a b = Err UnitError /\
  unit_add a b = Err UnitError /\ unit_sub a b = Err UnitError.
Proof. intros a b H. repeat split; exact (unit_op_tags _ a b H). Qed.
Print Assumptions C28_mixed_tags_rejected.

Example C28_case : exists f s, u_force 3 = Ok f /\ u_stress 3 = Ok s /\ reach_unit f /\ small_unit f /\ valid_unit s /\ f <> s.
Proof.
  eexists; eexists. split; [vm_compute; reflexivity|]. split; [vm_compute; reflexivity|].
  split; [|split; [|split; [|discriminate]]].
  - apply ru_exps; [reflexivity|].
    assert (R : forall z, - 2 <= z <= 1 -> reach_exp (mk_ue z 1)).
    { intros z Hz. apply (re_make z 1). assert (C : z = -2 \/ z = -1 \/ z = 0 \/ z = 1) by lia.
      destruct C as [ -> | [ -> | [ -> | -> ] ] ]; vm_compute; reflexivity. }
    repeat (apply Forall_cons; [apply R; lia|]). apply Forall_nil.
  - unfold small_unit; cbn [u_exps]. repeat (apply Forall_cons; [unfold small; cbn; lia|]). apply Forall_nil.
  - split; [reflexivity|]. cbn [u_exps]. repeat (apply Forall_cons; [unfold valid, int_ok; cbn; lia|]). apply Forall_nil.
Qed.

(** C29: only equal units can be added or subtracted. *)
Theorem C29_add_only_equal : forall a b, length (u_exps a) = 7%nat -> length (u_exps b) = 7%nat ->
  (a = b -> unit_add a b = Ok a /\ unit_sub a b = Ok a) /\
  (a <> b -> unit_add a b = Err UnitError /\ unit_sub a b = Err UnitError).
Proof. exact unit_addsub. Qed.
Print Assumptions C29_add_only_equal.
Example C29_case : u_mass 0 <> u_time 0 /\ u_mass 0 <> u_mass 1 /\ length (u_exps (u_mass 1)) = 7%nat.
Proof. repeat split; discriminate. Qed.

(** C30: strict total orders. *)
Theorem C30_unit_order : strict_total_order (fun u => valid_unit u /\ small_unit u) unit_lt eq.
Proof. exact unit_order. Qed.
Print Assumptions C30_unit_order.
Theorem C30_unit_equality : forall a b, unit_eqb a b = true <-> a = b.
Proof. exact unit_eqb_eq. Qed.
Print Assumptions C30_unit_equality.
Theorem C30_domain_order : strict_total_order (fun d => valid_pd d /\ small_pd d) pd_lt (fun a b => pd_eqb a b = true).
Proof. exact pd_order. Qed.
Print Assumptions C30_domain_order.
Theorem C30_domain_equality : forall a b,
  pd_eqb a b = true <-> pd_rank a = pd_rank b /\ pd_in a = pd_in b /\ pd_out a = pd_out b.
Proof. exact pd_eqb_eq. Qed.
Print Assumptions C30_domain_equality.
(** The order of exponents is the order of the rationals they denote, with no
    restriction on size as long as the comparison is defined. *)
Theorem C30_exponent_order_rational : forall a b r, valid a -> valid b -> ue_lt a b = Ok r ->
  (r = true <-> (q_of a < q_of b)%Q).
Proof. exact ue_lt_Q. Qed.
Print Assumptions C30_exponent_order_rational.
Theorem C30_unit_order_unrestricted : forall a b c, valid_unit a -> valid_unit b -> valid_unit c ->
  unit_lt a b = Ok true -> unit_lt b c = Ok true -> unit_lt a c <> Ok false /\ unit_lt b a <> Ok true.
Proof. exact unit_lt_trans_general. Qed.
Print Assumptions C30_unit_order_unrestricted.
Example C30_case : unit_lt (u_mass 1) (u_length 1) = Ok true /\ unit_lt (u_length 1) (u_mass 1) = Ok false /\
  unit_lt (u_length 0) (u_mass 1) = Ok true /\ small_unit (u_length 0).
Proof.
  repeat split; try (vm_compute; reflexivity). unfold small_unit; cbn [u_length base_unit u_exps nb_units repeat upd].
  repeat (apply Forall_cons; [unfold small; cbn; lia|]). apply Forall_nil.
Qed.
Theorem C30_overflow_refuted : exists a b, reach_exp a /\ reach_exp b /\ ue_lt a b = UB.
Proof.
  exists (mk_ue 1 65536), (mk_ue 1 65535).
  split; [apply (re_make 1 65536); vm_compute; reflexivity|].
  split; [apply (re_make 1 65535); vm_compute; reflexivity|]. vm_compute. reflexivity.
Qed.
Print Assumptions C30_overflow_refuted.

(** C46: a physics domain is reported inconsistent exactly if the product of
    its units is not an energy density (1/length, mass, 1/time^2). *)
Theorem C46_domain_warning : forall rank i o name d w,
  pd_make rank i o name = Ok (d, w) -> valid_unit i -> valid_unit o ->
  d = mk_pd rank i o name /\ u_tag i = u_tag o /\
  (w = false <-> u_tag i = 0 /\ forall k, (k < nb_units)%nat ->
     (q_of (ex i k) + q_of (ex o k) == nth k [-1; 1; -2; 0; 0; 0; 0] 0)%Q).
Proof. exact pd_make_spec. Qed.
Print Assumptions C46_domain_warning.
Example C46_case : exists d, pd_mechanics 0 = Ok (d, false).
Proof. eexists; vm_compute; reflexivity. Qed.
(** Finding: the library's own mechanics domain is reported inconsistent for
    every tag other than 0, although its product is an energy density. *)
Theorem C46_tagged_mechanics_refuted : forall tag, tag <> 0 -> exists d, pd_mechanics tag = Ok (d, true).
Proof. exact mechanics_tag_warns. Qed.
Print Assumptions C46_tagged_mechanics_refuted.

(** The units of the library: force, stress, and the domains made of them; the
    exponents of length, mass, time, temperature and the rest. *)
Theorem C28_library_units : forall tag, exists f s, u_force tag = Ok f /\ u_stress tag = Ok s /\ u_tag f = tag /\ u_tag s = tag /\
  map q_of (u_exps f) = map inject_Z [1; 1; -2; 0; 0; 0; 0] /\ map q_of (u_exps s) = map inject_Z [-1; 1; -2; 0; 0; 0; 0].
Proof. intros tag. rewrite force_units, stress_units. do 2 eexists. repeat (split; [reflexivity|]). split; vm_compute; reflexivity. Qed.
Print Assumptions C28_library_units.
Theorem C46_mechanics : forall tag, exists d w s, pd_mechanics tag = Ok (d, w) /\ u_stress tag = Ok s /\
  pd_rank d = 2 /\ pd_in d = unitless tag /\ pd_out d = s.
Proof. intros tag. destruct (mechanics_units tag) as (w & E). rewrite E, stress_units. do 3 eexists. repeat (split; [reflexivity|]). reflexivity. Qed.
Print Assumptions C46_mechanics.
(** Finding: the library's own domain of heat is reported inconsistent, whatever
    its tag: a gradient of temperature times a flux of heat is no energy density. *)
Theorem C46_heat_refuted : forall tag, exists d, pd_heat tag = Ok (d, true) /\ pd_rank d = 1 /\
  map q_of (u_exps (pd_in d)) = map inject_Z [-1; 0; 0; 1; 0; 0; 0] /\ map q_of (u_exps (pd_out d)) = map inject_Z [0; 1; -3; 0; 0; 0; 0].
Proof. intros tag. rewrite heat_units. eexists. repeat (split; [reflexivity|]). split; vm_compute; reflexivity. Qed.
Print Assumptions C46_heat_refuted.
