(** Specification vocabulary for units. *)
From Verif Require Import Base UnitsModel.
From Coq Require Import QArith.
Open Scope Z_scope.

(** An [int] other than the smallest one. *)
Definition int_ok (z : Z) : Prop := - 2 ^ 31 < z < 2 ^ 31.

(** Lowest terms with a positive denominator. *)
Definition valid (e : uexp) : Prop := 0 < ue_den e /\ Z.gcd (ue_num e) (ue_den e) = 1 /\ int_ok (ue_num e) /\ int_ok (ue_den e).

(** The rational number an exponent stands for. *)
Definition q_of (e : uexp) : Q := (inject_Z (ue_num e) / inject_Z (ue_den e))%Q.

(** Every exponent built by a tree of operations is valid. *)
Inductive reach_exp : uexp -> Prop :=
| re_make num den e : ue_make num den = Ok e -> reach_exp e
| re_mul a b e : reach_exp a -> reach_exp b -> ue_mul a b = Ok e -> reach_exp e
| re_div a b e : reach_exp a -> reach_exp b -> ue_div a b = Ok e -> reach_exp e
| re_add a b e : reach_exp a -> reach_exp b -> ue_add a b = Ok e -> reach_exp e
| re_sub a b e : reach_exp a -> reach_exp b -> ue_sub a b = Ok e -> reach_exp e.

(** Exponents small enough for the products to fit. *)
Definition small (e : uexp) : Prop := Z.abs (ue_num e) <= 32767 /\ 0 < ue_den e <= 32767.

(** A unit holds seven exponents; [valid_unit] asks all of them to be valid. *)
Definition valid_unit (u : unit_t) : Prop := length (u_exps u) = nb_units /\ Forall valid (u_exps u).
Definition small_unit (u : unit_t) : Prop := Forall small (u_exps u).

(** The exponent of base unit [i]. *)
Definition ue0 : uexp := mk_ue 0 1.
Definition ex (u : unit_t) (i : nat) : uexp := nth i (u_exps u) ue0.

(** Every unit built from the factories, from explicit exponents and by
    multiplying, dividing, adding and subtracting. *)
Inductive reach_unit : unit_t -> Prop :=
| ru_unitless tag : reach_unit (unitless tag)
| ru_base i tag : reach_unit (base_unit i tag)
| ru_exps es tag : length es = nb_units -> Forall reach_exp es -> reach_unit (mk_unit es tag)
| ru_mul a b c : reach_unit a -> reach_unit b -> unit_mul a b = Ok c -> reach_unit c
| ru_div a b c : reach_unit a -> reach_unit b -> unit_div a b = Ok c -> reach_unit c
| ru_add a b c : reach_unit a -> reach_unit b -> unit_add a b = Ok c -> reach_unit c
| ru_sub a b c : reach_unit a -> reach_unit b -> unit_sub a b = Ok c -> reach_unit c.

(** Physics domains made of valid units. *)
Definition valid_pd (d : pdomain) : Prop := valid_unit (pd_in d) /\ valid_unit (pd_out d).
Definition small_pd (d : pdomain) : Prop := small_unit (pd_in d) /\ small_unit (pd_out d).

(** Strict total order on the elements satisfying [P], where [same] tells which
    elements are considered equal. *)
Definition strict_total_order {A} (P : A -> Prop) (lt : A -> A -> res bool) (same : A -> A -> Prop) : Prop :=
  (forall a b, P a -> P b -> lt a b = Ok true \/ lt a b = Ok false) /\
  (forall a, P a -> lt a a = Ok false) /\
  (forall a b c, P a -> P b -> P c -> lt a b = Ok true -> lt b c = Ok true -> lt a c = Ok true) /\
  (forall a b, P a -> P b -> (lt a b = Ok false /\ lt b a = Ok false <-> same a b)).
