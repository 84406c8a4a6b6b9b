(** Specification vocabulary for printed units. *)
From Verif Require Import Base UnitsModel UnitsSpec.
Open Scope Z_scope.

(** No base unit takes part. *)
Definition dimensionless (u : unit_t) : Prop := forall i, (i < nb_units)%nat -> ue_num (ex u i) = 0.
(** The units whose tag is lost when they are printed. *)
Definition tag_lost (u : unit_t) : Prop := dimensionless u /\ u_tag u <> 0.
