(** Specification vocabulary for pixels and volumes. *)
From Coq Require Import QArith.
From Verif Require Import Base GridSpec.
Local Open Scope Z_scope.
Local Open Scope list_scope.

(** Every point of the box is listed exactly once. *)
Definition visits_once (n loc : list Z) (cs : list (list Z)) : Prop :=
  NoDup cs /\ length cs = Z.to_nat (zprod n) /\ forall c, In c cs <-> in_box n loc c.

(** Edge lengths of the pixels of a grid with [n] pixels and the given lengths. *)
Definition pixel_sizes (n : list Z) (L : list Q) : list Q := map (fun p => snd p / inject_Z (fst p))%Q (combine n L).
