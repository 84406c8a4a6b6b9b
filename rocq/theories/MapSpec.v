(** Specification vocabulary for maps of fields registered in collections. *)
From Verif Require Import Base LayoutModel FieldModel FieldSpec RegistryModel RegistrySpec.
Local Open Scope Z_scope.

(** A field of an initialised collection whose pixels fill the buffer and
    have one index each. *)
Definition in_use {A} (zero : A) (c : coll A) (name : String.string) (r : rfield A) : Prop :=
  sensibly_reachable zero true c /\ c_init c = true /\ good_pixels c /\ c_nbuf c = c_npix c /\
  c_npix c = Z.of_nat (length (c_index c)) /\ get_field c name = Ok r.

(** A field of a collection that is not initialised: pixels are still unknown. *)
Definition too_early {A} (zero : A) (c : coll A) (name : String.string) (r : rfield A) : Prop :=
  reachable zero c /\ c_init c = false /\ c_npix c = unknown /\ get_field c name = Ok r.
