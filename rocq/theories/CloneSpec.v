(** Specification vocabulary for copies of fields and collections. *)
From Coq Require Import String.
From Verif Require Import Base LayoutModel FieldModel FieldSpec RegistryModel RegistrySpec StateModel StateSpec.
Local Open Scope Z_scope.

(** An initialised collection whose pixels address distinct places. *)
Definition usable {A} (zero : A) (c : coll A) : Prop :=
  sensibly_reachable zero true c /\ c_init c = true /\ good_pixels c.

(** Equal in everything but the name and the stored values. *)
Definition same_kind {A} (r r' : rfield A) : Prop :=
  rf_tag r' = rf_tag r /\ rf_unit r' = rf_unit r /\ rf_type r' = rf_type r /\ f_lay (rf_field r') = f_lay (rf_field r).

(** Equal values at all logical indices. *)
Definition same_values {A} (f f' : field A) : Prop := forall x, logical f x -> value f' x = value f x.

(** The place of the first occurrence of [g] in [l]. *)
Definition first_at (l : list Z) (g : Z) (i : nat) : Prop :=
  nth_error l i = Some g /\ forall j, (j < i)%nat -> nth_error l j <> Some g.

(** Two collections on the same pixels. *)
Definition same_grid {A} (c c' : coll A) : Prop :=
  c_npix c' = c_npix c /\ c_nbuf c' = c_nbuf c /\ c_pix c' = c_pix c /\ c_pstr c' = c_pstr c /\ c_index c' = c_index c.

(** All fields of a state field have [d] scalars per entry, in column-major
    order. *)
Definition alike {A} (y : sys A) (p : string) (mem : Z) (u : iter_unit) (d : Z) : Prop :=
  forall nm, In nm (sub_names p mem) -> exists r, get_field (y_coll y) nm = Ok r /\ has_nsub (rf_field r) = true /\
    l_order (f_lay (rf_field r)) = ColMajor /\ scalars_per_entry (rf_field r) u = d.

(** A field with the attributes asked for, with storage for all its entries, in
    the given storage order. *)
Definition made {A} (c : coll A) order ty nbc tag u n nm : Prop :=
  exists r, get_field c nm = Ok r /\ as_requested r ty nbc tag u n /\ ready (rf_field r) /\ l_order (f_lay (rf_field r)) = order.
