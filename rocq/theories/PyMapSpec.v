(** What the theorems on typed getters, maps and state fields in Python speak of. *)
From Verif Require Import Base GridSpec LayoutModel LayoutSpec FieldModel FieldSpec RegistryModel PyMapModel.
Local Open Scope Z_scope.
Local Open Scope list_scope.

(** A writeable matrix of numpy with this type and shape; one column may be given as a
    vector. *)
Definition suits {A} (a : ndarray A) (ty : ftype) (rows cols : Z) : Prop :=
  d_type a = Some ty /\ d_writeable a = true /\ d_reversed a = false /\
  (d_dims a = [Z.to_nat rows; Z.to_nat cols] \/ (cols = 1 /\ d_dims a = [Z.to_nat rows])) /\
  length (d_entries a) = (Z.to_nat rows * Z.to_nat cols)%nat.
(** Element (i, j) of an array with so many columns. *)
Definition element {A} (a : ndarray A) (cols i j : Z) : option A := nth_error (d_entries a) (Z.to_nat (i * cols + j)).
(** The number of a scalar among those of its entry: of the components at the point, the
    first index fastest, and in maps over pixels of the points of the pixel. *)
Definition place {A} (f : field A) (u : iter_unit) (comp : list Z) (q : Z) : Z :=
  off (running 1 (l_comp (f_lay f))) comp + match u with Pixel => l_nbc (f_lay f) * q | SubPt => 0 end.
(** The sum of so many copies of a number *)
Definition copies {A} (zero : A) (add : A -> A -> A) (n : Z) (x : A) : A := fold_left add (repeat x (Z.to_nat n)) zero.
