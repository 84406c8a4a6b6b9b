(** Subscripts of field maps in builds with assertions (field_map.hh 295-309,
    field_map_static.hh 237-251). *)
From Verif Require Import Base LayoutModel FieldModel MapModel.
Local Open Scope Z_scope.

(** The assertions of [operator[]]: the map is initialised, and the index does not exceed
    the number of entries of the field, converted to [size_t]; the position [i] is a
    [size_t].  [None] is a failed assertion, which ends the program.  As in [map_entry],
    an entry is read when it is made. *)
Definition subscript_allowed {A} (m : fmap) (f : field A) (i : Z) : bool :=
  m_init m && (i <=? nb_entries f mod 2 ^ 64).
(** field_map.hh 295-309 *)
Definition checked_entry {A} (m : fmap) (f : field A) (i : Z) : option (res (list A)) :=
  if subscript_allowed m f i then Some (map_entry m f i) else None.
(** field_map_static.hh 237-251 *)
Definition checked_static {A} (t : iterate_type) (m : fmap) (f : field A) (i : Z) : option (res (list A)) :=
  if subscript_allowed m f i then Some (static_entry t m f i) else None.
(** mapped_field.hh 177-181: mapped fields test the collection and the index, and then
    use their map. *)
Definition checked_mapped {A} (t : iterate_type) (m : fmap) (f : field A) (i : Z) : option (res (list A)) :=
  if f_init f && (i <=? nb_entries f mod 2 ^ 64) then checked_static t m f i else None.
