(** Copies of fields and collections, mapped and detached fields, the index map
    of local collections, and statically sized maps of state fields. *)
From Coq Require Import String.
From Verif Require Import Base GridModel UnitsModel LayoutModel FieldModel RegistryModel StateModel MapModel.
Local Open Scope Z_scope.
Local Open Scope list_scope.

Section Clones.
Context {A : Type} (zero : A).

(** field_typed.cc:315-337 [TypedField::clone]; 144-165 [safe_cast] with number of
    components and sub-division.  [sort] is the order of the axes used by the copy
    ([FieldModel.assign_with]).  The collection is returned also when the call
    throws. *)
Definition copy_into (sort : list nat) (c : coll A) (new_name : string) (f : field A) : coll A * res unit :=
  match lookup new_name (c_fields c) with
  | None => (c, UB)
  | Some r2 =>
      match assign_with sort (rf_field r2) f with
      | Ok f' => (with_fields c (insert new_name (set_field r2 f') (c_fields c)), Ok tt)
      | Err e => (c, Err e)
      | UB => (c, UB)
      end
  end.
Definition clone_with (sort : list nat) (c : coll A) (name new_name : string) (allow_overwrite : bool) : coll A * res unit :=
  match lookup name (c_fields c) with
  | None => (c, Err FieldCollectionError)
  | Some r =>
      match lookup new_name (c_fields c) with
      | Some r2 =>
          if negb allow_overwrite then (c, Err FieldError)
          else if negb (l_nbc (f_lay (rf_field r2)) =? l_nbc (f_lay (rf_field r))) then (c, Err FieldError)
          else if negb (String.eqb (rf_tag r2) (rf_tag r)) then (c, Err FieldError)
          else if negb (ftype_eqb (rf_type r2) (rf_type r)) then (c, Err FieldError)
          else copy_into sort c new_name (rf_field r)
      | None =>
          match register_field zero c new_name (rf_type r) (inl (l_nbc (f_lay (rf_field r)))) (rf_tag r) (rf_unit r) false with
          | (c1, Ok _) => copy_into sort c1 new_name (rf_field r)
          | (c1, o) => (c1, o)
          end
      end
  end.

(** mapped_field.hh:76-89: constructor of statically sized mapped fields;
    103-119: dynamically sized. *)
Definition mapped (c : coll A) (name : string) (ty : ftype) (comp : Z + list Z) (tag : string) (un : unit_t) (make : field A -> res fmap) : coll A * res fmap :=
  match register_field zero c name ty comp tag un false with
  | (c1, Ok _) =>
      match lookup name (c_fields c1) with
      | Some r => (c1, make (rf_field r))
      | None => (c1, UB)
      end
  | (c1, Err e) => (c1, Err e)
  | (c1, UB) => (c1, UB)
  end.
Definition mapped_static (c : coll A) (name : string) (ty : ftype) (t : iterate_type) (u : iter_unit) (tag : string) (un : unit_t) : coll A * res fmap :=
  mapped c name ty (inl (it_stride t)) tag un (fun f => new_static f u t).
Definition mapped_dynamic (c : coll A) (name : string) (ty : ftype) (rows cols : Z) (u : iter_unit) (tag : string) (un : unit_t) : coll A * res fmap :=
  mapped c name ty (inr [rows; cols]) tag un (fun f => new_map f u (Some rows)).

(** optional_mapped_field.hh:51-103: [None] until the field exists; [unitless]
    units. *)
Record optional := mk_optional { o_name : string; o_tag : string; o_map : option fmap }.
Definition has_value (o : optional) : bool := match o_map o with Some _ => true | None => false end.
Definition opt_get (c : coll A) (o : optional) (ty : ftype) (t : iterate_type) (u : iter_unit) : coll A * optional * res fmap :=
  match o_map o with
  | Some m => (c, o, Ok m)
  | None =>
      match mapped_static c (o_name o) ty t u (o_tag o) (unitless 0) with
      | (c1, Ok m) => (c1, mk_optional (o_name o) (o_tag o) (Some m), Ok m)
      | (c1, r) => (c1, o, r)
      end
  end.

(** field_collection.hh:1066-1081 [detached_field]: registered and removed again. *)
Definition detached_field (c : coll A) (name : string) (ty : ftype) (shape : list Z) (tag : string) (un : unit_t) : coll A * res (rfield A) :=
  match register_field zero c name ty (inr shape) tag un false with
  | (c1, Ok _) => pop_field c1 name
  | (c1, Err e) => (c1, Err e)
  | (c1, UB) => (c1, UB)
  end.
(** A removed field still refers to its collection ([attach]). *)

(** field_collection_local.cc:78-93 [get_empty_clone]; local collections are
    column-major. *)
Fixpoint add_pixels (c : coll A) (l : list Z) : res (coll A) :=
  match l with
  | [] => Ok c
  | i :: r => match add_pixel c i with (c', Ok _) => add_pixels c' r | (_, Err e) => Err e | (_, UB) => UB end
  end.
Definition local_clone (c : coll A) : res (coll A) :=
  let! c' := new_coll false ColMajor (c_tags c) in add_pixels c' (c_index c).
(** field_collection_global.cc:163-169 [get_empty_clone]; [nd] and [loc] are the
    domain and the location of the sub-domain of the original. *)
Definition global_clone (c : coll A) (nd loc : list Z) : res (coll A) :=
  let! c' := new_coll true ColMajor (c_tags c) in
  match init_global_order zero c' nd (c_pix c) loc Automatic with
  | (c'', Ok _) => Ok c''
  | (_, Err e) => Err e
  | (_, UB) => UB
  end.
End Clones.

(** field_collection_local.cc:54-63 [add_pixel]: the pixels and the map from pixels
    to their positions; [std::map::insert] keeps an existing entry.  The key type
    is [Index_t]. *)
Record pixel_list := mk_pixel_list { pl_pixels : list Z; pl_map : list (Z * Z) }.
Fixpoint zlookup (k : Z) (m : list (Z * Z)) : option Z :=
  match m with [] => None | (k', v) :: r => if k =? k' then Some v else zlookup k r end.
Definition zinsert (k v : Z) (m : list (Z * Z)) : list (Z * Z) :=
  match zlookup k m with Some _ => m | None => m ++ [(k, v)] end.
Definition pl_add (p : pixel_list) (g : Z) : pixel_list :=
  mk_pixel_list (pl_pixels p ++ [g]) (zinsert g (Z.of_nat (length (pl_pixels p))) (pl_map p)).
Definition pl_empty : pixel_list := mk_pixel_list [] [].
Definition pl_run (l : list Z) : pixel_list := fold_left pl_add l pl_empty.

(** ** Statically sized maps of state fields (state_field_map_static.hh) *)
Section StaticState.
Context {A : Type}.
(** 280-293 [map_helper] *)
Fixpoint make_static_maps (fs : list (field A)) (u : iter_unit) (t : iterate_type) : res (list fmap) :=
  match fs with
  | [] => Ok []
  | f :: r => let! m := new_static f u t in let! ms := make_static_maps r u t in Ok (m :: ms)
  end.
(** 97-99 constructor: the dynamic maps of the base class first, then the static
    ones; 296-311 [make_maps] compares the memory. *)
Definition new_static_smap (y : sys A) (prefix : string) (u : iter_unit) (t : iterate_type) (mem : Z) : res smap :=
  let! sm := new_smap y prefix u None in
  let! s := get_state y prefix in
  if negb (s_mem s =? mem) then Err FieldMapError
  else
    let! fs := sub_fields y prefix (s_mem s) in
    let! ms := make_static_maps fs u t in
    Ok (mk_smap prefix u (it_rows t) ms).
(** 134-142 [get_old_static], [get_current_static], then [operator[]] *)
Definition static_smap_entry (t : iterate_type) (y : sys A) (sm : smap) (k : nat) (i : Z) : res (list A) :=
  let! s := get_state y (sm_prefix sm) in
  match nth_error (s_idx s) k with
  | None => UB
  | Some j =>
      match nth_error (sm_maps sm) (Z.to_nat j), lookup (sub_name (sm_prefix sm) (Z.to_nat j)) (c_fields (y_coll y)) with
      | Some m, Some r => static_entry t m (rf_field r) i
      | _, _ => UB
      end
  end.
(** 164-244 [StaticStateWrapper]; [old] with a runtime argument does not check it,
    the template version is refused at compile time beyond the memory. *)
Definition static_wrapper (t : iterate_type) (mem : Z) (y : sys A) (sm : smap) (i : Z) : res (list A * list (list A)) :=
  let! c := static_smap_entry t y sm 0 i in
  let! os := mapM (fun k => static_smap_entry t y sm (k + 1) i) (seq 0 (Z.to_nat mem)) in
  Ok (c, os).
Definition static_wrapper_old (w : list A * list (list A)) (k : nat) : res (list A) :=
  match k with
  | O => UB
  | S j => match nth_error (snd w) j with Some v => Ok v | None => UB end
  end.
(** 128-131 [begin], [end]; 324-381 [Iterator]: the iterates from 0 to the size of
    the first map. *)
Definition static_smap_iterate (t : iterate_type) (mem : Z) (y : sys A) (sm : smap) : res (list (list A * list (list A))) :=
  match nth_error (sm_maps sm) 0, lookup (sub_name (sm_prefix sm) 0) (c_fields (y_coll y)) with
  | Some m, Some r => mapM (static_wrapper t mem y sm) (zrange (unsigned_size m (rf_field r)))
  | _, _ => UB
  end.
(** mapped_state_field.hh:68-78: constructor of mapped state fields; the unit is
    the default of [register_state_field], [unitless].  92-119: access goes to the
    map. *)
Definition mapped_state (zero : A) (y : sys A) (prefix : string) (ty : ftype) (t : iterate_type) (u : iter_unit) (mem : Z) (tag : string) : sys A * res smap :=
  match register_state zero y prefix ty mem (it_stride t) tag (unitless 0) false with
  | (y1, Ok _) => (y1, new_static_smap y1 prefix u t mem)
  | (y1, Err e) => (y1, Err e)
  | (y1, UB) => (y1, UB)
  end.
End StaticState.
