(** State fields (state_field.hh/.cc), their registration in a collection and
    dynamic maps over them (state_field_map.hh/.cc).

    A state field refers to its sub-fields by reference; the reference is
    modelled by the name under which the sub-field is registered, so that
    using a sub-field that was removed from the collection is [UB].  Static
    state-field maps (state_field_map_static.hh) are in [CloneModel]. *)
From Coq Require Import String NArith.
From Verif Require Import Base CIntModel GridModel StridedModel UnitsModel LayoutModel FieldModel RegistryModel.
Local Open Scope string_scope.
Local Open Scope Z_scope.
Local Open Scope list_scope.

(** state_field.hh:156-191: members; the sub-fields follow from the prefix. *)
Record sfield := mk_sfield {
  s_mem : Z;
  s_nbc : Z;
  s_tag : string;
  s_unit : unit_t;
  s_type : ftype;
  s_idx : list Z
}.

(** state_field.cc:60-62: [(nb_memory + 1 - i) & nb_memory]. *)
Definition init_indices (mem : Z) : list Z :=
  map (fun i => Z.land (mem + 1 - i) mem) (zrange (Z.to_nat (mem + 1))).
(** state_field.cc:138-143: names of the sub-fields. *)
Definition sub_name (prefix : string) (i : nat) : string :=
  (prefix ++ ", sub_field index " ++ decimal (N.of_nat i))%string.
Definition sub_names (prefix : string) (mem : Z) : list string :=
  map (sub_name prefix) (seq 0 (Z.to_nat (mem + 1))).
(** state_field.cc:93-97 [cycle] *)
Definition cycled (s : sfield) : sfield :=
  mk_sfield (s_mem s) (s_nbc s) (s_tag s) (s_unit s) (s_type s)
            (map (fun v => (v + 1) mod (s_mem s + 1)) (s_idx s)).

Section States.
Context {A : Type} (zero : A).

(** A collection with its state fields (field_collection.hh:861). *)
Record sys := mk_sys { y_coll : coll A; y_states : list (string * sfield) }.

(** state_field.cc:130-144: the sub-fields are registered one by one, without
    permission to reuse existing fields; an exception leaves the earlier ones
    in the collection. *)
Fixpoint register_subs (c : coll A) (names : list string) (ty : ftype) (nbc : Z) (tag : string) (u : unit_t) : coll A * res unit :=
  match names with
  | [] => (c, Ok tt)
  | n :: r =>
      match register_field zero c n ty (inl nbc) tag u false with
      | (c', Ok _) => register_subs c' r ty nbc tag u
      | (c', o) => (c', o)
      end
  end.
(** state_field.hh:282-344 [register_state_field_helper]; state_field.cc:46-64
    constructor (asks the collection for the number of sub-points first). *)
Definition register_state (y : sys) (prefix : string) (ty : ftype) (mem nbc : Z) (tag : string) (u : unit_t) (allow_existing : bool) : sys * res unit :=
  match lookup prefix (y_states y) with
  | Some s =>
      if allow_existing then
        if negb (ftype_eqb (s_type s) ty) then (y, Err RuntimeError)
        else if negb (s_mem s =? mem) then (y, Err FieldCollectionError)
        else if negb (s_nbc s =? nbc) then (y, Err FieldCollectionError)
        else if negb (String.eqb (s_tag s) tag) then (y, Err FieldCollectionError)
        else if negb (unit_eqb (s_unit s) u) then (y, Err FieldCollectionError)
        else (y, Ok tt)
      else (y, Err FieldCollectionError)
  | None =>
      let c1 := touch_tag (y_coll y) tag in
      if mem <? 1 then (mk_sys c1 (y_states y), Err FieldError)
      else
        match register_subs c1 (sub_names prefix mem) ty nbc tag u with
        | (c2, Ok _) => (mk_sys c2 (insert prefix (mk_sfield mem nbc tag u ty (init_indices mem)) (y_states y)), Ok tt)
        | (c2, o) => (mk_sys c2 (y_states y), o)
        end
  end.

(** field_collection.cc:430-438 [get_state_field] *)
Definition get_state (y : sys) (prefix : string) : res sfield :=
  match lookup prefix (y_states y) with Some s => Ok s | None => Err FieldCollectionError end.
(** state_field.cc:100-110 [current] (k = 0) and [old], which checks the
    number of steps with [at]. *)
Definition slot (s : sfield) (k : nat) : res Z :=
  match nth_error (s_idx s) k with Some v => Ok v | None => Err OutOfRange end.
Definition name_at (y : sys) (prefix : string) (k : nat) : res string :=
  let! s := get_state y prefix in
  let! j := slot s k in
  Ok (sub_name prefix (Z.to_nat j)).
Definition field_at (y : sys) (prefix : string) (k : nat) : res (rfield A) :=
  let! n := name_at y prefix k in
  match lookup n (c_fields (y_coll y)) with Some r => Ok r | None => UB end.

(** Operations on a collection with state fields. *)
Inductive sop : Type :=
| SRegister (prefix : string) (ty : ftype) (mem nbc : Z) (tag : string) (u : unit_t) (allow_existing : bool)
| SCycle (prefix : string)
| SWrite (prefix : string) (i : Z) (x : A)  (* a write to the current field through any view *)
| SColl (o : op A).
Definition sstep (y : sys) (o : sop) : sys * res unit :=
  match o with
  | SRegister prefix ty mem nbc tag u allow => register_state y prefix ty mem nbc tag u allow
  | SCycle prefix =>
      match lookup prefix (y_states y) with
      | Some s => (mk_sys (y_coll y) (insert prefix (cycled s) (y_states y)), Ok tt)
      | None => (y, Err FieldCollectionError)
      end
  | SWrite prefix i x =>
      match name_at y prefix 0 with
      | Ok n => let '(c', o) := step zero (y_coll y) (OWrite n i x) in (mk_sys c' (y_states y), o)
      | Err e => (y, Err e)
      | UB => (y, UB)
      end
  | SColl o => let '(c', r) := step zero (y_coll y) o in (mk_sys c' (y_states y), r)
  end.
Definition srun (y : sys) (h : list sop) : sys := fold_left (fun s o => fst (sstep s o)) h y.

(** ** Dynamic maps over state fields *)

(** state_field_map.hh: members; [maps] and [cmaps] differ in constness only. *)
Record smap := mk_smap { sm_prefix : string; sm_unit : iter_unit; sm_rows : Z; sm_maps : list fmap }.

Fixpoint make_maps (fs : list (field A)) (u : iter_unit) (rows : Z) : res (list fmap) :=
  match fs with
  | [] => Ok []
  | f :: r => let! m := new_map f u (Some rows) in let! ms := make_maps r u rows in Ok (m :: ms)
  end.
(** The sub-fields in order of their index. *)
Definition sub_fields (y : sys) (prefix : string) (mem : Z) : res (list (field A)) :=
  mapM (fun n => match lookup n (c_fields (y_coll y)) with Some r => Ok (rf_field r) | None => UB end) (sub_names prefix mem).
(** state_field_map.cc:72-81 constructor with default rows, 84-101 with a
    number of rows. *)
Definition new_smap (y : sys) (prefix : string) (u : iter_unit) (rows : option Z) : res smap :=
  let! s := get_state y prefix in
  let! cur := field_at y prefix 0 in
  let f := rf_field cur in
  let r := match rows with
           | Some r => r
           | None => match u with Pixel => l_nbc (f_lay f) * l_nsub (f_lay f) | SubPt => l_nbc (f_lay f) end
           end in
  let! fs := sub_fields y prefix (s_mem s) in
  let! ms := make_maps fs u r in
  match rows with
  | None => Ok (mk_smap prefix u r ms)
  | Some _ =>
      let! stride := get_stride (f_lay f) (has_nsub f) u in
      if negb (Z.rem stride r =? 0) then Err FieldMapError else Ok (mk_smap prefix u r ms)
  end.
(** The callbacks of the maps when the collection is initialised. *)
Fixpoint initialise_maps (ms : list fmap) (fs : list (field A)) : res (list fmap) :=
  match ms, fs with
  | m :: ms', f :: fs' => let! m' := initialise_map m f in let! r := initialise_maps ms' fs' in Ok (m' :: r)
  | [], [] => Ok []
  | _, _ => UB
  end.
Definition initialise_smap (y : sys) (sm : smap) : res smap :=
  let! s := get_state y (sm_prefix sm) in
  let! fs := sub_fields y (sm_prefix sm) (s_mem s) in
  let! ms := initialise_maps (sm_maps sm) fs in
  Ok (mk_smap (sm_prefix sm) (sm_unit sm) (sm_rows sm) ms).

(** state_field_map.cc:140-157 [get_current], [get_old] (neither checks its
    argument) followed by [operator[]] of the map. *)
Definition smap_entry (y : sys) (sm : smap) (k : nat) (i : Z) : res (list A) :=
  let! s := get_state y (sm_prefix sm) in
  match nth_error (s_idx s) k with
  | None => UB
  | Some j =>
      match nth_error (sm_maps sm) (Z.to_nat j), lookup (sub_name (sm_prefix sm) (Z.to_nat j)) (c_fields (y_coll y)) with
      | Some m, Some r => map_entry m (rf_field r) i
      | _, _ => UB
      end
  end.
(** state_field_map.hh:140-180 [StateWrapper]: the current and all old values
    of entry [i]; [old] checks its argument with [at]. *)
Definition wrapper (y : sys) (sm : smap) (i : Z) : res (list A * list (list A)) :=
  let! s := get_state y (sm_prefix sm) in
  let! c := smap_entry y sm 0 i in
  let! os := mapM (fun k => smap_entry y sm k i) (seq 1 (Z.to_nat (s_mem s))) in
  Ok (c, os).
Definition wrapper_old (w : list A * list (list A)) (k : nat) : res (list A) :=
  match k with
  | O => Err OutOfRange
  | S j => match nth_error (snd w) j with Some v => Ok v | None => Err OutOfRange end
  end.
(** state_field_map.cc:110-116, 128-136: number of iterates. *)
Definition smap_size (y : sys) (sm : smap) : res Z :=
  let! cur := field_at y (sm_prefix sm) 0 in
  Ok (match sm_unit sm with SubPt => nb_entries (rf_field cur) | Pixel => l_npix (f_lay (rf_field cur)) end).
End States.
Arguments sys A : clear implicits.
Arguments sop A : clear implicits.
