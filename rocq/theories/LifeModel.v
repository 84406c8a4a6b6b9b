(** Lifetimes of fields and maps around the initialisation of their collection:
    creation, move and destruction of maps, the callbacks a collection keeps for
    maps that wait for their data (field_collection.cc, field_map.cc), fields
    removed from their collection.

    Fields and maps are objects with an identity (a number that is never used
    again); the fields of the collection itself are those of [RegistryModel].
    Simplifications: one collection, which outlives everything; maps of state
    fields and the contents of static iterates are elsewhere ([StateModel],
    [MapModel]). *)
From Coq Require Import String.
From Verif Require Import Base GridModel StridedModel UnitsModel LayoutModel FieldModel RegistryModel MapModel.
Local Open Scope Z_scope.
Local Open Scope list_scope.

Fixpoint nlookup {V} (k : nat) (m : list (nat * V)) : option V :=
  match m with
  | [] => None
  | (k', v) :: r => if (k =? k')%nat then Some v else nlookup k r
  end.
Definition nremove {V} (k : nat) (m : list (nat * V)) : list (nat * V) := filter (fun p => negb (k =? fst p)%nat) m.
Definition nreplace {V} (k : nat) (v : V) (m : list (nat * V)) : list (nat * V) :=
  map (fun p => if (k =? fst p)%nat then (k, v) else p) m.
Fixpoint name_of (id : nat) (l : list (string * nat)) : option string :=
  match l with
  | [] => None
  | (n, i) :: r => if (id =? i)%nat then Some n else name_of id r
  end.

Section Life.
Context {A : Type} (zero : A).

(** A living map: the field it refers to (field_map.hh:338, a reference) and its
    other members. *)
Record lmap := mk_lmap { lm_field : nat; lm_map : fmap }.

(** What exists: the collection; which object each registered field is; the
    fields removed from the collection that are still held by a unique_ptr; the
    living maps; the collection's list of weak pointers to callbacks
    (field_collection.hh:861).  A callback is a shared_ptr member of one map, so
    it is given by the number of that map, and expired if the map is gone. *)
Record world := mk_world {
  w_coll : coll A;
  w_ids : list (string * nat);
  w_loose : list (nat * rfield A);
  w_maps : list (nat * lmap);
  w_calls : list nat;
  w_next : nat
}.
Definition start (c : coll A) : world := mk_world c [] [] [] [] 0.

(** The field behind a reference, if it is still there.  Removed fields still
    refer to the collection, which no longer knows them. *)
Definition field_at (w : world) (id : nat) : option (field A) :=
  match name_of id (w_ids w) with
  | Some n => option_map rf_field (lookup n (c_fields (w_coll w)))
  | None => option_map (fun r => attach (w_coll w) (rf_field r)) (nlookup id (w_loose w))
  end.

(** field_collection.cc:396-404 [initialise_maps]: the callbacks in order of their
    registration, expired ones are skipped; each calls [set_data_ptr]
    (field_map.cc:190-198) of its map, which asks the field for its data. *)
Fixpoint run_calls (calls : list nat) (w : world) : world * res unit :=
  match calls with
  | [] => (mk_world (w_coll w) (w_ids w) (w_loose w) (w_maps w) [] (w_next w), Ok tt)
  | i :: rest =>
      match nlookup i (w_maps w) with
      | None => run_calls rest w
      | Some lm =>
          match field_at w (lm_field lm) with
          | None => (w, UB)
          | Some f =>
              match initialise_map (lm_map lm) f with
              | Ok m => run_calls rest (mk_world (w_coll w) (w_ids w) (w_loose w)
                                          (nreplace i (mk_lmap (lm_field lm) m) (w_maps w)) (w_calls w) (w_next w))
              | Err e => (w, Err e)
              | UB => (w, UB)
              end
          end
      end
  end.

(** The three ways to create a map: field_map.cc:48-67, 71-99 and
    field_map_static.hh:110-121, which uses the second. *)
Inductive map_kind := KDefault | KRows (r : Z) | KStatic (t : iterate_type).
Definition kind_rows (k : map_kind) : option Z :=
  match k with KDefault => None | KRows r => Some r | KStatic t => Some (it_rows t) end.
Definition make_map (f : field A) (u : iter_unit) (k : map_kind) : res fmap :=
  match k with KStatic t => new_static f u t | _ => new_map f u (kind_rows k) end.
(** Whether the constructor gets as far as registering the callback; checks of the
    shape come after it (field_map.cc:86-98), those of the size and of the storage
    order before it. *)
Definition registers (f : field A) (u : iter_unit) (k : map_kind) : bool :=
  negb (f_init f) && storder_eqb (l_order (f_lay f)) ColMajor &&
  match map_rows f u (kind_rows k) with Ok _ => true | _ => false end.

Inductive wop : Type :=
| WColl (o : op A)                                (* any operation on the collection *)
| WDropField (id : nat)                           (* end of the unique_ptr to a removed field *)
| WNewMap (id : nat) (u : iter_unit) (k : map_kind)
| WMoveMap (i : nat)
| WDropMap (i : nat).

Definition add_map (w : world) (calls : list nat) (lm : lmap) : world :=
  mk_world (w_coll w) (w_ids w) (w_loose w) ((w_next w, lm) :: w_maps w) calls (S (w_next w)).

Definition wstep (w : world) (o : wop) : world * res unit :=
  match o with
  | WColl o =>
      let '(c, r) := step zero (w_coll w) o in
      let w1 := mk_world c (w_ids w) (w_loose w) (w_maps w) (w_calls w) (w_next w) in
      match r with
      | Ok _ =>
          match o with
          | ORegister name _ _ _ _ _ =>
              match lookup name (w_ids w) with
              | Some _ => (w1, r)
              | None => (mk_world c (insert name (w_next w) (w_ids w)) (w_loose w) (w_maps w) (w_calls w) (S (w_next w)), r)
              end
          | OPop name =>
              match lookup name (w_ids w), lookup name (c_fields (w_coll w)) with
              | Some id, Some rf => (mk_world c (erase name (w_ids w)) ((id, rf) :: w_loose w) (w_maps w) (w_calls w) (w_next w), r)
              | _, _ => (w1, r)
              end
          | OInitLocal | OInitGlobal _ _ _ _ | OInitGlobalOrder _ _ _ _ => run_calls (w_calls w) w1
          | _ => (w1, r)
          end
      | _ => (w1, r)
      end
  | WDropField id =>
      (mk_world (w_coll w) (w_ids w) (nremove id (w_loose w)) (w_maps w) (w_calls w) (w_next w), Ok tt)
  | WNewMap id u k =>
      match field_at w id with
      | None => (w, UB)
      | Some f =>
          let calls := if registers f u k then w_calls w ++ [w_next w] else w_calls w in
          match make_map f u k with
          | Ok m => (add_map w calls (mk_lmap id m), Ok tt)
          | Err e => (mk_world (w_coll w) (w_ids w) (w_loose w) (w_maps w) calls (S (w_next w)), Err e)
          | UB => (w, UB)
          end
      end
  (* field_map.cc:102-121: all members are copied; a new callback is registered if
     the collection waits for its initialisation.  The old map stays. *)
  | WMoveMap i =>
      match nlookup i (w_maps w) with
      | None => (w, UB)
      | Some lm =>
          match field_at w (lm_field lm) with
          | None => (w, UB)
          | Some f =>
              if negb (storder_eqb (l_order (f_lay f)) ColMajor) then (w, Err RuntimeError)
              else (add_map w (if f_init f then w_calls w else w_calls w ++ [w_next w]) lm, Ok tt)
          end
      end
  | WDropMap i => (mk_world (w_coll w) (w_ids w) (w_loose w) (nremove i (w_maps w)) (w_calls w) (w_next w), Ok tt)
  end.
Definition wrun (w : world) (h : list wop) : world := fold_left (fun s o => fst (wstep s o)) h w.

(** Iteration over map [i] (field_map.cc:124-134, 178-187). *)
Definition wd_iterate (w : world) (i : nat) : res (list (list A)) :=
  match nlookup i (w_maps w) with
  | None => UB
  | Some lm => match field_at w (lm_field lm) with None => UB | Some f => map_iterate (lm_map lm) f end
  end.
End Life.
Arguments world A : clear implicits.
Arguments wop A : clear implicits.
