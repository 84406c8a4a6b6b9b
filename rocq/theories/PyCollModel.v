(** Constructors and [initialise] of collections in Python
    (bind_py_field_collection.cc:455-519): which overload a call reaches and what it
    does.  The rules of pybind11 2.11.1 for arguments, keywords and defaults are stated
    here and trusted; numbers and coordinates are those of PyArgModel.v. *)
From Coq Require Import String.
From Verif Require Import Base GridModel StridedModel LayoutModel CoordModel RegistryModel PyCommModel PyArgModel.
Local Open Scope Z_scope.
Local Open Scope list_scope.

(** Numbers, sequences, coordinates; a [dict] with keys [str]; a [str]; a member of
    [StorageOrder] *)
Inductive pyobj := OArg (a : pyarg) | ODict (l : list (string * pyarg)) | OStr (s : string) | OOrder (o : storder).

(** The types of parameters and what arrives in C++. *)
Inductive ptype := TDim | TCoord | TSub | TOrder | TName.
Inductive loaded := LDim (n : Z) | LCoord (l : list Z) | LSub (m : list (string * Z)) | LOrder (o : storder) | LName (s : string).
(** grid_common.hh:148-155; members of an enumeration have [__index__] and are taken for
    integers *)
Definition order_number (o : storder) : Z := match o with ColMajor => 0 | RowMajor => 1 | UnknownOrder => 2 | Automatic => 3 end.
Fixpoint load_sub (convert : bool) (l : list (string * pyarg)) : option (list (string * Z)) :=
  match l with
  | [] => Some []
  | (k, a) :: r => match load_index convert a, load_sub convert r with Some n, Some m => Some ((k, n) :: m) | _, _ => None end
  end.
Definition load (convert : bool) (t : ptype) (v : pyobj) : option loaded :=
  match t, v with
  | TDim, OArg a => option_map LDim (load_index convert a)
  | TDim, OOrder o => Some (LDim (order_number o))
  | TCoord, OArg a => option_map LCoord (load_coord convert a)
  | TSub, ODict l => option_map LSub (load_sub convert l)
  | TOrder, OOrder o => Some (LOrder o)
  | TName, OStr s => Some (LName s)
  | _, _ => None
  end.

(** ** Positions, keywords and defaults *)
Record param := mk_param { p_name : string; p_type : ptype; p_default : option pyobj }.
Fixpoint fill (ps : list param) (pos : list pyobj) (kw : list (string * pyobj)) : option (list pyobj) :=
  match ps, pos with
  | [], [] => Some []
  | [], _ :: _ => None
  | p :: ps', v :: pos' =>
      match lookup (p_name p) kw with Some _ => None | None => option_map (cons v) (fill ps' pos' kw) end
  | p :: ps', [] =>
      match lookup (p_name p) kw, p_default p with
      | Some v, _ | None, Some v => option_map (cons v) (fill ps' [] kw)
      | None, None => None
      end
  end.
Definition known_keyword (ps : list param) (k : string) : bool := existsb (fun p => String.eqb k (p_name p)) ps.
Fixpoint load_args (convert : bool) (ps : list param) (vs : list pyobj) : option (list loaded) :=
  match ps, vs with
  | p :: ps', v :: vs' => match load convert (p_type p) v, load_args convert ps' vs' with Some x, Some r => Some (x :: r) | _, _ => None end
  | _, _ => Some []
  end.
Definition fits (ps : list param) (pos : list pyobj) (kw : list (string * pyobj)) (convert : bool) : option (list loaded) :=
  if forallb (fun p => known_keyword ps (fst p)) kw
  then match fill ps pos kw with Some vs => load_args convert ps vs | None => None end
  else None.
(** The first that fits, with the number of the overload. *)
Definition select (sigs : list (list param)) (pos : list pyobj) (kw : list (string * pyobj)) : option (nat * list loaded) :=
  overloads (map (fun p c => option_map (pair (fst p)) (fits (snd p) pos kw c)) (combine (seq 0 (length sigs)) sigs)).

(** ** bind_py_field_collection.cc:455-498 [GlobalFieldCollection] *)
Local Open Scope string_scope.
Definition need (n : string) (t : ptype) : param := mk_param n t None.
Definition dflt (n : string) (t : ptype) (v : pyobj) : param := mk_param n t (Some v).
Definition no_coord : pyobj := OArg (ACoord []).
Definition p_order : param := dflt "storage_order" TOrder (OOrder ColMajor).
Definition global_sigs : list (list param) :=
  [[need "spatial_dimension" TDim];
   [need "spatial_dimension" TDim; need "sub_pts" TSub; p_order];
   [need "nb_domain_grid_pts" TCoord; dflt "nb_subdomain_grid_pts" TCoord no_coord; dflt "subdomain_locations" TCoord no_coord;
    dflt "sub_pts" TSub (ODict []); p_order];
   [need "nb_domain_grid_pts" TCoord; need "nb_subdomain_grid_pts" TCoord; need "subdomain_locations" TCoord; need "pixels_strides" TCoord;
    need "sub_pts" TSub; p_order];
   [need "nb_domain_grid_pts" TCoord; need "nb_subdomain_grid_pts" TCoord; need "subdomain_locations" TCoord; need "pixels_storage_order" TOrder;
    need "sub_pts" TSub; p_order]].
Definition init_sigs : list (list param) :=
  [[need "nb_domain_grid_pts" TCoord; need "nb_subdomain_grid_pts" TCoord; need "subdomain_locations" TCoord; need "pixels_strides" TCoord];
   [need "nb_domain_grid_pts" TCoord; dflt "nb_subdomain_grid_pts" TCoord no_coord; dflt "subdomain_locations" TCoord no_coord;
    dflt "pixels_storage_order" TOrder (OOrder Automatic)]].
(** 500-512 [LocalFieldCollection] *)
Definition local_sigs : list (list param) :=
  [[need "spatial_dimension" TDim; dflt "nb_sub_pts" TSub (ODict [])];
   [need "spatial_dimension" TDim; need "name" TName; dflt "nb_sub_pts" TSub (ODict [])]].
Local Close Scope string_scope.

Section Calls.
Context {A : Type} (zero : A).
(** A collection with its spatial dimension (field_collection.hh:865) and, if it is a
    local one, its name (field_collection_local.hh:138). *)
Record pycoll := mk_pycoll { y_dim : Z; y_name : string; y_coll : coll A }.
(** field_collection_global.cc:41-83; an exception in [initialise] leaves no object *)
Definition built (dim : Z) (c : res (coll A)) (init : coll A -> coll A * res unit) : res pycoll :=
  let! c := c in
  match init c with (c', Ok _) => Ok (mk_pycoll dim "" c') | (_, Err e) => Err e | (_, UB) => UB end.
Definition idle (c : coll A) : coll A * res unit := (c, Ok tt).
Definition dims (l : list Z) : Z := Z.of_nat (length l).
Definition make_global (call : nat * list loaded) : option (res pycoll) :=
  match snd call with
  | [LDim d] => Some (built d (new_coll true ColMajor []) idle)
  | [LDim d; LSub m; LOrder o] => Some (built d (new_coll true o m) idle)
  | [LCoord nd; LCoord nsd; LCoord loc; LSub m; LOrder o] =>
      Some (built (dims nd) (new_coll true o m) (fun c => init_global_order zero c nd nsd loc Automatic))
  | [LCoord nd; LCoord nsd; LCoord loc; LCoord s; LSub m; LOrder o] =>
      Some (built (dims nd) (new_coll true o m) (fun c => init_global zero c nd nsd loc s))
  | [LCoord nd; LCoord nsd; LCoord loc; LOrder po; LSub m; LOrder o] =>
      Some (built (dims nd) (new_coll true o m) (fun c => init_global_order zero c nd nsd loc po))
  | _ => None
  end.
(** None: [TypeError] *)
Definition py_global (pos : list pyobj) (kw : list (string * pyobj)) : option (res pycoll) :=
  match select global_sigs pos kw with Some call => make_global call | None => None end.
(** [initialise]: the object stays, also after an exception; field_collection_global.cc:86-150 *)
Definition with_coll (y : pycoll) (r : coll A * res unit) : pycoll * res unit := (mk_pycoll (y_dim y) (y_name y) (fst r), snd r).
Definition py_initialise (y : pycoll) (pos : list pyobj) (kw : list (string * pyobj)) : option (pycoll * res unit) :=
  match select init_sigs pos kw with
  | Some (_, [LCoord nd; LCoord nsd; LCoord loc; LCoord s]) => Some (with_coll y (init_global zero (y_coll y) nd nsd loc s))
  | Some (_, [LCoord nd; LCoord nsd; LCoord loc; LOrder po]) => Some (with_coll y (init_global_order zero (y_coll y) nd nsd loc po))
  | _ => None
  end.
(** field_collection_local.cc:41-52 *)
Definition named_local (d : Z) (name : string) (m : list (string * Z)) : res pycoll :=
  let! c := new_coll false ColMajor m in Ok (mk_pycoll d name c).
Definition py_local (pos : list pyobj) (kw : list (string * pyobj)) : option (res pycoll) :=
  match select local_sigs pos kw with
  | Some (_, [LDim d; LSub m]) => Some (named_local d "LocalFieldCollectionName" m)
  | Some (_, [LDim d; LName s; LSub m]) => Some (named_local d s m)
  | _ => None
  end.
(** 513-518 [add_pixel]: a [size_t], kept as [Index_t] (field_collection_local.cc:54-63) *)
Definition py_add_pixel (y : pycoll) (x : pynum) : option (pycoll * res unit) :=
  match load_integer true 0 (2 ^ 64 - 1) x with
  | Some (VZ i) => Some (with_coll y (add_pixel (y_coll y) (if i <? 2 ^ 63 then i else i - 2 ^ 64)))
  | _ => None
  end.
End Calls.
Arguments pycoll A : clear implicits.
