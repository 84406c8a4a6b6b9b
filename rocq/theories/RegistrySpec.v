(** Specification vocabulary for field collections. *)
From Coq Require Import String.
From Verif Require Import Base GridSpec LayoutModel LayoutSpec FieldModel FieldSpec RegistryModel.
Local Open Scope Z_scope.

(** A state reached from a freshly constructed collection by some history. *)
Definition reachable {A} (zero : A) (c : coll A) : Prop :=
  exists glob order tags c0 h, new_coll glob order tags = Ok c0 /\ c = run zero c0 h.

(** What a field sees of its collection is what the collection holds. *)
Definition sees {A} (c : coll A) (f : field A) : Prop :=
  l_order (f_lay f) = c_order c /\ l_pix (f_lay f) = c_pix c /\ l_pstr (f_lay f) = c_pstr c /\
  l_npix (f_lay f) = c_npix c /\ l_nbuf (f_lay f) = c_nbuf c /\ f_glob f = c_glob c /\ f_init f = c_init c.

(** Requests within the documented use: at least one component, no negative
    pad, and no pushes once the collection is initialised.  With [strict], a
    field of an initialised collection is not moved to a sub-division with
    another number of points either. *)
Definition positive (comp : Z + list Z) : Prop :=
  match comp with inl n => 0 < n < 2 ^ 31 | inr s => Forall (fun x => 0 < x) s /\ zprod s < 2 ^ 31 end.
Definition sensible {A} (strict : bool) (c : coll A) (o : op A) : Prop :=
  match o with
  | ORegister _ _ comp _ _ _ => positive comp
  | OSetPad _ p => 0 <= p
  | OPush _ _ | OPushSingle _ _ => c_init c = false
  | OReshape _ s => Forall (fun x => 0 < x) s /\ zprod s < 2 ^ 31
  | OReshapeTag name s tag => Forall (fun x => 0 < x) s /\ zprod s < 2 ^ 31 /\
      (strict = true -> c_init c = true -> forall r, get_field c name = Ok r -> sub_pts_of c tag = l_nsub (f_lay (rf_field r)))
  | _ => True
  end.
Fixpoint sensible_history {A} (zero : A) (strict : bool) (c : coll A) (h : list (op A)) : Prop :=
  match h with
  | [] => True
  | o :: r => sensible strict c o /\ sensible_history zero strict (fst (step zero c o)) r
  end.
(** Sub-point numbers handed to the constructor are positive. *)
Definition positive_tags (tags : list (string * Z)) : Prop := Forall (fun p => 0 < snd p) tags.

(** States reached by sensible histories. *)
Definition sensibly_reachable {A} (zero : A) (strict : bool) (c : coll A) : Prop :=
  exists glob order tags c0 h, new_coll glob order tags = Ok c0 /\ positive_tags tags /\
    sensible_history zero strict c0 h /\ c = run zero c0 h.

(** The operation initialises a collection. *)
Definition initialises {A} (o : op A) : Prop :=
  match o with OInitLocal | OInitGlobal _ _ _ _ | OInitGlobalOrder _ _ _ _ => True | _ => False end.

(** The pixels of a collection address distinct places of its buffer. *)
Definition good_pixels {A} (c : coll A) : Prop :=
  (c_order c = ColMajor \/ c_order c = RowMajor) /\ embeds (c_pix c) (c_pstr c) (c_nbuf c) /\
  c_npix c = zprod (c_pix c) /\ 0 <= c_npix c <= c_nbuf c.
