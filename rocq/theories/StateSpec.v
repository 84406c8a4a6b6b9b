(** Specification vocabulary for state fields. *)
From Coq Require Import String.
From Verif Require Import Base GridSpec LayoutModel LayoutSpec FieldModel FieldSpec RegistryModel RegistrySpec StateModel.
Local Open Scope Z_scope.

(** A state reached from a fresh collection by any history. *)
Definition sreachable {A} (zero : A) (y : sys A) : Prop :=
  exists glob order tags c0 h, new_coll glob order tags = Ok c0 /\ y = srun zero (mk_sys c0 []) h.

(** The field a collection operation names. *)
Definition names_field {A} (o : op A) : option string :=
  match o with
  | ORegister n _ _ _ _ _ | OPop n | OSetPad n _ | OPush n _ | OPushSingle n _ | OReshape n _ | OReshapeTag n _ _ | OWrite n _ _ => Some n
  | _ => None
  end.
(** The operation does not reach behind the state field's back: it does not
    name one of its sub-fields. *)
Definition leaves_alone {A} (prefix : string) (mem : Z) (o : sop A) : Prop :=
  match o with
  | SColl o' => forall nm, names_field o' = Some nm -> ~ In nm (sub_names prefix mem)
  | _ => True
  end.

(** Number of cycles of one state field in a history. *)
Definition cycles {A} (prefix : string) (h : list (sop A)) : nat :=
  length (filter (fun o => match o with SCycle p => String.eqb p prefix | _ => false end) h).

(** A state field with this memory all of whose sub-fields are still
    registered and know their number of sub-points. *)
Definition holds_state {A} (y : sys A) (prefix : string) (mem : Z) : Prop :=
  (exists s, get_state y prefix = Ok s /\ s_mem s = mem) /\
  forall nm, In nm (sub_names prefix mem) -> exists r, get_field (y_coll y) nm = Ok r /\ has_nsub (rf_field r) = true.

(** The scalars held [k] steps ago (0: currently). *)
Definition scalars_at {A} (y : sys A) (prefix : string) (k : nat) : res (list A) :=
  let! r := field_at y prefix k in Ok (f_vals (rf_field r)).

Definition power_of_two (n : Z) : Prop := exists p, 0 <= p /\ n = 2 ^ p.

(** A sub-field with the attributes asked for at registration. *)
Definition as_requested {A} (r : rfield A) ty nbc tag u nsub : Prop :=
  rf_tag r = tag /\ rf_unit r = u /\ rf_type r = ty /\ l_comp (f_lay (rf_field r)) = [nbc] /\ l_nbc (f_lay (rf_field r)) = nbc /\ l_nsub (f_lay (rf_field r)) = nsub.

(** What an entry of a state-field map is, by means of a map made on the spot. *)
Definition fresh_entry {A} (y : sys A) p k u rows i : res (list A) :=
  let! r := field_at y p k in let! m := new_map (rf_field r) u (Some rows) in map_entry m (rf_field r) i.
