(** Specification vocabulary for lifetimes. *)
From Coq Require Import String.
From Verif Require Import Base LayoutModel FieldModel RegistryModel RegistrySpec MapModel LifeModel.
Local Open Scope Z_scope.
Local Open Scope list_scope.

(** Map [i] is alive and maps the field registered under [name]. *)
Definition maps_field {A} (w : world A) (i : nat) (name : string) (m : fmap) : Prop :=
  exists id, lookup name (w_ids w) = Some id /\ nlookup i (w_maps w) = Some (mk_lmap id m).
(** No living map refers to the field object [id]. *)
Definition unmapped {A} (w : world A) (id : nat) : Prop := forall i lm, nlookup i (w_maps w) = Some lm -> lm_field lm <> id.

(** Fields end after their maps. *)
Definition tidy {A} (w : world A) (o : wop A) : Prop :=
  match o with WDropField id => unmapped w id | _ => True end.
(** Moreover no mapped field is removed, padded or reshaped, and requests are
    sensible. *)
Definition calm {A} (w : world A) (o : wop A) : Prop :=
  tidy w o /\
  match o with
  | WColl o => sensible true (w_coll w) o /\
      match o with
      | OPop n | OSetPad n _ | OReshape n _ | OReshapeTag n _ _ => forall id, lookup n (w_ids w) = Some id -> unmapped w id
      | _ => True
      end
  | _ => True
  end.

(** Worlds reached from a new collection by operations that all satisfy [P]. *)
Inductive lives {A} (zero : A) (P : world A -> wop A -> Prop) : world A -> Prop :=
| lives_start glob order tags c0 : new_coll glob order tags = Ok c0 -> positive_tags tags -> lives zero P (start c0)
| lives_step w o : lives zero P w -> P w o -> lives zero P (fst (wstep zero w o)).
(** Worlds reached later. *)
Inductive later {A} (zero : A) (P : world A -> wop A -> Prop) (w0 : world A) : world A -> Prop :=
| later_now : later zero P w0 w0
| later_step w o : later zero P w0 w -> P w o -> later zero P w0 (fst (wstep zero w o)).

(** Entries of a map have the same shape as those of another, and both refer to
    one field object. *)
Definition same_entries (a b : lmap) : Prop :=
  lm_field b = lm_field a /\ m_unit (lm_map b) = m_unit (lm_map a) /\ m_stride (lm_map b) = m_stride (lm_map a) /\
  m_rows (lm_map b) = m_rows (lm_map a) /\ m_cols (lm_map b) = m_cols (lm_map a).
(** The map [m] has the number of rows its creator asked for. *)
Definition rows_asked {A} (f : field A) (k : map_kind) (m : fmap) : Prop :=
  match k with
  | KDefault => m_rows m = l_nbc (f_lay f)
  | KRows r => m_rows m = r
  | KStatic t => m_rows m = it_rows t
  end.
