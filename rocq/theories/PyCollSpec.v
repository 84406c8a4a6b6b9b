(** What programs expect of the constructors of collections in Python. *)
From Coq Require Import String.
From Verif Require Import Base GridModel LayoutModel RegistryModel PyCommModel PyArgModel PyArgSpec PyCollModel.
Local Open Scope Z_scope.
Local Open Scope list_scope.

(** Arguments in the usual forms: coordinates, numbers of sub-points by tag. *)
Definition coord_arg (v : pyobj) (l : list Z) : Prop :=
  v = OArg (ACoord l) \/ ((v = OArg (int_seq KList l) \/ v = OArg (int_seq KTuple l)) /\ Forall index64 l /\ (length l <= 3)%nat).
Definition sub_arg (v : pyobj) (m : list (string * Z)) : Prop :=
  v = ODict (map (fun p => (fst p, int_arg (snd p))) m) /\ Forall (fun p => index64 (snd p)) m.
Definition order_arg (v : pyobj) (o : storder) : Prop := v = OOrder o.

(** A call with arguments by position, then by keyword: the names of the parameters in
    their order, each given at most once. *)
Definition well_formed (names : list string) (pos : list pyobj) (kw : list (string * pyobj)) : Prop :=
  (length pos <= length names)%nat /\ Forall (fun p => In (fst p) (skipn (length pos) names)) kw.
Definition argument (pos : list pyobj) (kw : list (string * pyobj)) (i : nat) (name : string) : option pyobj :=
  match nth_error pos i with Some v => Some v | None => lookup name kw end.
Definition given {B} (P : pyobj -> B -> Prop) (x : B) (a : option pyobj) : Prop := match a with Some v => P v x | None => False end.
Definition given_or {B} (P : pyobj -> B -> Prop) (d x : B) (a : option pyobj) : Prop := match a with Some v => P v x | None => x = d end.

Definition domain_names := (["nb_domain_grid_pts"; "nb_subdomain_grid_pts"; "subdomain_locations"; "sub_pts"; "storage_order"])%string.
Definition strides_names := (["nb_domain_grid_pts"; "nb_subdomain_grid_pts"; "subdomain_locations"; "pixels_strides"; "sub_pts"; "storage_order"])%string.
Definition pixorder_names := (["nb_domain_grid_pts"; "nb_subdomain_grid_pts"; "subdomain_locations"; "pixels_storage_order"; "sub_pts"; "storage_order"])%string.
Definition dim_arg (v : pyobj) (d : Z) : Prop := v = OArg (int_arg d) /\ index64 d.
Definition name_arg (v : pyobj) (s : string) : Prop := v = OStr s.
(** What a C++ program gets that creates a collection and initialises it. *)
Definition made {A} (zero : A) (dim : Z) (name : string) (c : res (coll A)) (init : option (op A)) : res (pycoll A) :=
  match c with
  | Ok c =>
      match init with
      | None => Ok (mk_pycoll dim name c)
      | Some o => match snd (step zero c o) with Ok _ => Ok (mk_pycoll dim name (fst (step zero c o))) | Err e => Err e | UB => UB end
      end
  | Err e => Err e
  | UB => UB
  end.
(** Pixels one after the other, first or last coordinate fastest *)
Definition first_fastest (n s : list Z) : Prop := length s = length n /\ forall k, (k < length n)%nat -> zn s k = zprod (firstn k n).
Definition last_fastest (n s : list Z) : Prop := length s = length n /\ forall k, (k < length n)%nat -> zn s k = zprod (skipn (S k) n).
