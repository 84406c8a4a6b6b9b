(** What the theorems on arrays in Python programs speak of. *)
From Coq Require Import String.
From Verif Require Import Base GridSpec LayoutModel LayoutSpec FieldModel RegistryModel RegistrySpec NumpyModel NumpySpec PyArrayModel.
Local Open Scope Z_scope.
Local Open Scope list_scope.

(** Calls within the documented use: fields have at least one component. *)
Definition orderly {A} (k : pycall A) : Prop :=
  match k with PColl (ORegister _ _ comp _ _ _) => positive comp | _ => True end.

(** A program up to some point: it made a collection and went on with calls. *)
Definition program {A} (zero junk : A) (glob : bool) (l : list (pycall A)) (s : session A) : Prop :=
  exists order tags c0, (order = ColMajor \/ order = RowMajor) /\ new_coll glob order tags = Ok c0 /\ positive_tags tags /\
    Forall orderly l /\ s = pyrun zero junk (mk_session c0 []) l.

(** The collection is initialised. *)
Definition initialised {A} (s : session A) : Prop := c_init (p_coll s) = true.
(** The program has not asked for initialisation. *)
Definition asks_init {A} (k : pycall A) : Prop := match k with PColl o => initialises o | _ => False end.

(** The program asks for an array of a field, and goes on. *)
Definition took {A} (zero junk : A) (s : session A) (name : string) (u : iter_unit) (l : list (pycall A)) (s' : session A)
    (i : nat) : Prop :=
  exists s1, pystep zero junk s (PArray name u) = (s1, Ok tt) /\ Forall orderly l /\
    s' = pyrun zero junk s1 l /\ i = length (p_views s).
