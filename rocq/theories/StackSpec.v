(** What the theorems on arrays and files speak of. *)
From Coq Require Import String.
From Verif Require Import Base GridSpec LayoutModel LayoutSpec FieldModel RegistryModel RegistrySpec NumpyModel PyArrayModel PyArraySpec.
From Verif Require Import FrameModel NetCDFModel NetCDFSpec SessionModel StackModel.
Local Open Scope Z_scope.
Local Open Scope list_scope.

(** What all programs agree on: the domain, and the fields in the file. *)
Record item := mk_item { i_name : string; i_comp : list Z; i_nsub : Z; i_tag : string }.
Record scheme := mk_scheme { sc_dom : list Z; sc_items : list item }.
(** Names are used once, and are such that the file accepts them (see C66). *)
Definition acceptable (S : scheme) : Prop :=
  (length (sc_dom S) <= 3)%nat /\ NoDup (map i_name (sc_items S)) /\
  forall q, In q (sc_items S) -> plain_name (i_name q) /\ plain_name (i_tag q) /\
    Z.of_nat (length (i_comp q)) <= 2 ^ 31 /\ (zprod (i_comp q) = 1 -> i_nsub q = 1).

Section Spec.
Context {A : Type} (zero junk : A).

(** The pixels of a process. *)
Definition box (m : member A) : list Z := c_pix (p_coll (m_py m)).
Definition has (m : member A) (x : list Z) : Prop := in_box (box m) (m_loc m) x.

(** A process made a collection and made calls. *)
Definition begun (l : list (pycall A)) (m : member A) : Prop :=
  exists order tags c0, (order = ColMajor \/ order = RowMajor) /\ new_coll true order tags = Ok c0 /\ positive_tags tags /\
    Forall orderly l /\ m = member_run zero junk (mk_member (PyArrayModel.mk_session c0 []) [] []) l.
(** It took arrays only when the collection was initialised, with distinct places
    for the pixels of a part of the domain, and has the fields. *)
Definition prepared (S : scheme) (m : member A) : Prop :=
  (exists l0 m0 l1, begun l0 m0 /\ initialised (m_py m0) /\ p_views (m_py m0) = [] /\ good_pixels (p_coll (m_py m0)) /\
     Forall orderly l1 /\ m = member_run zero junk m0 l1) /\
  m_dom m = sc_dom S /\ length (m_loc m) = length (sc_dom S) /\ length (box m) = length (sc_dom S) /\
  (forall i, (i < length (sc_dom S))%nat -> 0 <= zn (m_loc m) i /\ 0 < zn (box m) i /\ zn (m_loc m) i + zn (box m) i <= zn (sc_dom S) i) /\
  forall q, In q (sc_items S) -> exists r, get_field (p_coll (m_py m)) (i_name q) = Ok r /\
    l_comp (f_lay (rf_field r)) = i_comp q /\ l_nsub (f_lay (rf_field r)) = i_nsub q /\ rf_tag r = i_tag q /\ rf_type r <> Complex.
(** The processes of a program share the domain. *)
Definition together (S : scheme) (ms : list (member A)) : Prop :=
  ms <> [] /\ Forall (prepared S) ms /\
  ForallOrdPairs (fun a b => forall x, has a x -> has b x -> False) ms /\
  (forall x, in_shape (sc_dom S) x -> exists m, In m ms /\ has m x).

(** What programs do: they register all fields in any order, and transfer some. *)
Definition all_names (S : scheme) (names : list string) : Prop :=
  NoDup names /\ forall n, In n names <-> In n (map i_name (sc_items S)).
Definition proper (S : scheme) (k : call A) : Prop :=
  match k with
  | TPy _ c => orderly c
  | TRun next => together S next
  | TCreate names _ | TOpen _ names => all_names S names
  | TWrite _ names | TRead _ names => incl names (map i_name (sc_items S))
  | TClose | TAppendFrame => True
  end.
(** They go on also if calls fail; each call satisfies [K]. *)
Inductive runs (S : scheme) (K : state A -> call A -> Prop) : state A -> list (call A) -> state A -> Prop :=
| runs_end s : runs S K s [] s
| runs_step s k l s' : proper S k -> K s k -> runs S K (fst (tstep zero junk s k)) l s' -> runs S K s (k :: l) s'.
Definition any_call (s : state A) (k : call A) : Prop := True.
(** The number of frames of the open file. *)
Definition frames (s : state A) : Z := match t_file s with Some f => se_nb f | None => 0 end.
(** The frame of the field is not written again, and the file is not replaced. *)
Definition leaves (name : string) (fr : Z) (s : state A) (k : call A) : Prop :=
  match k with
  | TCreate _ _ => False
  | TWrite k names => ~ (In name names /\ accessed k (frames s) = Ok fr)
  | _ => True
  end.
(** The file is open, in a mode that allows writing. *)
Definition writable (s : state A) : Prop :=
  t_open s = true /\ exists f, t_file s = Some f /\ se_mode f <> Reading.

(** Array [v] of process [i] is one of the field with this name, with sub-points. *)
Definition array_of (s : state A) (i v : nat) (name : string) (m : member A) : Prop :=
  nth_error (t_members s) i = Some m /\
  exists w, nth_error (p_views (m_py m)) v = Some w /\ PyArrayModel.v_name w = name /\ v_unit w = SubPt.
(** At the place of component [c] and sub-point [b] of pixel [x] of the domain, it
    has the value [a]. *)
Definition shows (m : member A) (v : nat) (c : list Z) (b : Z) (x : list Z) (a : A) : Prop :=
  view_get (m_py m) v (c ++ b :: shift (m_loc m) x) = Ok a.
End Spec.
