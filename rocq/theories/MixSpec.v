(** What the theorems on arrays on global and local collections and files speak of. *)
From Coq Require Import String Sorting.Sorted.
From Verif Require Import Base GridSpec LayoutModel LayoutSpec FieldModel RegistryModel RegistrySpec NumpyModel PyArrayModel PyArraySpec.
From Verif Require Import FrameModel NetCDFModel NetCDFSpec SessionModel StackModel StackSpec MixModel.
Local Open Scope Z_scope.
Local Open Scope list_scope.

(** What all programs agree on: the domain with the fields on all of it, and the
    local collections with their fields, pixels and number of pixels. *)
Record lot := mk_lot { o_name : string; o_items : list item; o_pixels : list Z -> Prop; o_total : Z }.
Record design := mk_design { d_base : scheme; d_lots : list lot }.
(** Fields, with the collection they belong to. *)
Definition holdings (D : design) : list (option string * item) :=
  map (pair None) (sc_items (d_base D)) ++ flat_map (fun t => map (pair (Some (o_name t))) (o_items t)) (d_lots D).
Definition field_names (D : design) : list string := map (fun h => i_name (snd h)) (holdings D).
(** Names are used once, and are such that the file accepts them (see C66). *)
Definition workable (D : design) : Prop :=
  (length (sc_dom (d_base D)) <= 3)%nat /\ NoDup (field_names D ++ map o_name (d_lots D)) /\
  (forall p q, In (p, q) (holdings D) -> plain_name (i_name q) /\ plain_name (i_tag q) /\
    Z.of_nat (length (i_comp q)) <= 2 ^ 31 /\ (zprod (i_comp q) = 1 -> i_nsub q = 1) /\
    (p <> None -> zprod (i_comp q) * i_nsub q < 2 ^ 31)) /\
  forall t, In t (d_lots D) -> plain_name (o_name t) /\ 0 < o_total t.

(** The number of pixel [x] of a box, by columns. *)
Fixpoint number (n x : list Z) : Z :=
  match n, x with
  | d :: n', y :: x' => y + d * number n' x'
  | _, _ => 0
  end.

Section Spec.
Context {A : Type} (zero junk : A).

(** The number that a process gives to a pixel of its part of the domain. *)
Definition number_of (y : player A) (x : list Z) : Z := number (box (y_base y)) (shift (m_loc (y_base y)) x).

(** A process made a local collection and made calls on it. *)
Definition begun_local (l : list (pycall A)) (m : member A) : Prop :=
  exists tags c0, new_coll false ColMajor tags = Ok c0 /\ positive_tags tags /\
    Forall orderly l /\ m = member_run zero junk (mk_member (PyArrayModel.mk_session c0 []) [] []) l.
(** It took arrays only when the collection was initialised.  The collection has the
    pixels of the process, by their numbers, in increasing order; and the fields. *)
Definition prepared_local (t : lot) (y : player A) (m : member A) : Prop :=
  (exists l0 m0 l1, begun_local l0 m0 /\ initialised (m_py m0) /\ p_views (m_py m0) = [] /\
     Forall orderly l1 /\ m = member_run zero junk m0 l1) /\
  StronglySorted Z.lt (pixel_ids m) /\
  (forall i, In i (pixel_ids m) -> exists x, has (y_base y) x /\ i = number_of y x) /\
  (forall x, has (y_base y) x -> (In (number_of y x) (pixel_ids m) <-> o_pixels t x)) /\
  forall q, In q (o_items t) -> exists r, get_field (p_coll (m_py m)) (i_name q) = Ok r /\
    l_comp (f_lay (rf_field r)) = i_comp q /\ l_nsub (f_lay (rf_field r)) = i_nsub q /\ rf_tag r = i_tag q /\ rf_type r <> Complex.
(** The processes of a program share the domain and the local collections. *)
Definition assembled (D : design) (ys : list (player A)) : Prop :=
  together zero junk (d_base D) (map y_base ys) /\
  forall t, In t (d_lots D) ->
    (forall y, In y ys -> exists m, y_locals y (o_name t) = Some m /\ prepared_local t y m) /\
    zsum (map (fun y => Z.of_nat (length (ids_of y (o_name t)))) ys) = o_total t.

(** What programs do: they register all fields, in any order, and transfer some. *)
Definition all_local_names (D : design) (ls : list (string * list string)) : Prop :=
  NoDup (map fst ls) /\ (forall t, In t (d_lots D) -> In (o_name t) (map fst ls)) /\
  forall l names, In (l, names) ls -> exists t, In t (d_lots D) /\ o_name t = l /\ NoDup names /\
    forall n, In n names <-> In n (map i_name (o_items t)).
(** The file is open, and the mode is this one. *)
Definition in_mode (s : ystate A) (md : smode) : Prop :=
  z_open s = true /\ exists f, z_file s = Some f /\ se_mode f = md.
(** [known] are the local collections of which a field was written by the program that
    made the file; these have their pixels there. *)
Definition pixels_known (D : design) (known : list string) (names : list string) : Prop :=
  forall l q, In (Some l, q) (holdings D) -> In (i_name q) names -> In l known.
(** Local fields are read, or written to a file that is extended, only if so. *)
Definition proper_mix (D : design) (known : list string) (s : ystate A) (k : ycall A) : Prop :=
  match k with
  | YPy _ _ c => orderly c
  | YRun next => assembled D next
  | YCreate gnames ls _ | YOpen _ gnames ls => all_names (d_base D) gnames /\ all_local_names D ls
  | YWrite _ names => incl names (field_names D) /\ (in_mode s Appending -> pixels_known D known names)
  | YRead _ names => incl names (field_names D) /\ pixels_known D known names
  | YClose | YAppendFrame => True
  end.
Definition colls_in (D : design) (names : list string) : list string :=
  flat_map (fun h => match fst h with
                     | Some l => if existsb (String.eqb (i_name (snd h))) names then [l] else []
                     | None => [] end) (holdings D).
Definition creating (s : ystate A) : bool :=
  match z_file s with Some f => z_open s && match se_mode f with Creating => true | _ => false end | None => false end.
Definition learns (D : design) (known : list string) (s : ystate A) (k : ycall A) : list string :=
  match k with
  | YCreate _ _ _ => []
  | YWrite _ names => if creating s && is_ok (snd (ystep zero junk s k)) then colls_in D names ++ known else known
  | _ => known
  end.
(** They go on also if calls fail; each call satisfies [K]. *)
Inductive plays (D : design) (K : ystate A -> ycall A -> Prop) : ystate A -> list string -> list (ycall A) -> ystate A -> list string -> Prop :=
| plays_end s known : plays D K s known [] s known
| plays_step s known k l s' known' : proper_mix D known s k -> K s k ->
    plays D K (fst (ystep zero junk s k)) (learns D known s k) l s' known' -> plays D K s known (k :: l) s' known'.
Definition any_ycall (s : ystate A) (k : ycall A) : Prop := True.
(** The number of frames of the open file. *)
Definition nb_frames (s : ystate A) : Z := match z_file s with Some f => se_nb f | None => 0 end.
(** The frame of the field is not written again, and the file is not replaced. *)
Definition leaves_mix (name : string) (fr : Z) (s : ystate A) (k : ycall A) : Prop :=
  match k with
  | YCreate _ _ _ => False
  | YWrite k names => ~ (In name names /\ accessed k (nb_frames s) = Ok fr)
  | _ => True
  end.
(** The file is open, in a mode that allows writing. *)
Definition writable_mix (s : ystate A) : Prop :=
  z_open s = true /\ exists f, z_file s = Some f /\ se_mode f <> Reading.

(** Array [v] of collection [p] of process [i] is one of the field with this name, with
    sub-points. *)
Definition array_at (s : ystate A) (i : nat) (p : option string) (v : nat) (name : string) (y : player A) (m : member A) : Prop :=
  nth_error (z_players s) i = Some y /\ slot y p = Some m /\
  exists w, nth_error (p_views (m_py m)) v = Some w /\ PyArrayModel.v_name w = name /\ v_unit w = SubPt.
(** Pixel [x] of the domain has the index [idx] in arrays of collection [p]. *)
Definition indexed (y : player A) (p : option string) (x idx : list Z) : Prop :=
  has (y_base y) x /\
  match p with
  | None => idx = shift (m_loc (y_base y)) x
  | Some l => exists j, nth_error (ids_of y l) j = Some (number_of y x) /\ idx = [Z.of_nat j]
  end.
End Spec.
