(** What the theorems on programs with state fields and files speak of. *)
From Coq Require Import String.
From Verif Require Import Base GridSpec LayoutModel LayoutSpec FieldModel RegistryModel RegistrySpec StateModel StateSpec NumpyModel PyArrayModel PyArraySpec.
From Verif Require Import FrameModel NetCDFModel NetCDFSpec SessionModel StackModel StackSpec ResumeModel.
Local Open Scope Z_scope.
Local Open Scope list_scope.

(** What all programs agree on: the domain, and the fields and state fields in the file.
    [g_mem] is the number of old states that a state field keeps. *)
Record thing := mk_thing { g_item : item; g_mem : option Z }.
Record design := mk_design { ds_dom : list Z; ds_things : list thing }.
Definition g_name (g : thing) : string := i_name (g_item g).
Definition stateful (g : thing) : bool := match g_mem g with Some _ => true | None => false end.
(** The states: the current one is 0, [h] is the one [h] steps ago. *)
Definition state_of (g : thing) (h : Z) : Prop := match g_mem g with None => h = 0 | Some mem => 0 <= h <= mem end.
(** Names are used once, and are such that the file accepts them (see C66); none is that
    of a field that belongs to a state field. *)
Definition suitable (D : design) : Prop :=
  (length (ds_dom D) <= 3)%nat /\ NoDup (map g_name (ds_things D)) /\
  forall g, In g (ds_things D) -> plain_name (g_name g) /\ plain_name (i_tag (g_item g)) /\
    Z.of_nat (length (i_comp (g_item g))) <= 2 ^ 31 /\ (zprod (i_comp (g_item g)) = 1 -> i_nsub (g_item g) = 1) /\
    (forall mem, g_mem g = Some mem -> 1 <= mem) /\
    (forall g' i, In g' (ds_things D) -> stateful g' = true -> g_name g <> sub_name (g_name g') i).
(** State fields rotate (see C22). *)
Definition rotating (D : design) : Prop :=
  forall g mem, In g (ds_things D) -> g_mem g = Some mem -> power_of_two (mem + 1).

Section Spec.
Context {A : Type} (zero junk : A).

(** Calls within the documented use: fields have at least one component. *)
Definition orderly_call (c : pcall A) : Prop :=
  match c with
  | RPy k => orderly k
  | RRegister _ _ _ nbc _ _ _ => positive (inl nbc)
  | _ => True
  end.
(** A process made a collection and made calls. *)
Definition set_out (l : list (pcall A)) (p : proc A) : Prop :=
  exists order tags c0, (order = ColMajor \/ order = RowMajor) /\ new_coll true order tags = Ok c0 /\ positive_tags tags /\
    Forall orderly_call l /\ p = proc_run zero junk (mk_proc (mk_member (PyArrayModel.mk_session c0 []) [] []) []) l.
(** A field of the collection with these properties. *)
Definition field_like (p : proc A) (name : string) (q : item) : Prop :=
  exists r, get_field (p_coll (m_py (r_m p))) name = Ok r /\ l_comp (f_lay (rf_field r)) = i_comp q /\
    l_nsub (f_lay (rf_field r)) = i_nsub q /\ rf_tag r = i_tag q /\ rf_type r <> Complex.
(** It took arrays only when the collection was initialised, with distinct places for the
    pixels of a part of the domain, and has the fields and state fields. *)
Definition outfitted (D : design) (p : proc A) : Prop :=
  (exists l0 p0 l1, set_out l0 p0 /\ initialised (m_py (r_m p0)) /\ p_views (m_py (r_m p0)) = [] /\ good_pixels (p_coll (m_py (r_m p0))) /\
     Forall orderly_call l1 /\ p = proc_run zero junk p0 l1) /\
  m_dom (r_m p) = ds_dom D /\ length (m_loc (r_m p)) = length (ds_dom D) /\ length (box (r_m p)) = length (ds_dom D) /\
  (forall i, (i < length (ds_dom D))%nat ->
     0 <= zn (m_loc (r_m p)) i /\ 0 < zn (box (r_m p)) i /\ zn (m_loc (r_m p)) i + zn (box (r_m p)) i <= zn (ds_dom D) i) /\
  forall g, In g (ds_things D) ->
    match g_mem g with
    | None => field_like p (g_name g) (g_item g)
    | Some mem => (exists s, get_state (sys_of p) (g_name g) = Ok s /\ s_mem s = mem) /\
                  forall n, In n (sub_names (g_name g) mem) -> field_like p n (g_item g)
    end.
(** The processes of a program share the domain. *)
Definition crew (D : design) (ps : list (proc A)) : Prop :=
  ps <> [] /\ Forall (outfitted D) ps /\
  ForallOrdPairs (fun a b => forall x, has (r_m a) x -> has (r_m b) x -> False) ps /\
  (forall x, in_shape (ds_dom D) x -> exists p, In p ps /\ has (r_m p) x).

(** What programs do: they register all state fields and fields in any order (and may
    name the fields that belong to the state fields, as they do by default), and
    transfer some. *)
Definition all_vars (D : design) (prefixes names : list string) : Prop :=
  NoDup prefixes /\ NoDup names /\
  (forall n, In n prefixes <-> exists g, In g (ds_things D) /\ stateful g = true /\ g_name g = n) /\
  (forall g, In g (ds_things D) -> stateful g = false -> In (g_name g) names) /\
  (forall n, In n names -> (exists g, In g (ds_things D) /\ stateful g = false /\ g_name g = n) \/
                           (exists g mem, In g (ds_things D) /\ g_mem g = Some mem /\ In n (sub_names (g_name g) mem))).
Definition proper_call (D : design) (k : rcall A) : Prop :=
  match k with
  | QProc _ c => orderly_call c
  | QRun next => crew D next
  | QCreate prefixes names _ | QOpen _ prefixes names => all_vars D prefixes names
  | QWrite _ names | QRead _ names => incl names (map g_name (ds_things D))
  | QClose | QAppendFrame => True
  end.
(** They go on also if calls fail; each call satisfies [K]. *)
Inductive executes (D : design) (K : rstate A -> rcall A -> Prop) : rstate A -> list (rcall A) -> rstate A -> Prop :=
| exec_end s : executes D K s [] s
| exec_step s k l s' : proper_call D k -> K s k -> executes D K (fst (rstep zero junk s k)) l s' -> executes D K s (k :: l) s'.
Definition whatever (s : rstate A) (k : rcall A) : Prop := True.
Definition begin (ps : list (proc A)) : rstate A := mk_rstate ps None false [].
(** The number of frames of the open file. *)
Definition nb_frames (s : rstate A) : Z := match r_file s with Some f => se_nb f | None => 0 end.
(** The frame is not written again for these variables, and the file is not replaced. *)
Definition preserves (names : list string) (fr : Z) (s : rstate A) (k : rcall A) : Prop :=
  match k with
  | QCreate _ _ _ => False
  | QWrite k names' => accessed k (nb_frames s) = Ok fr -> forall n, In n names -> ~ In n names'
  | _ => True
  end.
(** The file is open, in a mode that allows writing. *)
Definition writeable (s : rstate A) : Prop := r_open s = true /\ exists f, r_file s = Some f /\ se_mode f <> Reading.

(** ** What arrays show *)

(** The field with state [h], and a value in it: component [c] of sub-point [b] at pixel
    [x] of the domain, in an array that process [p] takes of it now. *)
Definition field_of (p : proc A) (g : thing) (h : Z) : res string :=
  match g_mem g with None => Ok (g_name g) | Some _ => name_at (sys_of p) (g_name g) (Z.to_nat h) end.
Definition sees (p : proc A) (g : thing) (h : Z) (c : list Z) (b : Z) (x : list Z) (a : A) : Prop :=
  exists n m, field_of p g h = Ok n /\ member_step zero junk (r_m p) (PArray n SubPt) = (m, Ok tt) /\
    shows m (length (p_views (m_py (r_m p)))) c b x a.
(** The value is [a] for the program: the process with pixel [x] sees it. *)
Definition shown (s : rstate A) (g : thing) (h : Z) (c : list Z) (b : Z) (x : list Z) (a : A) : Prop :=
  exists i p, nth_error (r_procs s) i = Some p /\ has (r_m p) x /\ sees p g h c b x a.
(** The places of a thing. *)
Definition place (D : design) (g : thing) (h : Z) (c : list Z) (b : Z) (x : list Z) : Prop :=
  In g (ds_things D) /\ state_of g h /\ in_shape (i_comp (g_item g)) c /\ 0 <= b < i_nsub (g_item g) /\ in_shape (ds_dom D) x.
(** Two programs have the same values everywhere. *)
Definition alike (D : design) (s t : rstate A) : Prop :=
  forall g h c b x a, place D g h c b x -> (shown s g h c b x a <-> shown t g h c b x a).

(** Array [v] of process [i] is one of state [h], with sub-points. *)
Definition array_on (s : rstate A) (i v : nat) (g : thing) (h : Z) (p : proc A) : Prop :=
  nth_error (r_procs s) i = Some p /\
  exists n w, field_of p g h = Ok n /\ nth_error (p_views (m_py (r_m p))) v = Some w /\ PyArrayModel.v_name w = n /\ v_unit w = SubPt.

(** ** What programs compute *)

(** Steps of a computation, whichever processes there are. *)
Inductive action :=
| Put (g : thing) (h : Z) (c : list Z) (b : Z) (x : list Z) (a : A)
| Cycle (g : thing).
(** A program makes these steps: the process with the pixel writes to an array of the
    state; all processes cycle the state field.  In between it makes calls that change
    none of the values. *)
Inductive computes (D : design) : rstate A -> list action -> rstate A -> Prop :=
| comp_end s : computes D s [] s
| comp_put s g h c b x a i v p acts s' :
    place D g h c b x -> array_on s i v g h p -> has (r_m p) x ->
    computes D (fst (rstep zero junk s (QProc i (RPy (PPut v (c ++ b :: shift (m_loc (r_m p)) x) a))))) acts s' ->
    computes D s (Put g h c b x a :: acts) s'
| comp_cycle s g acts s' :
    In g (ds_things D) -> stateful g = true ->
    computes D (fold_left (fun s i => fst (rstep zero junk s (QProc i (RCycle (g_name g))))) (seq 0 (length (r_procs s))) s) acts s' ->
    computes D s (Cycle g :: acts) s'
| comp_other s k acts s' :
    proper_call D k -> alike D s (fst (rstep zero junk s k)) -> computes D (fst (rstep zero junk s k)) acts s' ->
    computes D s acts s'.
(** Calls that take arrays, or do things to the file. *)
Definition quiet (k : rcall A) : Prop :=
  match k with
  | QProc _ (RArray _ _ _) | QProc _ (RPy (PArray _ _)) => True
  | QCreate _ _ _ | QOpen _ _ _ | QClose | QAppendFrame | QWrite _ _ => True
  | _ => False
  end.
(** The steps there are. *)
Definition feasible (D : design) (act : action) : Prop := match act with Put g h c b x _ => place D g h c b x | Cycle g => In g (ds_things D) /\ stateful g = true end.

(** A program writes everything to a frame.  Later that frame is read, by whichever
    program has the file open then, after anything that does not write the frame again.
    Then the two programs have the same values, and still have after any computation
    that both carry out. *)
Definition continues_alike (D : design) : Prop :=
  forall ps l s1 k names fr, crew D ps -> executes D whatever (begin ps) l s1 -> writeable s1 ->
    incl names (map g_name (ds_things D)) -> incl (map g_name (ds_things D)) names -> accessed k (nb_frames s1) = Ok fr ->
    exists s2, rstep zero junk s1 (QWrite k names) = (s2, Ok tt) /\ alike D s1 s2 /\
    forall l' s3 k' names', executes D (preserves names fr) s2 l' s3 -> r_open s3 = true ->
      incl names' (map g_name (ds_things D)) -> incl (map g_name (ds_things D)) names' -> accessed k' (nb_frames s3) = Ok fr ->
      exists s4, rstep zero junk s3 (QRead k' names') = (s4, Ok tt) /\ alike D s1 s4 /\
      forall acts sa sb, computes D s1 acts sa -> computes D s4 acts sb -> alike D sa sb.
End Spec.
Arguments action A : clear implicits.
