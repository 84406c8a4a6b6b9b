(** C144, C145: arrays of fields in Python programs. *)
From Coq Require Import String.
From Verif Require Import Base CIntModel GridModel GridSpec StridedModel UnitsModel LayoutModel LayoutSpec FieldModel.
From Verif Require Import RegistryModel RegistrySpec NumpyModel NumpySpec PyArrayModel PyArraySpec PyArrayProofs.
Local Open Scope Z_scope.
Local Open Scope list_scope.
Local Open Scope string_scope.

(** Fields of initialised collections give arrays. *)
Theorem C144_given {A} (zero junk : A) s name u r : get_field (p_coll s) name = Ok r -> viewable (f_lay (rf_field r)) u ->
  Forall (fun n => 0 <= n) (l_pix (f_lay (rf_field r))) -> exists s1, pystep zero junk s (PArray name u) = (s1, Ok tt).
Proof. apply array_given. Qed.
Print Assumptions C144_given.

(** An array that was taken of an initialised collection shows what a new array would
    show, whatever the program did since. *)
Theorem C144_current {A} (zero junk : A) glob l0 s name u l s' i :
  program zero junk glob l0 s -> initialised s -> took zero junk s name u l s' i ->
  exists s2, pystep zero junk s' (PArray name u) = (s2, Ok tt) /\ p_coll s2 = p_coll s' /\
    forall idx, view_get s2 i idx = view_get s2 (length (p_views s')) idx /\ view_get s2 i idx = view_get s' i idx.
Proof. apply stays_current. Qed.
Print Assumptions C144_current.

(** Its elements can be read and written; a write changes one element of the field, and
    no array of another field. *)
Theorem C144_write {A} (zero junk : A) glob l0 s name u l s' i r0 idx x :
  program zero junk glob l0 s -> initialised s -> get_field (p_coll s) name = Ok r0 -> viewable (f_lay (rf_field r0)) u ->
  took zero junk s name u l s' i -> in_shape (get_shape (f_lay (rf_field r0)) u) idx ->
  (exists y, view_get s' i idx = Ok y) /\
  exists s2, pystep zero junk s' (PPut i idx x) = (s2, Ok tt) /\ view_get s2 i idx = Ok x /\
    (forall idx', idx' <> idx -> view_get s2 i idx' = view_get s' i idx') /\
    (forall j v', nth_error (p_views s') j = Some v' -> v_name v' <> name -> forall idx', view_get s2 j idx' = view_get s' j idx').
Proof. apply write_through. Qed.
Print Assumptions C144_write.

(** Assigning an array to the field's property shows in the arrays taken before. *)
Theorem C144_assign {A} (zero junk : A) glob l0 s name u l s' i r0 a vals :
  program zero junk glob l0 s -> initialised s -> get_field (p_coll s) name = Ok r0 -> viewable (f_lay (rf_field r0)) u ->
  took zero junk s name u l s' i ->
  Forall (fun n => 0 < n) (get_shape (f_lay (rf_field r0)) u) -> get_shape (f_lay (rf_field r0)) u <> [] ->
  zprod (get_shape (f_lay (rf_field r0)) u) < 2 ^ 31 ->
  np_shape a = get_shape (f_lay (rf_field r0)) u -> length (np_strides a) = length (np_shape a) -> 0 < np_item a ->
  whole_items a -> inside a (Z.of_nat (length vals)) ->
  exists s2, pystep zero junk s' (PAssign name u a vals) = (s2, Ok tt) /\
    forall idx, in_shape (np_shape a) idx -> view_get s2 i idx = element a vals idx.
Proof. apply assigned_seen. Qed.
Print Assumptions C144_assign.

(** A 2 x 3 grid with fields [u] (two components) and [v]; an array of [u] is taken,
    [w] is registered, [v] is set to zero, and then (1, 0, 1, 2) of [u] is written. *)
Definition begin_ : session Z :=
  match new_coll true ColMajor [] with Ok c => mk_session c [] | _ => mk_session (mk_coll true ColMajor [] false 0 0 [] [] [] []) [] end.
Definition setup : list (pycall Z) :=
  [PColl (ORegister "u" Real (inr [2]) "pixel" (unitless 0) false);
   PColl (OInitGlobalOrder [2; 3] [] [] Automatic);
   PColl (ORegister "v" Int (inr [2]) "pixel" (unitless 0) false)].
Definition between : list (pycall Z) :=
  [PArray "v" SubPt; PColl (ORegister "w" Real (inr [1]) "pixel" (unitless 0) false); PZero "v"; PColl OInitLocal].
Example C144_case :
  let s := pyrun 0 7 begin_ setup in
  let s1 := fst (pystep 0 7 s (PArray "u" SubPt)) in
  let s2 := pyrun 0 7 s1 between in
  let s3 := fst (pystep 0 7 s2 (PPut 0 [1; 0; 1; 2] 5)) in
  let s4 := fst (pystep 0 7 s3 (PArray "u" Pixel)) in
  program 0 7 true setup s /\ initialised s /\ took 0 7 s "u" SubPt between s2 0 /\
  view_get s3 0 [1; 0; 1; 2] = Ok 5 /\ view_get s4 2 [1; 1; 2] = Ok 5 /\ view_get s4 2 [0; 1; 2] = Ok 0 /\
  view_get s3 1 [1; 0; 1; 2] = Ok 0.
Proof.
  cbn zeta. split; [|split; [vm_compute; reflexivity|split; [|vm_compute; auto 10]]].
  - exists ColMajor, [], (p_coll begin_). split; [auto|]. split; [reflexivity|]. split; [constructor|].
    split; [|reflexivity]. repeat constructor; cbn; lia.
  - eexists. split; [vm_compute; reflexivity|]. split; [repeat constructor; cbn; lia|]. split; vm_compute; reflexivity.
Qed.
Example C144_assign_case :
  let s := pyrun 0 7 begin_ (setup ++ PArray "u" Pixel :: between)%list in
  let a := mk_nparray [2; 2; 3] [48; 24; 8] 8 in
  let '(s', o) := pystep 0 7 s (PAssign "u" Pixel a [1;2;3;4;5;6;7;8;9;10;11;12]) in
  o = Ok tt /\ view_get s' 0 [0; 1; 2] = Ok 6 /\ view_get s' 0 [1; 0; 0] = Ok 7.
Proof. vm_compute. auto. Qed.

(** Arrays taken before the first attempt to initialise are copies of nothing: writes
    to them never reach the field. *)
Theorem C145_detached_refuted {A} (zero junk : A) glob l0 s name u l s' i :
  program zero junk glob l0 s -> Forall (fun k => ~ asks_init k) l0 -> took zero junk s name u l s' i ->
  forall idx x, p_coll (fst (pystep zero junk s' (PPut i idx x))) = p_coll s'.
Proof. apply detached. Qed.
Print Assumptions C145_detached_refuted.

Definition early : list (pycall Z) := [PColl (ORegister "u" Real (inr [2]) "pixel" (unitless 0) false)].
Example C145_detached_case :
  let s := pyrun 0 7 begin_ early in
  let l := [PColl (OInitGlobalOrder [2; 3] [] [] Automatic); PPut 0 [1; 0] 5; PArray "u" SubPt] in
  let s1 := fst (pystep 0 7 s (PArray "u" SubPt)) in
  let s' := pyrun 0 7 s1 l in
  program 0 7 true early s /\ Forall (fun k => ~ asks_init k) early /\ took 0 7 s "u" SubPt l s' 0 /\
  view_get s1 0 [1; 0] = Ok 7 /\ view_get s' 0 [1; 0] = Ok 5 /\ view_get s' 0 [1; 0; 0; 0] = Err OutOfRange /\
  view_get s' 1 [1; 0; 0; 0] = Ok 0 /\
  snd (pystep 0 7 s (PAssign "u" SubPt (mk_nparray [2; 1] [8; 8] 8) [1; 2])) = UB.
Proof.
  cbn zeta. split; [|split; [repeat constructor; cbn; tauto|split; [|vm_compute; auto 10]]].
  - exists ColMajor, [], (p_coll begin_). split; [auto|]. split; [reflexivity|]. split; [constructor|].
    split; [|reflexivity]. repeat constructor; cbn; lia.
  - eexists. split; [vm_compute; reflexivity|]. split; [repeat constructor; cbn; lia|]. split; vm_compute; reflexivity.
Qed.

(** The program does not notice: it reads back what it wrote, while the field has
    other values. *)
Theorem C145_silent_refuted : exists l s i j, program 0 7 true l s /\ initialised s /\
  (exists vi vj, nth_error (p_views s) i = Some vi /\ nth_error (p_views s) j = Some vj /\ v_name vi = "u" /\ v_name vj = "u") /\
  exists s', pystep 0 7 s (PPut i [1; 0] 5) = (s', Ok tt) /\ view_get s' i [1; 0] = Ok 5 /\
    forall x y, view_get s' j [1; 0; x; y] <> Ok 5.
Proof.
  exists (early ++ [PArray "u" SubPt; PColl (OInitGlobalOrder [2; 3] [] [] Automatic); PArray "u" SubPt])%list.
  eexists. exists 0%nat, 1%nat. split.
  { exists ColMajor, [], (p_coll begin_). split; [auto|]. split; [reflexivity|]. split; [constructor|].
    split; [|reflexivity]. repeat constructor; cbn; lia. }
  split; [vm_compute; reflexivity|]. split; [eexists; eexists; split; [vm_compute; reflexivity|]; split; [vm_compute; reflexivity|split; reflexivity]|].
  eexists. split; [vm_compute; reflexivity|]. split; [vm_compute; reflexivity|]. intros x y E.
  assert (I : index_ok [2; 1; 2; 3] [1; 0; x; y] = true).
  { destruct (index_ok [2; 1; 2; 3] [1; 0; x; y]) eqn:Q; [reflexivity|]. unfold view_get in E.
    cbn [get_view nth_error p_views bind] in E. cbn [v_arr np_shape] in E. now rewrite Q in E. }
  cbn [index_ok] in I. rewrite !Bool.andb_true_iff, !Z.leb_le, !Z.ltb_lt in I.
  assert (X : x = 0 \/ x = 1) by lia. assert (Y : y = 0 \/ y = 1 \/ y = 2) by lia. clear I.
  destruct X as [->| ->]; destruct Y as [->|[->| ->]]; vm_compute in E; discriminate.
Qed.
Print Assumptions C145_silent_refuted.

(** Arrays taken between a failed and a successful initialisation can designate memory
    that is gone: the sub-division of [v] is missing at first, and the second call asks
    for rows with a gap. *)
Definition twice : list (pycall Z) :=
  [PColl (ORegister "u" Real (inr [1]) "pixel" (unitless 0) false);
   PColl (ORegister "v" Real (inr [1]) "quad" (unitless 0) false);
   PColl (OInitGlobal [2; 2] [2; 2] [0; 0] [1; 2]);
   PArray "u" SubPt; PPut 0 [0; 0; 1; 1] 5;
   PColl (OSetSubPts "quad" 2);
   PColl (OInitGlobal [2; 2] [2; 2] [0; 0] [1; 3])].
Theorem C145_dangling_refuted : exists s l0, program 0 7 true l0 s /\ initialised s /\
  view_get s 0 [0; 0; 1; 1] = UB /\ snd (pystep 0 7 s (PPut 0 [0; 0; 1; 1] 5)) = UB.
Proof.
  exists (pyrun 0 7 begin_ twice), twice. split; [|vm_compute; auto].
  exists ColMajor, [], (p_coll begin_). split; [auto|]. split; [reflexivity|]. split; [constructor|].
  split; [|reflexivity]. repeat constructor; cbn; lia.
Qed.
Print Assumptions C145_dangling_refuted.
