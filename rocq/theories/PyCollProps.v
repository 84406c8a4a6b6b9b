(** C168, C169: constructors of collections in Python. *)
From Coq Require Import String.
From Verif Require Import Base GridModel GridSpec LayoutModel RegistryModel RegistrySpec RegistryProofs4 PyCommModel PyCommProofs PyArgModel PyArgSpec PyArgProofs PyCollModel PyCollSpec PyCollProofs.
Local Open Scope Z_scope.
Local Open Scope list_scope.
Local Open Scope string_scope.

(** ** C168: a call makes the collection a C++ program would make *)
(** A domain, in lists, tuples or [DynCcoord]s, by position or by keyword *)
Theorem C168_domain {A} (zero : A) pos kw nd nsd loc m o : well_formed domain_names pos kw -> given coord_arg nd (argument pos kw 0 "nb_domain_grid_pts") ->
  given_or coord_arg [] nsd (argument pos kw 1 "nb_subdomain_grid_pts") -> given_or coord_arg [] loc (argument pos kw 2 "subdomain_locations") ->
  given_or sub_arg [] m (argument pos kw 3 "sub_pts") -> given_or order_arg ColMajor o (argument pos kw 4 "storage_order") ->
  py_global zero pos kw = Some (made zero (Z.of_nat (length nd)) "" (new_coll true o m) (Some (OInitGlobalOrder nd nsd loc Automatic))).
Proof. apply call_domain. Qed.
Print Assumptions C168_domain.
(** With the strides of the pixels *)
Theorem C168_strides {A} (zero : A) pos kw nd nsd loc s m o : well_formed strides_names pos kw -> given coord_arg nd (argument pos kw 0 "nb_domain_grid_pts") ->
  given coord_arg nsd (argument pos kw 1 "nb_subdomain_grid_pts") -> given coord_arg loc (argument pos kw 2 "subdomain_locations") ->
  given coord_arg s (argument pos kw 3 "pixels_strides") -> given sub_arg m (argument pos kw 4 "sub_pts") -> given_or order_arg ColMajor o (argument pos kw 5 "storage_order") ->
  py_global zero pos kw = Some (made zero (Z.of_nat (length nd)) "" (new_coll true o m) (Some (OInitGlobal nd nsd loc s))).
Proof. apply call_strides. Qed.
Print Assumptions C168_strides.
(** With the order of the pixels *)
Theorem C168_pixel_order {A} (zero : A) pos kw nd nsd loc po m o : well_formed pixorder_names pos kw -> given coord_arg nd (argument pos kw 0 "nb_domain_grid_pts") ->
  given coord_arg nsd (argument pos kw 1 "nb_subdomain_grid_pts") -> given coord_arg loc (argument pos kw 2 "subdomain_locations") ->
  given order_arg po (argument pos kw 3 "pixels_storage_order") -> given sub_arg m (argument pos kw 4 "sub_pts") -> given_or order_arg ColMajor o (argument pos kw 5 "storage_order") ->
  py_global zero pos kw = Some (made zero (Z.of_nat (length nd)) "" (new_coll true o m) (Some (OInitGlobalOrder nd nsd loc po))).
Proof. apply call_pixorder. Qed.
Print Assumptions C168_pixel_order.
(** A dimension only: the collection is not initialised *)
Theorem C168_dimension {A} (zero : A) pos kw d m o : given dim_arg d (argument pos kw 0 "spatial_dimension") ->
  (well_formed ["spatial_dimension"] pos kw -> py_global zero pos kw = Some (made zero d "" (new_coll true ColMajor []) None)) /\
  (well_formed ["spatial_dimension"; "sub_pts"; "storage_order"] pos kw -> given sub_arg m (argument pos kw 1 "sub_pts") -> given_or order_arg ColMajor o (argument pos kw 2 "storage_order") ->
   py_global zero pos kw = Some (made zero d "" (new_coll true o m) None)).
Proof. intros G. split; [intros W; now apply call_dim|intros W G1 G2; now apply call_dim_sub]. Qed.
Print Assumptions C168_dimension.
Theorem C168_local {A} (zero : A) pos kw d s m : given dim_arg d (argument pos kw 0 "spatial_dimension") ->
  (well_formed ["spatial_dimension"; "nb_sub_pts"] pos kw -> given_or sub_arg [] m (argument pos kw 1 "nb_sub_pts") ->
   py_local pos kw = Some (made zero d "LocalFieldCollectionName" (new_coll false ColMajor m) None)) /\
  (well_formed ["spatial_dimension"; "name"; "nb_sub_pts"] pos kw -> given name_arg s (argument pos kw 1 "name") -> given_or sub_arg [] m (argument pos kw 2 "nb_sub_pts") ->
   py_local pos kw = Some (made zero d s (new_coll false ColMajor m) None)).
Proof. intros G. split; [intros W G1; now apply call_local|intros W G1 G2; now apply call_local_name]. Qed.
Print Assumptions C168_local.
(** [initialise] of a collection *)
Theorem C168_initialise {A} (zero : A) (y : pycoll A) pos kw nd nsd loc : c_glob (y_coll y) = true -> given coord_arg nd (argument pos kw 0 "nb_domain_grid_pts") ->
  (forall po, well_formed ["nb_domain_grid_pts"; "nb_subdomain_grid_pts"; "subdomain_locations"; "pixels_storage_order"] pos kw ->
   given_or coord_arg [] nsd (argument pos kw 1 "nb_subdomain_grid_pts") -> given_or coord_arg [] loc (argument pos kw 2 "subdomain_locations") ->
   given_or order_arg Automatic po (argument pos kw 3 "pixels_storage_order") ->
   exists y', py_initialise zero y pos kw = Some (y', snd (step zero (y_coll y) (OInitGlobalOrder nd nsd loc po))) /\
     y_coll y' = fst (step zero (y_coll y) (OInitGlobalOrder nd nsd loc po)) /\ y_dim y' = y_dim y) /\
  (forall s, well_formed ["nb_domain_grid_pts"; "nb_subdomain_grid_pts"; "subdomain_locations"; "pixels_strides"] pos kw ->
   given coord_arg nsd (argument pos kw 1 "nb_subdomain_grid_pts") -> given coord_arg loc (argument pos kw 2 "subdomain_locations") -> given coord_arg s (argument pos kw 3 "pixels_strides") ->
   exists y', py_initialise zero y pos kw = Some (y', snd (step zero (y_coll y) (OInitGlobal nd nsd loc s))) /\
     y_coll y' = fst (step zero (y_coll y) (OInitGlobal nd nsd loc s)) /\ y_dim y' = y_dim y).
Proof.
  intros G G0. split.
  - intros po W G1 G2 G3. rewrite (call_init_order zero y pos kw nd nsd loc po W G0 G1 G2 G3). cbn [step]. rewrite G. eexists. split; [reflexivity|]. split; reflexivity.
  - intros s W G1 G2 G3. rewrite (call_init_strides zero y pos kw nd nsd loc s W G0 G1 G2 G3). cbn [step]. rewrite G. eexists. split; [reflexivity|]. split; reflexivity.
Qed.
Print Assumptions C168_initialise.
(** A collection made from a domain is the one made from its dimension and then
    initialised with the same arguments. *)
Theorem C168_two_steps {A} (zero : A) v0 v1 v2 v3 v4 nd nsd loc m o : coord_arg v0 nd -> coord_arg v1 nsd -> coord_arg v2 loc -> sub_arg v3 m -> order_arg v4 o -> index64 (Z.of_nat (length nd)) ->
  forall y, py_global zero [v0; v1; v2; v3; v4] [] = Some (Ok y) <->
    exists y0, py_global zero [OArg (int_arg (Z.of_nat (length nd))); v3; v4] [] = Some (Ok y0) /\ py_initialise zero y0 [v0; v1; v2] [] = Some (y, Ok tt).
Proof.
  intros C0 C1 C2 C3 C4 R y.
  rewrite (call_domain zero [v0; v1; v2; v3; v4] [] nd nsd loc m o); [|split; [cbn; lia|constructor]|exact C0|exact C1|exact C2|exact C3|exact C4].
  rewrite (call_dim_sub zero [OArg (int_arg (Z.of_nat (length nd))); v3; v4] [] (Z.of_nat (length nd)) m o); [|split; [cbn; lia|constructor]|split; [reflexivity|exact R]|exact C3|exact C4].
  assert (I : forall y0, py_initialise zero y0 [v0; v1; v2] [] = Some (with_coll y0 (init_global_order zero (y_coll y0) nd nsd loc Automatic))).
  { intros y0. apply (call_init_order zero y0 [v0; v1; v2] [] nd nsd loc Automatic); [split; [cbn; lia|constructor]|exact C0|exact C1|exact C2|reflexivity]. }
  unfold made. destruct (new_coll true o m) as [c|e|] eqn:N; [|split; [discriminate|intros (y0 & H & _); discriminate]..].
  destruct (RegistryProofs.new_coll_spec _ _ _ _ N) as (_ & _ & _ & G & _). cbn [step]. rewrite G. split.
  - intros H. destruct (init_global_order zero c nd nsd loc Automatic) as [c' [[]| |]] eqn:E; try discriminate. injection H as <-.
    exists (mk_pycoll (Z.of_nat (length nd)) "" c). split; [reflexivity|]. rewrite I. cbn [y_coll]. rewrite E. reflexivity.
  - intros (y0 & H & K). injection H as <-. rewrite I in K. cbn [y_coll] in K. destruct (init_global_order zero c nd nsd loc Automatic) as [c' r]. cbn in K. injection K as <- ->. reflexivity.
Qed.
Print Assumptions C168_two_steps.
(** The grid: every domain of up to three dimensions with fewer than 2^31 points, its pixels
    in the storage order of the collection *)
Theorem C168_grid {A} (zero : A) v nd o : coord_arg v nd -> (1 <= length nd <= 3)%nat -> Forall (fun x => 0 < x)%Z nd -> (zprod nd < 2 ^ 31)%Z -> o = ColMajor \/ o = RowMajor ->
  exists y, py_global zero [v] [("storage_order", OOrder o)] = Some (Ok y) /\ y_dim y = Z.of_nat (length nd) /\ c_init (y_coll y) = true /\ list_fields (y_coll y) = [] /\ c_order (y_coll y) = o /\
    c_pix (y_coll y) = nd /\ c_npix (y_coll y) = zprod nd /\ match o with ColMajor => first_fastest nd (c_pstr (y_coll y)) | _ => last_fastest nd (c_pstr (y_coll y)) end.
Proof.
  intros C D P V O. rewrite (call_domain zero [v] [("storage_order", OOrder o)] nd [] [] [] o); try reflexivity; [|split; [cbn; lia|repeat constructor; cbn; tauto]|exact C].
  destruct (@new_coll_plain A o) as (c & N & I & G & Ini & F & Oc). rewrite N.
  assert (S : snd (init_global_order zero c nd [] [] Automatic) = Ok tt) by (apply init_succeeds; auto).
  unfold made. cbn [step]. rewrite G, S. eexists. split; [reflexivity|]. cbn [y_dim y_coll]. split; [reflexivity|].
  assert (Oc' : c_order c = ColMajor \/ c_order c = RowMajor) by now rewrite Oc.
  assert (S' : snd (step zero c (OInitGlobalOrder nd [] [] Automatic)) = Ok tt) by (cbn [step]; now rewrite G).
  destruct (init_global_order_good zero c nd [] [] Automatic G Oc' I P S') as (E1 & E2 & E3 & E4 & _). cbn [step] in E1, E2, E3, E4. rewrite G in E1, E2, E3, E4.
  destruct (init_result zero c nd [] Automatic _ S eq_refl I F ltac:(intros ->; cbn in D; lia)) as (R1 & R2 & R3).
  split; [exact E1|]. split; [unfold list_fields, keys; now rewrite R1|]. split.
  - unfold init_global_order in *. cbn [length Nat.eqb] in *. destruct (pixel_strides_for _ nd) as [s|e|]; try discriminate S.
    destruct (init_global_facts zero c nd nd [] s I S) as (_ & _ & _ & _ & _ & Eo & _). cbn zeta in Eo. now rewrite Eo.
  - split; [exact R2|]. split; [exact E4|]. cbn zeta in R3. rewrite Oc in R3. exact R3.
Qed.
Print Assumptions C168_grid.
Example C168_case : exists y z, py_global 0%Z [OArg (int_seq KList [4; 3])] [("storage_order", OOrder RowMajor); ("subdomain_locations", OArg (int_seq KTuple [0; 5])); ("nb_subdomain_grid_pts", OArg (ACoord [2; 3]))] = Some (Ok y) /\
  c_pix (y_coll y) = [2; 3]%Z /\ c_pstr (y_coll y) = [3; 1]%Z /\ py_local [OArg (int_arg 2)] [("name", OStr "grains"); ("nb_sub_pts", ODict [("quad", int_arg 4)])] = Some (Ok z) /\
  y_name z = "grains" /\ tag_number (A:=Z) (y_coll z) "quad" = Some 4%Z /\ py_global 0%Z [OArg (int_seq KList [4; 3]); OArg (int_seq KList [4; 3])] [("nb_subdomain_grid_pts", no_coord)] = None.
Proof. eexists. eexists. split; [vm_compute; reflexivity|]. repeat split; vm_compute; reflexivity. Qed.

(** ** C169: what goes wrong *)
(** An array of numpy with one element is taken for the dimension, and not for a domain of
    one dimension; other arrays are refused.  So is a member of [StorageOrder]. *)
Theorem C169_arrays_refuted {A} (zero : A) : (forall n, index64 n -> py_global zero [OArg (ASeq KArray [NInt n])] [] = Some (made zero n "" (new_coll true ColMajor []) None)) /\
  (forall l, length l <> 1%nat -> py_global zero [OArg (ASeq KArray l)] [] = None) /\
  py_global zero [OOrder RowMajor] [] = Some (made zero 1 "" (new_coll true ColMajor []) None).
Proof.
  split; [|split]; [|exact (array_none zero)|reflexivity]. intros n R. rewrite array_dim by exact R. apply call_dim; [split; [cbn; lia|constructor]|split; [reflexivity|exact R]].
Qed.
Print Assumptions C169_arrays_refuted.
(** Strides or an order of the pixels need the numbers of sub-points, unlike in C++. *)
Theorem C169_sub_points_refuted {A} (zero : A) v0 v1 v2 v3 nd s : coord_arg v0 nd -> coord_arg v3 s \/ (exists o, order_arg v3 o) -> py_global zero [v0; v1; v2; v3] [] = None.
Proof. apply four_coords. Qed.
Print Assumptions C169_sub_points_refuted.
(** The dimension of a collection, that of its domain and that of its sub-domain are not
    compared, nor is the size of the sub-domain with that of the domain. *)
Theorem C169_dimensions_refuted : (exists y0 y, py_global 0%Z [OArg (int_arg 3)] [] = Some (Ok y0) /\ py_initialise 0%Z y0 [OArg (int_seq KList [4; 4])] [] = Some (y, Ok tt) /\
    y_dim y = 3%Z /\ c_pix (y_coll y) = [4; 4]%Z) /\
  (exists y, py_global 0%Z [OArg (int_seq KList [4; 4]); OArg (int_seq KList [2; 2; 2])] [] = Some (Ok y) /\ y_dim y = 2%Z /\ c_pix (y_coll y) = [2; 2; 2]%Z) /\
  (exists y, py_global 0%Z [OArg (int_seq KList [4; 4]); OArg (int_seq KList [8; 8])] [] = Some (Ok y) /\ c_npix (y_coll y) = 64%Z) /\
  (exists y, py_global 0%Z [OArg (int_arg (-5))] [] = Some (Ok y) /\ y_dim y = (-5)%Z).
Proof.
  split; [|split; [|split]].
  - eexists. eexists. split; [vm_compute; reflexivity|]. split; [vm_compute; reflexivity|]. split; reflexivity.
  - eexists. split; [vm_compute; reflexivity|]. split; reflexivity.
  - eexists. split; [vm_compute; reflexivity|]. reflexivity.
  - eexists. split; [vm_compute; reflexivity|]. reflexivity.
Qed.
Print Assumptions C169_dimensions_refuted.
(** Pixels from 2^63 on get negative indices; negative ones are refused. *)
Theorem C169_pixels_refuted {A} (y : pycoll A) n : c_init (y_coll y) = false ->
  ((0 <= n < 2 ^ 63)%Z -> exists y', py_add_pixel y (NInt n) = Some (y', Ok tt) /\ c_index (y_coll y') = (c_index (y_coll y) ++ [n])%list) /\
  ((2 ^ 63 <= n < 2 ^ 64)%Z -> exists y', py_add_pixel y (NInt n) = Some (y', Ok tt) /\ c_index (y_coll y') = (c_index (y_coll y) ++ [n - 2 ^ 64]%Z)%list) /\
  ((n < 0)%Z -> py_add_pixel y (NInt n) = None).
Proof.
  intros I. unfold py_add_pixel. cbn [load_integer]. split; [|split]; intros R.
  - rewrite within_yes by lia. destruct (Z.ltb_spec n (2 ^ 63)); [|lia]. unfold add_pixel. rewrite I. eexists. split; reflexivity.
  - rewrite within_yes by lia. destruct (Z.ltb_spec n (2 ^ 63)); [lia|]. unfold add_pixel. rewrite I. eexists. split; reflexivity.
  - unfold within_type. destruct (Z.leb_spec 0 n); [lia|reflexivity].
Qed.
Print Assumptions C169_pixels_refuted.
Example C169_case : exists y, py_global 0%Z [OArg (int_seq KList [4])] [] = Some (Ok y) /\ c_pix (y_coll y) = [4]%Z /\ y_dim y = 1%Z /\ c_init (y_coll y) = true.
Proof. eexists. split; [vm_compute; reflexivity|]. repeat split. Qed.
