(** Properties of mapped fields (C93, C94), copies of fields (C95, C96), detached
    fields (C97, C98), the index map and empty copies of collections (C99-C101),
    statically sized maps of state fields (C102), and mapped state fields (C120). *)
From Coq Require Import String.
From Verif Require Import Base GridModel GridSpec GridProofs2 StridedModel LayoutModel LayoutSpec LayoutProofs FieldModel FieldSpec FieldProofs2.
From Verif Require Import RegistryModel RegistrySpec RegistryProofs RegistryProofs2 RegistryProofs3 RegistryProofs4 RegistryProps UnitsModel MapModel MapSpec MapProofs MapProps.
From Verif Require Import StateModel StateSpec StateProofs2 StateProofs3 StateProofs4 StateProps CloneModel CloneSpec CloneProofs CloneProofs2 CloneProofs3 CloneProofs4.
Local Open Scope Z_scope.
Local Open Scope list_scope.

(** The cases: the local collection [two_pixels] of MapProps, and a global one
    with two by two pixels, a field of two components and one of two by two. *)
Definition square : coll Z :=
  run 0 fresh_global [ORegister "v" Real (inl 2) "quad" no_unit false; ORegister "m" Real (inr [2; 2]) "pixel" no_unit false;
                      OInitGlobalOrder [2; 2] [] [] Automatic; OWrite "v" 0 10; OWrite "v" 15 20; OWrite "m" 3 30].
Lemma two_pixels_usable : usable 0 two_pixels.
Proof. split; [exact two_pixels_sensible|]. split; [vm_compute; reflexivity|exact two_pixels_good]. Qed.
Lemma square_good : good_pixels square.
Proof.
  set (c0 := run 0 fresh_global [ORegister "v" Real (inl 2) "quad" no_unit false; ORegister "m" Real (inr [2; 2]) "pixel" no_unit false]).
  pose proof (C17_sound_pixels_global 0 c0 [2; 2] [] [] Automatic ltac:(vm_compute; reflexivity) ltac:(left; vm_compute; reflexivity) (fresh_global_reachable _)) as G.
  cbn zeta in G. specialize (G ltac:(repeat constructor) ltac:(vm_compute; reflexivity)). destruct G as (_ & G & _).
  set (c1 := fst (step 0 c0 (OInitGlobalOrder [2; 2] [] [] Automatic))) in *.
  assert (E1 : c_order square = c_order c1) by (vm_compute; reflexivity). assert (E2 : c_pix square = c_pix c1) by (vm_compute; reflexivity).
  assert (E3 : c_pstr square = c_pstr c1) by (vm_compute; reflexivity). assert (E4 : c_nbuf square = c_nbuf c1) by (vm_compute; reflexivity).
  assert (E5 : c_npix square = c_npix c1) by (vm_compute; reflexivity).
  unfold good_pixels in *. rewrite E1, E2, E3, E4, E5. exact G.
Qed.
Lemma square_usable : usable 0 square.
Proof.
  split; [|split; [vm_compute; reflexivity|exact square_good]].
  exists true, ColMajor, [("quad"%string, 2)], fresh_global,
    [ORegister "v" Real (inl 2) "quad" no_unit false; ORegister "m" Real (inr [2; 2]) "pixel" no_unit false;
     OInitGlobalOrder [2; 2] [] [] Automatic; OWrite "v" 0 10; OWrite "v" 15 20; OWrite "m" 3 30].
  split; [vm_compute; reflexivity|]. split; [repeat constructor|]. split; [|reflexivity].
  cbn [sensible_history]. split; [split; reflexivity|]. split; [split; [repeat constructor|reflexivity]|]. repeat (split; [exact I|]). exact I.
Qed.

(** ** C93: mapped fields *)

(** Statically sized: the field has the components of the iterate type, and the
    map is the map of that field. *)
Theorem C93_static {A} (zero : A) c name ty t u tag un : usable zero c -> c_order c = ColMajor -> 0 < it_rows t -> 0 < it_cols t -> it_rows t * it_cols t < 2 ^ 31 ->
  ~ In name (list_fields c) -> sub_pts_of c tag <> unknown -> u = SubPt \/ sub_pts_of c tag = 1 ->
  exists c1 r m, mapped_static zero c name ty t u tag un = (c1, Ok m) /\ usable zero c1 /\ get_field c1 name = Ok r /\
    rf_tag r = tag /\ rf_unit r = un /\ rf_type r = ty /\ ready (rf_field r) /\ l_comp (f_lay (rf_field r)) = [it_rows t * it_cols t] /\
    new_static (rf_field r) u t = Ok m /\ m_rows m = it_rows t /\ m_cols m = it_cols t /\ (forall k, k <> name -> get_field c1 k = get_field c k).
Proof.
  intros U O Pr Pc Bg N T Hu. assert (P : positive (inl (it_stride t))) by (cbn [positive]; unfold it_stride; split; [now apply Z.mul_pos_pos|exact Bg]).
  destruct (mapped_registered zero c name ty (inl (it_stride t)) tag un (fun f => new_static f u t) U P N T) as (c1 & r & E & U1 & G & H1 & H2 & H3 & H4 & H5 & H6 & H7 & H8 & H9).
  pose proof H5 as (Or & _). rewrite O in Or. assert (Hs : has_nsub (rf_field r) = true) by (unfold has_nsub; rewrite H8; destruct (Z.eqb_spec (sub_pts_of c tag) unknown); [contradiction|reflexivity]).
  destruct (new_static_iff (rf_field r) u t Or (fun _ => Hs) Pr Pc) as [Y _].
  assert (Es : it_stride t = scalars_per_entry (rf_field r) u).
  { unfold scalars_per_entry. cbn [comp_nb] in H7. rewrite H7, H8. destruct Hu as [-> | ->]; [reflexivity|destruct u; [now rewrite Z.mul_1_r|reflexivity]]. }
  destruct (Y Es) as (m & Y1 & Y2 & Y3). exists c1, r, m. unfold mapped_static. rewrite E, Y1. cbn [comp_shape] in H6. auto 15.
Qed.
Print Assumptions C93_static.

(** Dynamically sized: the field has components in rows and columns; per pixel the
    columns of all sub-points are side by side. *)
Theorem C93_dynamic {A} (zero : A) c name ty rows cols u tag un : usable zero c -> c_order c = ColMajor -> 0 < rows -> 0 < cols -> rows * cols < 2 ^ 31 ->
  ~ In name (list_fields c) -> sub_pts_of c tag <> unknown ->
  exists c1 r m, mapped_dynamic zero c name ty rows cols u tag un = (c1, Ok m) /\ usable zero c1 /\ get_field c1 name = Ok r /\
    rf_tag r = tag /\ rf_unit r = un /\ rf_type r = ty /\ ready (rf_field r) /\ l_comp (f_lay (rf_field r)) = [rows; cols] /\
    new_map (rf_field r) u (Some rows) = Ok m /\ m_rows m = rows /\ m_cols m = match u with SubPt => cols | Pixel => cols * sub_pts_of c tag end /\
    (forall k, k <> name -> get_field c1 k = get_field c k).
Proof.
  intros U O Pr Pc Bg N T. assert (P : positive (inr [rows; cols])) by (cbn [positive zprod fold_right]; split; [auto|unfold zprod; cbn; rewrite Z.mul_1_r; exact Bg]).
  destruct (mapped_registered zero c name ty (inr [rows; cols]) tag un (fun f => new_map f u (Some rows)) U P N T) as (c1 & r & E & U1 & G & H1 & H2 & H3 & H4 & H5 & H6 & H7 & H8 & H9).
  pose proof H5 as (Or & _). rewrite O in Or. assert (Hs : has_nsub (rf_field r) = true) by (unfold has_nsub; rewrite H8; destruct (Z.eqb_spec (sub_pts_of c tag) unknown); [contradiction|reflexivity]).
  destruct (new_map_rows_iff (rf_field r) u rows Or (fun _ => Hs) ltac:(lia)) as [Y _].
  assert (Nb : l_nbc (f_lay (rf_field r)) = rows * cols) by (rewrite H7, (proj1 (attr_comp (inr [rows; cols]) P)); unfold zprod; cbn [comp_shape fold_right]; rewrite Z.mul_1_r; reflexivity).
  assert (Es : scalars_per_entry (rf_field r) u = rows * match u with SubPt => cols | Pixel => cols * sub_pts_of c tag end).
  { unfold scalars_per_entry. rewrite Nb, H8. destruct u; ring. }
  destruct Y as (m & Y1 & Y2 & Y3); [rewrite Es; apply Z.divide_factor_l|]. rewrite Es in Y3. apply Z.mul_reg_l in Y3; [|lia].
  exists c1, r, m. unfold mapped_dynamic. rewrite E, Y1. cbn [comp_shape] in H6. auto 15.
Qed.
Print Assumptions C93_dynamic.

(** Optional: nothing happens before the first use; the field is made on first use
    and the same map handed out ever after. *)
Theorem C93_optional {A} (zero : A) c o ty t u : usable zero c -> c_order c = ColMajor -> 0 < it_rows t -> 0 < it_cols t -> it_rows t * it_cols t < 2 ^ 31 ->
  has_value o = false -> ~ In (o_name o) (list_fields c) -> sub_pts_of c (o_tag o) <> unknown -> u = SubPt \/ sub_pts_of c (o_tag o) = 1 ->
  exists c1 o1 r m, opt_get zero c o ty t u = (c1, o1, Ok m) /\ has_value o1 = true /\ get_field c1 (o_name o) = Ok r /\ rf_tag r = o_tag o /\
    l_comp (f_lay (rf_field r)) = [it_rows t * it_cols t] /\ new_static (rf_field r) u t = Ok m /\ (forall k, k <> o_name o -> get_field c1 k = get_field c k) /\
    forall c2, opt_get zero c2 o1 ty t u = (c2, o1, Ok m).
Proof.
  intros U O Pr Pc Bg V N T Hu. destruct (C93_static zero c (o_name o) ty t u (o_tag o) (unitless 0) U O Pr Pc Bg N T Hu) as (c1 & r & m & E & _ & G & H1 & _ & _ & _ & H2 & H3 & _ & _ & H4).
  exists c1, (mk_optional (o_name o) (o_tag o) (Some m)), r, m. unfold has_value in V. unfold opt_get at 1. destruct (o_map o); [discriminate|]. rewrite E.
  split; [reflexivity|]. split; [reflexivity|]. split; [exact G|]. split; [exact H1|]. split; [exact H2|]. split; [exact H3|]. split; [exact H4|]. intros c2. reflexivity.
Qed.
Print Assumptions C93_optional.

Example C93_case : exists c1 o1 m,
  opt_get 0 two_pixels (mk_optional "strain" "quad" None) Real (mk_iterate 2 3) SubPt = (c1, o1, Ok m) /\
  list_fields c1 = ["f"; "strain"]%string /\ m_rows m = 2 /\ m_cols m = 3 /\ length (f_vals (rf_field (the_field c1 "strain"))) = 24%nat /\
  fst (opt_get 0 c1 o1 Real (mk_iterate 2 3) SubPt) = (c1, o1).
Proof.
  eexists; eexists; eexists. split; [vm_compute; reflexivity|]. split; [vm_compute; reflexivity|]. split; [vm_compute; reflexivity|]. split; [vm_compute; reflexivity|].
  split; vm_compute; reflexivity.
Qed.
Example C93_hypotheses : usable 0 two_pixels /\ c_order two_pixels = ColMajor /\ ~ In "strain"%string (list_fields two_pixels) /\ sub_pts_of two_pixels "quad" = 2.
Proof. split; [exact two_pixels_usable|]. split; [vm_compute; reflexivity|]. split; [vm_compute; intuition discriminate|vm_compute; reflexivity]. Qed.
Example C93_dynamic_case : exists c1 m,
  mapped_dynamic 0 two_pixels "g" Real 2 3 Pixel "quad" no_unit = (c1, Ok m) /\ m_rows m = 2 /\ m_cols m = 6.
Proof. eexists; eexists. split; [vm_compute; reflexivity|]. split; vm_compute; reflexivity. Qed.

(** ** C94: a failed creation leaves nothing behind *)

(** Refuted in all cases of pixel-wise iteration over several sub-points: the
    constructor throws, the field stays, and the name is lost. *)
Theorem C94_leftover_refuted {A} (zero : A) c name ty t tag un : usable zero c -> c_order c = ColMajor -> 0 < it_rows t -> 0 < it_cols t -> it_rows t * it_cols t < 2 ^ 31 ->
  ~ In name (list_fields c) -> sub_pts_of c tag <> unknown -> sub_pts_of c tag <> 1 ->
  exists c1 r, mapped_static zero c name ty t Pixel tag un = (c1, Err FieldMapError) /\ get_field c1 name = Ok r /\
    forall u, mapped_static zero c1 name ty t u tag un = (c1, Err FieldCollectionError).
Proof.
  intros U O Pr Pc Bg N T T1. assert (P : positive (inl (it_stride t))) by (cbn [positive]; unfold it_stride; split; [now apply Z.mul_pos_pos|exact Bg]).
  destruct (mapped_registered zero c name ty (inl (it_stride t)) tag un (fun f => new_static f Pixel t) U P N T) as (c1 & r & E & U1 & G & H1 & H2 & H3 & H4 & H5 & H6 & H7 & H8 & H9).
  pose proof H5 as (Or & _). rewrite O in Or. assert (Hs : has_nsub (rf_field r) = true) by (unfold has_nsub; rewrite H8; destruct (Z.eqb_spec (sub_pts_of c tag) unknown); [contradiction|reflexivity]).
  destruct (new_static_iff (rf_field r) Pixel t Or (fun _ => Hs) Pr Pc) as [_ Y].
  assert (Es : it_stride t <> scalars_per_entry (rf_field r) Pixel).
  { unfold scalars_per_entry. cbn [comp_nb] in H7. rewrite H7, H8. unfold it_stride. intros X. apply T1. symmetry. apply (Z.mul_reg_l 1 (sub_pts_of c tag) (it_rows t * it_cols t)); [|rewrite Z.mul_1_r; exact X].
    apply Z.neq_sym, Z.lt_neq. now apply Z.mul_pos_pos. }
  exists c1, r. unfold mapped_static at 1. rewrite E, (Y Es). split; [reflexivity|]. split; [exact G|].
  intros u. unfold mapped_static, mapped, register_field. rewrite (lookup_of_get _ _ _ G). reflexivity.
Qed.
Print Assumptions C94_leftover_refuted.

(** The optional field never gets a value then. *)
Theorem C94_optional_refuted {A} (zero : A) c o ty t : usable zero c -> c_order c = ColMajor -> 0 < it_rows t -> 0 < it_cols t -> it_rows t * it_cols t < 2 ^ 31 ->
  has_value o = false -> ~ In (o_name o) (list_fields c) -> sub_pts_of c (o_tag o) <> unknown -> sub_pts_of c (o_tag o) <> 1 ->
  exists c1, opt_get zero c o ty t Pixel = (c1, o, Err FieldMapError) /\ In (o_name o) (list_fields c1) /\ opt_get zero c1 o ty t Pixel = (c1, o, Err FieldCollectionError).
Proof.
  intros U O Pr Pc Bg V N T T1. destruct (C94_leftover_refuted zero c (o_name o) ty t (o_tag o) (unitless 0) U O Pr Pc Bg N T T1) as (c1 & r & E & G & F).
  exists c1. unfold has_value in V. unfold opt_get. destruct (o_map o); [discriminate|]. rewrite E, F. split; [reflexivity|]. split; [|reflexivity].
  apply lookup_keys. rewrite (lookup_of_get _ _ _ G). discriminate.
Qed.
Print Assumptions C94_optional_refuted.

(** Mapped state fields: the state field and all its states stay, and the prefix is
    lost. *)
Theorem C94_state_refuted {A} (zero : A) y p ty t mem tag : sreachable zero y -> usable zero (y_coll y) -> c_order (y_coll y) = ColMajor -> 1 <= mem ->
  0 < it_rows t -> 0 < it_cols t -> it_rows t * it_cols t < 2 ^ 31 -> get_state y p = Err FieldCollectionError ->
  (forall nm, In nm (sub_names p mem) -> ~ In nm (list_fields (y_coll y))) -> sub_pts_of (y_coll y) tag <> unknown -> sub_pts_of (y_coll y) tag <> 1 ->
  exists y1, mapped_state zero y p ty t Pixel mem tag = (y1, Err FieldMapError) /\
    (forall nm, In nm (sub_names p mem) -> In nm (list_fields (y_coll y1))) /\
    forall u mem', mapped_state zero y1 p ty t u mem' tag = (y1, Err FieldCollectionError).
Proof.
  intros R U O M Pr Pc Bg G F T T1. assert (P : 0 < it_stride t < 2 ^ 31) by (unfold it_stride; split; [now apply Z.mul_pos_pos|exact Bg]).
  destruct (state_made zero y p ty mem (it_stride t) tag (unitless 0) U M P G F T) as (y1 & E & U1 & Gs & Q & _). rewrite O in Q.
  pose proof (sreachable_register zero y p ty mem (it_stride t) tag (unitless 0) false y1 _ R E) as R1.
  pose proof (made_alike y1 p mem ty (it_stride t) tag (unitless 0) _ Pixel T Q) as Al.
  destruct (Q (sub_name p 0)) as (r & Gr & (_ & _ & _ & _ & En & Es) & (Sa & _) & _); [apply StateProofs.in_sub_names; exists 0%nat; split; [lia|reflexivity]|].
  assert (Ps : 0 < sub_pts_of (y_coll y) tag) by (rewrite <- Es; exact (proj1 (proj2 (proj2 Sa)))).
  assert (Ne : it_rows t * it_cols t <> it_stride t * sub_pts_of (y_coll y) tag).
  { intros X. apply T1. symmetry. apply (Z.mul_reg_l 1 (sub_pts_of (y_coll y) tag) (it_stride t)); [apply Z.neq_sym, Z.lt_neq, P|rewrite Z.mul_1_r; exact X]. }
  destruct (static_smap_iff zero y1 p _ Pixel t mem _ R1 Gs Al ltac:(apply Z.mul_pos_pos; [apply P|exact Ps]) Pr Pc) as [_ Y].
  exists y1. unfold mapped_state at 1. rewrite E. cbn [snd]. rewrite (Y (or_intror Ne)). split; [reflexivity|]. split.
  - intros nm I. destruct (Q nm I) as (r' & Gr' & _). apply lookup_keys. rewrite (lookup_of_get _ _ _ Gr'). discriminate.
  - intros u mem'. unfold mapped_state. destruct (register_state_existing zero y1 p ty mem' (it_stride t) tag (unitless 0) false _ Gs) as [X _].
    unfold register_state, get_state in *. destruct (lookup p (y_states y1)); [reflexivity|discriminate].
Qed.
Print Assumptions C94_state_refuted.

Example C94_case : snd (opt_get 0 two_pixels (mk_optional "g" "quad" None) Real (mk_iterate 2 1) Pixel) = Err FieldMapError /\
  list_fields (fst (fst (opt_get 0 two_pixels (mk_optional "g" "quad" None) Real (mk_iterate 2 1) Pixel))) = ["f"; "g"]%string.
Proof. split; vm_compute; reflexivity. Qed.

(** ** C95: copies of fields *)

(** Under a new name. *)
Theorem C95_new_name {A} (zero : A) sort c name new allow r s : usable zero c -> get_field c name = Ok r -> ~ In new (list_fields c) ->
  l_comp (f_lay (rf_field r)) = [l_nbc (f_lay (rf_field r))] -> (c_glob c = false -> c_nbuf c = c_npix c) ->
  get_strides (f_lay (rf_field r)) SubPt 1 = Ok s -> sort_outcome (get_shape (f_lay (rf_field r)) SubPt) s sort ->
  Forall (fun x => 0 < x) (c_pix c) \/ c_npix c = 0 -> zprod (get_shape (f_lay (rf_field r)) SubPt) < 2 ^ 31 ->
  exists c' r', clone_with zero sort c name new allow = (c', Ok tt) /\ get_field c' new = Ok r' /\ same_kind r r' /\ ready (rf_field r') /\
    same_values (rf_field r) (rf_field r') /\ (forall k, k <> new -> get_field c' k = get_field c k) /\ same_grid c c'.
Proof. exact (clone_fresh zero sort c name new allow r s). Qed.
Print Assumptions C95_new_name.

(** Over an existing field with the same sub-division, type and components. *)
Theorem C95_overwrite {A} (zero : A) sort c name new r r2 s : usable zero c -> get_field c name = Ok r -> get_field c new = Ok r2 ->
  rf_tag r2 = rf_tag r -> rf_type r2 = rf_type r -> l_comp (f_lay (rf_field r2)) = l_comp (f_lay (rf_field r)) -> (c_glob c = false -> c_nbuf c = c_npix c) ->
  get_strides (f_lay (rf_field r)) SubPt 1 = Ok s -> sort_outcome (get_shape (f_lay (rf_field r)) SubPt) s sort ->
  Forall (fun x => 0 < x) (c_pix c) \/ c_npix c = 0 -> zprod (get_shape (f_lay (rf_field r)) SubPt) < 2 ^ 31 ->
  exists c' r', clone_with zero sort c name new true = (c', Ok tt) /\ get_field c' new = Ok r' /\ same_kind r2 r' /\ ready (rf_field r') /\
    same_values (rf_field r) (rf_field r') /\ (forall k, k <> new -> get_field c' k = get_field c k) /\ same_grid c c'.
Proof. exact (clone_overwrites zero sort c name new r r2 s). Qed.
Print Assumptions C95_overwrite.

(** Refused without any effect: existing name without permission, other number of
    components, sub-division or type. *)
Theorem C95_refused {A} (zero : A) sort c name new allow r r2 : get_field c name = Ok r -> get_field c new = Ok r2 ->
  allow = false \/ l_nbc (f_lay (rf_field r2)) <> l_nbc (f_lay (rf_field r)) \/ rf_tag r2 <> rf_tag r \/ rf_type r2 <> rf_type r ->
  clone_with zero sort c name new allow = (c, Err FieldError).
Proof. exact (clone_refused zero sort c name new allow r r2). Qed.
Print Assumptions C95_refused.

Example C95_case : let c' := fst (clone_with 0 [0; 1; 2; 3]%nat square "v" "w" false) in
  list_fields c' = ["m"; "v"; "w"]%string /\ f_vals (rf_field (the_field c' "w")) = f_vals (rf_field (the_field square "v")) /\
  nth_error (f_vals (rf_field (the_field c' "w"))) 15 = Some 20 /\ snd (clone_with 0 [0; 1; 2; 3]%nat c' "v" "w" false) = Err FieldError /\
  snd (clone_with 0 [0; 1; 2; 3]%nat c' "v" "w" true) = Ok tt /\ snd (clone_with 0 [0; 1; 2; 3]%nat c' "v" "m" true) = Err FieldError.
Proof. cbn zeta. repeat (split; [vm_compute; reflexivity|]). vm_compute; reflexivity. Qed.
Example C95_hypotheses : usable 0 square /\ l_comp (f_lay (rf_field (the_field square "v"))) = [2] /\
  get_strides (f_lay (rf_field (the_field square "v"))) SubPt 1 = Ok [1; 2; 4; 8] /\
  sort_outcome (get_shape (f_lay (rf_field (the_field square "v"))) SubPt) [1; 2; 4; 8] [0; 1; 2; 3]%nat.
Proof.
  split; [exact square_usable|]. split; [vm_compute; reflexivity|]. split; [vm_compute; reflexivity|].
  assert (E : get_shape (f_lay (rf_field (the_field square "v"))) SubPt = [2; 2; 2; 2]) by (vm_compute; reflexivity). rewrite E.
  exact (compute_axes_order_outcome [2; 2; 2; 2] [1; 2; 4; 8]).
Qed.

(** ** C96: a copy keeps the shape of the components *)

(** Refuted: in a global collection, fields with several component axes cannot be
    copied at all; the new field is registered and stays, and further attempts
    fail as well. *)
Theorem C96_global_refuted {A} (zero : A) sort c name new allow r : usable zero c -> get_field c name = Ok r -> ~ In new (list_fields c) -> c_glob c = true ->
  l_comp (f_lay (rf_field r)) <> [l_nbc (f_lay (rf_field r))] ->
  exists c' r', clone_with zero sort c name new allow = (c', Err FieldError) /\ get_field c' new = Ok r' /\
    clone_with zero sort c' name new true = (c', Err FieldError).
Proof. exact (clone_axes zero sort c name new allow r). Qed.
Print Assumptions C96_global_refuted.

(** In a local collection the scalars are copied, but the shape is lost. *)
Theorem C96_local_partial {A} (zero : A) sort c name new allow r : usable zero c -> get_field c name = Ok r -> ~ In new (list_fields c) -> c_glob c = false -> c_nbuf c = c_npix c ->
  exists c' r', clone_with zero sort c name new allow = (c', Ok tt) /\ get_field c' new = Ok r' /\
    l_comp (f_lay (rf_field r')) = [l_nbc (f_lay (rf_field r))] /\
    (forall j, 0 <= j < buffer_scalars (f_lay (rf_field r)) -> rd (f_vals (rf_field r')) j = rd (f_vals (rf_field r)) j) /\
    (forall k, k <> new -> get_field c' k = get_field c k).
Proof. exact (clone_local_axes zero sort c name new allow r). Qed.
Print Assumptions C96_local_partial.

Example C96_case : get_field square "m" = Ok (the_field square "m") /\ l_comp (f_lay (rf_field (the_field square "m"))) = [2; 2] /\
  snd (clone_with 0 [0; 1; 2; 3]%nat square "m" "w" false) = Err FieldError /\
  list_fields (fst (clone_with 0 [0; 1; 2; 3]%nat square "m" "w" false)) = ["m"; "v"; "w"]%string.
Proof. repeat (split; [vm_compute; reflexivity|]). vm_compute; reflexivity. Qed.
Example C96_local_case : let c := fst (register_field 0 two_pixels "m" Real (inr [2; 2]) "pixel" no_unit false) in
  let c' := fst (clone_with 0 [] c "m" "w" false) in
  l_comp (f_lay (rf_field (the_field c' "m"))) = [2; 2] /\ l_comp (f_lay (rf_field (the_field c' "w"))) = [4].
Proof. cbn zeta. split; vm_compute; reflexivity. Qed.

(** ** C97: detached fields *)

(** A detached field is allocated for its collection, which does not list it and
    is otherwise unchanged; it fits the collection whatever happens to that. *)
Theorem C97_detached {A} (zero : A) c name ty shape tag u : usable zero c -> positive (inr shape) -> ~ In name (list_fields c) -> sub_pts_of c tag <> unknown ->
  exists r, detached_field zero c name ty shape tag u = (c, Ok r) /\
    rf_tag r = tag /\ rf_unit r = u /\ rf_type r = ty /\ l_comp (f_lay (rf_field r)) = shape /\ l_nsub (f_lay (rf_field r)) = sub_pts_of c tag /\
    ready (rf_field r) /\ forall h, attach (run zero c h) (rf_field r) = rf_field r.
Proof.
  intros U P N T. destruct (detached zero c name ty shape tag u U P N T) as (r & E & H1 & H2 & H3 & H4 & H5 & H6 & H7). exists r.
  repeat (split; [assumption|]). intros h. apply detached_stays; [apply U|exact H7].
Qed.
Print Assumptions C97_detached.

Example C97_case : exists r, detached_field 0 two_pixels "x" Real [3] "quad" no_unit = (two_pixels, Ok r) /\ length (f_vals (rf_field r)) = 12%nat /\
  get_field two_pixels "x" = Err FieldCollectionError.
Proof. eexists. split; [vm_compute; reflexivity|]. split; vm_compute; reflexivity. Qed.

(** ** C98: fields detached before the initialisation *)

(** Refuted: such a field is never allocated; whatever is done to the collection,
    an entry of any map over it is an access through a null pointer. *)
Theorem C98_never_allocated_refuted {A} (zero : A) c name ty shape tag un : sensibly_reachable zero true c -> c_init c = false -> positive (inr shape) -> ~ In name (list_fields c) ->
  exists c1 r, detached_field zero c name ty shape tag un = (c1, Ok r) /\ ~ In name (list_fields c1) /\
    forall h u m, let f := attach (run zero c1 h) (rf_field r) in f_vals f = [] /\ f_ptr f = None /\
      (new_map f u None = Ok m -> 0 < scalars_per_entry f u -> forall i, map_entry m f i = UB).
Proof.
  intros R I P N. pose proof (registered_early zero c name ty (inr shape) tag un R I P N) as X. unfold detached_field, register_field in *.
  rewrite (fresh_lookup c name N), I in *. destruct X as (c1 & r & E & _ & _ & G & _). injection E as E. subst c1.
  set (c2 := with_fields _ _) in *. unfold pop_field. rewrite (lookup_of_get _ _ _ G). eexists; eexists. split; [reflexivity|].
  assert (Er : lookup name (c_fields c2) = Some r) by now apply lookup_of_get.
  unfold c2 in Er. cbn [c_fields with_fields] in Er. rewrite lookup_insert, String.eqb_refl in Er. injection Er as <-. split.
  - intros X. unfold list_fields in X. apply lookup_keys in X. apply X. unfold c2. cbn [c_fields with_fields]. rewrite erase_insert; [|].
    + unfold touch_tag. destruct (tag_number c tag); cbn [c_fields with_tags]; now apply fresh_lookup.
    + unfold touch_tag. destruct (tag_number c tag); cbn [c_fields with_tags]; now apply fresh_lookup.
  - intros h u m. cbn zeta. split; [reflexivity|]. split; [reflexivity|]. now apply null_map.
Qed.
Print Assumptions C98_never_allocated_refuted.
Example C98_case : exists c1 r, detached_field 0 fresh_local "x" Real [3] "quad" no_unit = (c1, Ok r) /\
  let c2 := run 0 c1 [OAddPixel 4; OInitLocal] in c_init c2 = true /\ c_npix c2 = 1 /\ exists m, new_map (attach c2 (rf_field r)) SubPt None = Ok m /\
    m_init m = true /\ map_entry m (attach c2 (rf_field r)) 0 = UB.
Proof.
  eexists; eexists. split; [vm_compute; reflexivity|]. cbn zeta. split; [vm_compute; reflexivity|]. split; [vm_compute; reflexivity|]. eexists.
  split; [vm_compute; reflexivity|]. split; vm_compute; reflexivity.
Qed.

(** ** C99: the index map and empty copies of local collections *)

(** The map from pixels to positions gives the first position of each pixel, and
    has no others. *)
Theorem C99_first_position l g : pl_pixels (pl_run l) = l /\
  (forall i, zlookup g (pl_map (pl_run l)) = Some i <-> exists k, i = Z.of_nat k /\ first_at l g k) /\
  (zlookup g (pl_map (pl_run l)) = None <-> ~ In g l).
Proof. split; [apply pl_run_pixels|apply pl_lookup]. Qed.
Print Assumptions C99_first_position.

(** For distinct pixels: the inverse of the list of pixels. *)
Theorem C99_inverse l g k : NoDup l -> (zlookup g (pl_map (pl_run l)) = Some (Z.of_nat k) <-> nth_error l k = Some g).
Proof.
  intros N. rewrite (proj1 (pl_lookup l g)). split.
  - intros (j & E & F & _). apply Nat2Z.inj in E. now subst.
  - intros H. exists k. split; [reflexivity|]. split; [exact H|]. intros j Hj E. assert (j = k); [|lia].
    rewrite NoDup_nth_error in N. apply N; [apply nth_error_Some; congruence|congruence].
Qed.
Print Assumptions C99_inverse.

(** The empty copy has the pixels in the same order, the same numbers of
    sub-points, no fields, and can be initialised. *)
Theorem C99_empty_copy {A} (zero : A) c : reachable zero c -> exists c', local_clone c = Ok c' /\ c_index c' = c_index c /\ (forall t, tag_number c' t = tag_number c t) /\
  c_init c' = false /\ c_glob c' = false /\ list_fields c' = [] /\
  exists c2, step zero c' OInitLocal = (c2, Ok tt) /\ c_init c2 = true /\ c_index c2 = c_index c /\ c_npix c2 = Z.of_nat (length (c_index c)) /\ c_nbuf c2 = c_npix c2 /\
    c_pix c2 = [c_npix c2] /\ c_pstr c2 = [1].
Proof. exact (local_clone_ok zero c). Qed.
Print Assumptions C99_empty_copy.

Example C99_case : map (fun g => zlookup g (pl_map (pl_run [7; 4; 9]))) [7; 4; 9; 5] = [Some 0; Some 1; Some 2; None] /\
  (exists c', local_clone two_pixels = Ok c' /\ c_index c' = [7; 4] /\ tag_number c' "quad" = Some 2 /\ list_fields c' = []).
Proof. split; [reflexivity|]. eexists. split; [vm_compute; reflexivity|]. split; [reflexivity|]. split; reflexivity. Qed.

(** ** C100: empty copies of global collections *)

(** A collection initialised in the default manner is copied with its pixels. *)
Theorem C100_default_partial {A} (zero : A) c0 nd nsd loc o c1 h : reachable zero c0 -> c_order c0 = ColMajor -> o = ColMajor \/ o = Automatic ->
  step zero c0 (OInitGlobalOrder nd nsd loc o) = (c1, Ok tt) -> let c := run zero c1 h in
  exists p c', pixels_strided (c_pix c) loc (c_pstr c) = Ok p /\ global_clone zero c nd (px_loc p) = Ok c' /\ same_grid c c' /\ c_init c' = true /\ c_order c' = c_order c /\ c_glob c' = true /\
    (forall t, tag_number c' t = tag_number c t) /\ list_fields c' = [].
Proof. exact (global_clone_ok zero c0 nd nsd loc o c1 h). Qed.
Print Assumptions C100_default_partial.

(** Refuted in general: the copy is always column-major, so that the order of
    row-major collections is lost. *)
Theorem C100_order_refuted {A} (zero : A) c nd loc c' : global_clone zero c nd loc = Ok c' -> c_order c' = ColMajor.
Proof.
  unfold global_clone. destruct (new_coll true ColMajor (c_tags c)) as [b| |] eqn:N; cbn [bind]; try discriminate. intros H.
  pose proof (step_kind zero (OInitGlobalOrder nd (c_pix c) loc Automatic) b) as [K _]. cbn [step] in K.
  destruct (new_coll_spec _ _ _ _ N) as (_ & _ & _ & H1 & H2 & _). destruct (c_glob b) eqn:Gb; [|congruence].
  destruct (init_global_order zero b nd (c_pix c) loc Automatic) as [c2 [u|e|]]; try discriminate. apply Ok_inj in H. subst c2. cbn [fst] in K. congruence.
Qed.
Print Assumptions C100_order_refuted.

(** So are the strides of pixels: a padded collection is copied without padding. *)
Theorem C100_strides_refuted : exists c c', reachable 0 c /\ c_init c = true /\ global_clone 0 c [2; 3] [0; 0] = Ok c' /\ c_pix c' = c_pix c /\
  c_order c = ColMajor /\ c_pstr c = [1; 4] /\ c_nbuf c = 12 /\ c_pstr c' = [1; 2] /\ c_nbuf c' = 6.
Proof.
  exists (run 0 fresh_global [OInitGlobal [2; 3] [2; 3] [] [1; 4]]). eexists. split; [apply fresh_global_reachable|]. split; [vm_compute; reflexivity|]. split; [vm_compute; reflexivity|].
  repeat (split; [vm_compute; reflexivity|]). vm_compute; reflexivity.
Qed.
Print Assumptions C100_strides_refuted.

Example C100_case : exists c', global_clone 0 square [2; 2] [0; 0] = Ok c' /\ same_grid square c' /\ list_fields c' = [] /\ tag_number c' "quad" = Some 2.
Proof. eexists. split; [vm_compute; reflexivity|]. split; [|split; vm_compute; reflexivity]. unfold same_grid. repeat (split; [vm_compute; reflexivity|]). vm_compute; reflexivity. Qed.
Example C100_row_major_case : exists c0 c', new_coll true RowMajor [] = Ok c0 /\ let c := run 0 c0 [OInitGlobalOrder [2; 3] [] [] Automatic] in
  global_clone 0 c [2; 3] [0; 0] = Ok c' /\ c_pstr c = [3; 1] /\ c_pstr c' = [1; 2].
Proof. eexists; eexists. split; [vm_compute; reflexivity|]. cbn zeta. split; [vm_compute; reflexivity|]. split; vm_compute; reflexivity. Qed.

(** ** C101: pixels are added once *)

(** Refuted: a pixel that is there already is added again; the index map never
    leads to the second place. *)
Theorem C101_again_refuted l g : In g l -> pl_pixels (pl_add (pl_run l) g) = l ++ [g] /\ pl_map (pl_add (pl_run l) g) = pl_map (pl_run l) /\
  forall i, zlookup g (pl_map (pl_add (pl_run l) g)) = Some i -> i < Z.of_nat (length l).
Proof.
  intros I. destruct (pl_lookup l g) as [P1 P2]. unfold pl_add. cbn [pl_pixels pl_map]. rewrite pl_run_pixels. split; [reflexivity|].
  unfold zinsert. destruct (zlookup g (pl_map (pl_run l))) as [w|] eqn:E; [|exfalso; now apply P2].
  split; [reflexivity|]. intros i H. rewrite E in H. apply P1 in H. destruct H as (k & -> & F & _). assert (k < length l)%nat by (apply nth_error_Some; congruence). lia.
Qed.
Print Assumptions C101_again_refuted.
Example C101_case : c_index (run 0 fresh_local [OAddPixel 7; OAddPixel 7; OInitLocal]) = [7; 7] /\ c_npix (run 0 fresh_local [OAddPixel 7; OAddPixel 7; OInitLocal]) = 2 /\
  pl_map (pl_run [7; 7]) = [(7, 0)].
Proof. split; [vm_compute; reflexivity|]. split; vm_compute; reflexivity. Qed.

(** ** C102: statically sized maps of state fields *)

(** Accepted exactly for the memory of the state field and the number of scalars of
    its entries. *)
Theorem C102_accepted_iff {A} (zero : A) y p s u t mem d : sreachable zero y -> get_state y p = Ok s -> alike y p (s_mem s) u d -> 0 < d -> 0 < it_rows t -> 0 < it_cols t ->
  (s_mem s = mem -> it_rows t * it_cols t = d -> exists sm, new_static_smap y p u t mem = Ok sm) /\
  (s_mem s <> mem \/ it_rows t * it_cols t <> d -> new_static_smap y p u t mem = Err FieldMapError).
Proof. exact (static_smap_iff zero y p s u t mem d). Qed.
Print Assumptions C102_accepted_iff.

(** After any history, the map shows the states a map made on the spot shows. *)
Theorem C102_agrees {A} (zero : A) y p mem u t sm h k i : sreachable zero y -> c_init (y_coll y) = true -> holds_state y p mem -> new_static_smap y p u t mem = Ok sm -> 0 < it_rows t ->
  Forall (leaves_alone p mem) h -> (k <= Z.to_nat mem)%nat ->
  static_smap_entry t (srun zero y h) sm k i = fresh_entry (srun zero y h) p k u (it_rows t) i.
Proof. exact (static_smap_agrees zero y p mem u t sm h k i). Qed.
Print Assumptions C102_agrees.

(** The iterate holds the current and all old entries. *)
Theorem C102_iterate {A} (y y' : sys A) p u t mem sm i w s : new_static_smap y p u t mem = Ok sm -> 0 < it_rows t -> get_state y' p = Ok s -> s_mem s = mem ->
  static_wrapper t mem y' sm i = Ok w ->
  static_smap_entry t y' sm 0 i = Ok (fst w) /\ forall k, (1 <= k <= Z.to_nat mem)%nat -> static_wrapper_old w k = static_smap_entry t y' sm k i.
Proof.
  intros H P G M W. destruct (static_smap_facts y p u t mem sm H P) as (E & _). rewrite (static_wrapper_same y y' p u t mem sm i s H P G M) in W.
  assert (G' : get_state y' (sm_prefix sm) = Ok s) by now rewrite E. destruct (wrapper_agrees y' sm i w s W G') as (W1 & W2 & _).
  rewrite (static_smap_same y y' p u t mem sm 0 i H P). split; [exact W1|]. intros k K. rewrite (static_smap_same y y' p u t mem sm k i H P), <- W2 by (rewrite M; exact K).
  unfold static_wrapper_old, wrapper_old. destruct k as [|k]; [lia|]. destruct (nth_error (snd w) k) eqn:Ek; [reflexivity|]. exfalso.
  specialize (W2 (S k) ltac:(rewrite M; exact K)). cbn [wrapper_old] in W2. rewrite Ek in W2. symmetry in W2. unfold smap_entry in W2. rewrite G' in W2. cbn [bind] in W2.
  destruct (nth_error (s_idx s) (S k)) as [j|]; [|discriminate]. destruct (nth_error (sm_maps sm) (Z.to_nat j)); [|discriminate].
  destruct (lookup (sub_name (sm_prefix sm) (Z.to_nat j)) (c_fields (y_coll y'))) as [r|]; [|discriminate]. unfold map_entry, span in W2.
  destruct (_ <=? 0); [discriminate|]. destruct (m_ptr _); [|discriminate]. destruct (_ && _); discriminate.
Qed.
Print Assumptions C102_iterate.

(** Iterating gives one iterate per pixel or sub-point, in order. *)
Theorem C102_iterates {A} (y y' : sys A) p u t mem sm r ws : new_static_smap y p u t mem = Ok sm -> 0 < it_rows t -> 0 <= mem -> get_field (y_coll y') (sub_name p 0) = Ok r ->
  0 < l_nsub (f_lay (rf_field r)) -> 0 <= l_npix (f_lay (rf_field r)) -> f_cur (rf_field r) = entries_of (rf_field r) SubPt -> entries_of (rf_field r) SubPt < 2 ^ 64 ->
  static_smap_iterate t mem y' sm = Ok ws ->
  Z.of_nat (length ws) = entries_of (rf_field r) u /\ forall i, 0 <= i < entries_of (rf_field r) u -> static_wrapper t mem y' sm i = Ok (nth (Z.to_nat i) ws ([], [])).
Proof. exact (static_smap_iterates y y' p u t mem sm r ws). Qed.
Print Assumptions C102_iterates.

Example C102_case : exists sm,
  new_static_smap (srun 0 fresh_sys (with_state 3)) "eps" Pixel (mk_iterate 2 1) 3 = Ok sm /\
  let y := srun 0 fresh_sys (with_state 3 ++ fill 10 ++ [SCycle "eps"] ++ fill 20 ++ [SCycle "eps"] ++ fill 30) in
  static_smap_iterate (mk_iterate 2 1) 3 y sm = Ok [([30; 31], [[20; 21]; [10; 11]; [0; 0]]); ([32; 33], [[22; 23]; [12; 13]; [0; 0]])] /\
  new_static_smap y "eps" Pixel (mk_iterate 2 1) 2 = Err FieldMapError /\ new_static_smap y "eps" Pixel (mk_iterate 1 1) 3 = Err FieldMapError.
Proof. eexists. split; [vm_compute; reflexivity|]. cbn zeta. split; [vm_compute; reflexivity|]. split; vm_compute; reflexivity. Qed.
Example C102_hypotheses : alike (srun 0 fresh_sys (with_state 3)) "eps" 3 Pixel 2 /\ holds_state (srun 0 fresh_sys (with_state 3)) "eps" 3.
Proof.
  assert (E : sub_names "eps" 3 = ["eps, sub_field index 0"; "eps, sub_field index 1"; "eps, sub_field index 2"; "eps, sub_field index 3"]%string) by (vm_compute; reflexivity).
  split; [|split; [eexists; split; [vm_compute; reflexivity|reflexivity]|]]; rewrite ?E; unfold alike; rewrite ?E; intros nm [<-|[<-|[<-|[<-|[]]]]]; eexists; (split; [vm_compute; reflexivity|]); repeat (split; [vm_compute; reflexivity|]); vm_compute; reflexivity.
Qed.

(** ** C120: mapped state fields *)

(** The constructor makes a state field with the components of the iterate type
    and its states, all with storage, and a map that shows them after any
    history. *)
Theorem C120_created {A} (zero : A) y p ty t u mem tag : sreachable zero y -> usable zero (y_coll y) -> c_order (y_coll y) = ColMajor -> 1 <= mem ->
  0 < it_rows t -> 0 < it_cols t -> it_rows t * it_cols t < 2 ^ 31 -> get_state y p = Err FieldCollectionError ->
  (forall nm, In nm (sub_names p mem) -> ~ In nm (list_fields (y_coll y))) -> sub_pts_of (y_coll y) tag <> unknown -> u = SubPt \/ sub_pts_of (y_coll y) tag = 1 ->
  exists y1 sm, mapped_state zero y p ty t u mem tag = (y1, Ok sm) /\
    (forall nm, In nm (sub_names p mem) -> made (y_coll y1) ColMajor ty (it_rows t * it_cols t) tag (unitless 0) (sub_pts_of (y_coll y) tag) nm) /\
    (exists s, get_state y1 p = Ok s /\ s_mem s = mem) /\
    (forall nm, ~ In nm (sub_names p mem) -> get_field (y_coll y1) nm = get_field (y_coll y) nm) /\ (forall q, q <> p -> get_state y1 q = get_state y q) /\
    forall h k i, Forall (leaves_alone p mem) h -> (k <= Z.to_nat mem)%nat ->
      static_smap_entry t (srun zero y1 h) sm k i = fresh_entry (srun zero y1 h) p k u (it_rows t) i.
Proof.
  intros R U O M Pr Pc Bg G F T Hu. assert (P : 0 < it_stride t < 2 ^ 31) by (unfold it_stride; split; [now apply Z.mul_pos_pos|exact Bg]).
  destruct (state_made zero y p ty mem (it_stride t) tag (unitless 0) U M P G F T) as (y1 & E & U1 & Gs & Q & H1 & H2). rewrite O in Q.
  pose proof (sreachable_register zero y p ty mem (it_stride t) tag (unitless 0) false y1 _ R E) as R1.
  pose proof (made_alike y1 p mem ty (it_stride t) tag (unitless 0) _ u T Q) as Al.
  assert (Ed : match u with Pixel => it_stride t * sub_pts_of (y_coll y) tag | SubPt => it_stride t end = it_rows t * it_cols t).
  { destruct Hu as [-> | X]; [reflexivity|]. rewrite X, Z.mul_1_r. now destruct u. }
  rewrite Ed in Al. destruct (static_smap_iff zero y1 p _ u t mem _ R1 Gs Al (proj1 P) Pr Pc) as [Y _]. destruct (Y eq_refl eq_refl) as (sm & Es).
  exists y1, sm. split; [unfold mapped_state; now rewrite E, Es|]. split; [exact Q|]. split; [eexists; split; [exact Gs|reflexivity]|]. split; [exact H1|]. split; [exact H2|].
  intros h k i Fh K. apply (C102_agrees zero y1 p mem u t sm h k i R1); try assumption.
  - apply U1.
  - split; [eexists; split; [exact Gs|reflexivity]|]. intros nm I. destruct (Al nm I) as (r & X1 & X2 & _). eauto.
Qed.
Print Assumptions C120_created.

(** The prefix of an existing state field is refused and nothing changes. *)
Theorem C120_taken {A} (zero : A) y p ty t u mem tag s : get_state y p = Ok s -> mapped_state zero y p ty t u mem tag = (y, Err FieldCollectionError).
Proof. unfold get_state, mapped_state, register_state. destruct (lookup p (y_states y)); [reflexivity|discriminate]. Qed.
Print Assumptions C120_taken.

Example C120_case : exists y1 sm, mapped_state 0 (mk_sys two_pixels []) "F" Real (mk_iterate 1 2) SubPt 1 "quad" = (y1, Ok sm) /\
  list_fields (y_coll y1) = ["F, sub_field index 0"; "F, sub_field index 1"; "f"]%string /\
  let y2 := srun 0 y1 [SWrite "F" 2 7; SWrite "F" 3 8; SCycle "F"; SWrite "F" 2 9] in
  static_wrapper (mk_iterate 1 2) 1 y2 sm 1 = Ok ([9; 0], [[7; 8]]).
Proof. eexists; eexists. split; [vm_compute; reflexivity|]. split; [vm_compute; reflexivity|]. cbn zeta. vm_compute. reflexivity. Qed.
Example C120_hypotheses : sreachable 0 (mk_sys two_pixels []) /\ usable 0 two_pixels /\ c_order two_pixels = ColMajor /\ sub_pts_of two_pixels "quad" = 2 /\
  (forall nm, In nm (sub_names "F" 1) -> ~ In nm (list_fields two_pixels)).
Proof.
  split; [|split; [exact two_pixels_usable|]].
  - exists false, ColMajor, [("quad"%string, 2)], fresh_local, (map SColl [OAddPixel 7; OAddPixel 4; reg "f" "quad" 1; OInitLocal; OWrite "f" 0 10; OWrite "f" 1 20; OWrite "f" 2 30; OWrite "f" 3 40]).
    split; vm_compute; reflexivity.
  - split; [vm_compute; reflexivity|]. split; [vm_compute; reflexivity|]. intros nm I. assert (L : list_fields two_pixels = ["f"%string]) by (vm_compute; reflexivity). rewrite L.
    intros [<-|[]]. vm_compute in I. intuition discriminate.
Qed.
