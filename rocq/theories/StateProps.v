(** Properties of state fields (C22) and of maps over them (C23); refuted
    extensions (C60, C61). *)
From Coq Require Import String NArith.
From Verif Require Import Base CIntModel GridModel GridSpec StridedModel UnitsModel LayoutModel LayoutSpec LayoutProofs.
From Verif Require Import FieldModel FieldSpec FieldProps RegistryModel RegistrySpec RegistryProps.
From Verif Require Import StateModel StateSpec StateProofs StateProofs2 StateProofs3 StateProofs4.
Local Open Scope Z_scope.
Local Open Scope list_scope.

(** Shorthands for the concrete cases: a local collection of three pixels with
    a state field. *)
Definition fresh_sys : sys Z := mk_sys fresh_local [].
Definition with_state (mem : Z) : list (sop Z) :=
  [SRegister "eps" Real mem 1 "quad" no_unit false; SColl (OAddPixel 4); SColl (OAddPixel 9); SColl OInitLocal].
Definition soutcomes (y : sys Z) (h : list (sop Z)) : list (res unit) :=
  rev (fst (fold_left (fun s o => (snd (sstep 0 (snd s) o) :: fst s, fst (sstep 0 (snd s) o))) h ([], y))).
Definition fill (a : Z) : list (sop Z) := map (fun i => SWrite "eps" i (a + i)) [0; 1; 2; 3].

Lemma fresh_sys_reachable h : sreachable 0 (srun 0 fresh_sys h).
Proof. exists false, ColMajor, [("quad"%string, 2)], fresh_local, h. split; [vm_compute|]; reflexivity. Qed.

(** ** C22 *)

(** A fresh registration creates exactly nb_memory + 1 sub-fields with the
    attributes asked for and touches no other field or state field. *)
Theorem C22_registration {A} (zero : A) y prefix ty mem nbc tag u allow : get_state y prefix = Err FieldCollectionError ->
  snd (register_state zero y prefix ty mem nbc tag u allow) = Ok tt ->
  let y' := fst (register_state zero y prefix ty mem nbc tag u allow) in
  1 <= mem /\
  (exists s, get_state y' prefix = Ok s /\ s_mem s = mem /\ s_nbc s = nbc /\ s_tag s = tag /\ s_unit s = u /\ s_type s = ty) /\
  (forall nm, In nm (sub_names prefix mem) -> exists r, get_field (y_coll y') nm = Ok r /\ as_requested r ty nbc tag u (sub_pts_of (y_coll y) tag)) /\
  (forall nm, ~ In nm (sub_names prefix mem) -> get_field (y_coll y') nm = get_field (y_coll y) nm) /\
  (forall q, q <> prefix -> get_state y' q = get_state y q).
Proof.
  intros G O. destruct (register_state_fresh zero y prefix ty mem nbc tag u allow G O) as (H1 & H2 & H3). cbv zeta. split; [exact H1|]. split; [|exact H3].
  rewrite H2. eexists. split; [reflexivity|]. cbn. auto.
Qed.
Print Assumptions C22_registration.

(** Registering an existing prefix changes nothing, and succeeds exactly when
    that is allowed and all attributes agree. *)
Theorem C22_existing {A} (zero : A) y prefix ty mem nbc tag u allow s : get_state y prefix = Ok s ->
  fst (register_state zero y prefix ty mem nbc tag u allow) = y /\
  (snd (register_state zero y prefix ty mem nbc tag u allow) = Ok tt <->
   allow = true /\ s_type s = ty /\ s_mem s = mem /\ s_nbc s = nbc /\ s_tag s = tag /\ unit_eqb (s_unit s) u = true).
Proof. apply register_state_existing. Qed.
Print Assumptions C22_existing.

(** Whatever happens in between, after k cycles old(k) is what was current. *)
Theorem C22_replay {A} (zero : A) y p mem k h : sreachable zero y -> c_init (y_coll y) = true -> holds_state y p mem -> power_of_two (mem + 1) ->
  Forall (leaves_alone p mem) h -> cycles p h = (k - 1)%nat -> (1 <= k <= Z.to_nat mem)%nat ->
  field_at (srun zero y (SCycle p :: h)) p k = field_at y p 0 /\ is_ok (field_at y p 0) = true.
Proof. apply replay. Qed.
Print Assumptions C22_replay.

(** Current and old states are distinct fields among the sub-fields, and there
    are none beyond nb_memory. *)
Theorem C22_slots {A} (zero : A) (y : sys A) p s k : sreachable zero y -> get_state y p = Ok s ->
  ((k <= Z.to_nat (s_mem s))%nat -> exists j, (j <= Z.to_nat (s_mem s))%nat /\ name_at y p k = Ok (sub_name p j)) /\
  ((Z.to_nat (s_mem s) < k)%nat -> name_at y p k = Err OutOfRange).
Proof. apply slots. Qed.
Print Assumptions C22_slots.

Theorem C22_no_aliasing {A} (zero : A) (y : sys A) p s i j : sreachable zero y -> get_state y p = Ok s -> power_of_two (s_mem s + 1) ->
  (i <= Z.to_nat (s_mem s))%nat -> (j <= Z.to_nat (s_mem s))%nat -> name_at y p i = name_at y p j -> i = j.
Proof. apply slots_distinct. Qed.
Print Assumptions C22_no_aliasing.

(** Sub-fields of different state fields are different, too. *)
Theorem C22_no_aliasing_across {A} (zero : A) (y : sys A) p q s t i j n : sreachable zero y -> get_state y p = Ok s -> get_state y q = Ok t -> p <> q ->
  name_at y p i = Ok n -> name_at y q j <> Ok n.
Proof.
  intros _ _ _ N H1 H2. apply name_at_name in H1, H2. destruct H1 as (a & ->), H2 as (b & E). apply sub_name_inj in E. now destruct E.
Qed.
Print Assumptions C22_no_aliasing_across.

(** Cycling moves every state one step back, reuses the oldest for the new
    current state and leaves all stored values and other state fields alone. *)
Theorem C22_cycle {A} (zero : A) y p s : sreachable zero y -> get_state y p = Ok s -> power_of_two (s_mem s + 1) ->
  let y' := fst (sstep zero y (SCycle p)) in
  snd (sstep zero y (SCycle p)) = Ok tt /\ y_coll y' = y_coll y /\
  (forall k, (k < Z.to_nat (s_mem s))%nat -> name_at y' p (S k) = name_at y p k) /\
  name_at y' p 0 = name_at y p (Z.to_nat (s_mem s)) /\
  (forall q, q <> p -> get_state y' q = get_state y q).
Proof. apply cycle_next. Qed.
Print Assumptions C22_cycle.

(** nb_memory + 1 cycles restore every slot, whatever the memory. *)
Theorem C22_full_turn {A} (zero : A) (y : sys A) p s h k : sreachable zero y -> get_state y p = Ok s -> Z.of_nat (cycles p h) = s_mem s + 1 ->
  name_at (srun zero y h) p k = name_at y p k.
Proof. apply full_turn. Qed.
Print Assumptions C22_full_turn.

(** Remembered values survive everything but cycling. *)
Theorem C22_old_untouched {A} (zero : A) y o p mem k : sreachable zero y -> c_init (y_coll y) = true -> holds_state y p mem -> power_of_two (mem + 1) ->
  leaves_alone p mem o -> o <> SCycle p -> (1 <= k <= Z.to_nat mem)%nat ->
  field_at (fst (sstep zero y o)) p k = field_at y p k.
Proof. apply old_untouched. Qed.
Print Assumptions C22_old_untouched.

(** A write reaches the current state. *)
Theorem C22_write_current {A} (zero : A) y p r i x : sreachable zero y -> field_at y p 0 = Ok r -> 0 <= i < Z.of_nat (length (f_vals (rf_field r))) ->
  snd (sstep zero y (SWrite p i x)) = Ok tt /\
  exists r', field_at (fst (sstep zero y (SWrite p i x))) p 0 = Ok r' /\ length (f_vals (rf_field r')) = length (f_vals (rf_field r)) /\
    forall j, nth_error (f_vals (rf_field r')) j = if Nat.eqb j (Z.to_nat i) then Some x else nth_error (f_vals (rf_field r)) j.
Proof. apply write_current. Qed.
Print Assumptions C22_write_current.

(** Memory 1 and 3: write, cycle, write, ... and read everything back. *)
Example C22_case :
  let y1 := srun 0 fresh_sys (with_state 1 ++ fill 10 ++ [SCycle "eps"] ++ fill 20) in
  scalars_at y1 "eps" 0 = Ok [20; 21; 22; 23] /\ scalars_at y1 "eps" 1 = Ok [10; 11; 12; 13] /\ scalars_at y1 "eps" 2 = Err OutOfRange /\
  let y3 := srun 0 fresh_sys (with_state 3 ++ fill 10 ++ [SCycle "eps"] ++ fill 20 ++ [SCycle "eps"] ++ fill 30 ++ [SCycle "eps"] ++ fill 40 ++ [SCycle "eps"] ++ fill 50) in
  map (scalars_at y3 "eps") [0; 1; 2; 3]%nat = [Ok [50; 51; 52; 53]; Ok [40; 41; 42; 43]; Ok [30; 31; 32; 33]; Ok [20; 21; 22; 23]].
Proof. vm_compute. repeat split; reflexivity. Qed.
Example C22_hypotheses : let y := srun 0 fresh_sys (with_state 3) in
  sreachable 0 y /\ c_init (y_coll y) = true /\ holds_state y "eps" 3 /\ power_of_two (3 + 1) /\
  Forall (leaves_alone "eps" 3) (fill 20 ++ [SCycle "eps"; SColl (reg "other" "quad" 2); SColl (OPop "other")]).
Proof.
  cbv zeta. split; [apply fresh_sys_reachable|]. split; [vm_compute; reflexivity|]. split; [|split].
  - split; [eexists; split; vm_compute; reflexivity|]. intros nm H. change (sub_names "eps" 3) with (map (sub_name "eps") [0; 1; 2; 3]%nat) in H. cbn [map] in H.
    repeat destruct H as [<-|H]; try contradiction; (eexists; split; [vm_compute; reflexivity|reflexivity]).
  - exists 2. now split; [lia|].
  - repeat constructor; intros nm [= <-] H; apply in_sub_names in H; destruct H as (i & _ & E); discriminate E.
Qed.
Example C22_registration_case :
  soutcomes fresh_sys [SRegister "eps" Real 0 1 "quad" no_unit false; SRegister "eps" Real 3 1 "quad" no_unit false; SRegister "eps" Real 3 1 "quad" no_unit false;
    SRegister "eps" Real 3 1 "quad" no_unit true; SRegister "eps" Real 1 1 "quad" no_unit true; SRegister "eps" Complex 3 1 "quad" no_unit true; SCycle "sig"]
  = [Err FieldError; Ok tt; Err FieldCollectionError; Ok tt; Err FieldCollectionError; Err RuntimeError; Err FieldCollectionError].
Proof. vm_compute. reflexivity. Qed.

(** ** C23 *)

(** An entry of a map is at any later time the entry of a map made on the spot
    over the current or old field. *)
Theorem C23_map_agrees {A} (zero : A) y p mem u rows sm h k i : sreachable zero y -> c_init (y_coll y) = true -> holds_state y p mem -> new_smap y p u rows = Ok sm ->
  Forall (leaves_alone p mem) h -> (k <= Z.to_nat mem)%nat ->
  smap_entry (srun zero y h) sm k i = fresh_entry (srun zero y h) p k u (sm_rows sm) i.
Proof. apply smap_agrees. Qed.
Print Assumptions C23_map_agrees.

(** In terms of the logical values of these fields. *)
Theorem C23_sub_pt_values {A} (zero : A) y p mem rows sm h k r c q x i e : sreachable zero y -> c_init (y_coll y) = true -> holds_state y p mem -> new_smap y p SubPt rows = Ok sm ->
  Forall (leaves_alone p mem) h -> (k <= Z.to_nat mem)%nat ->
  field_at (srun zero y h) p k = Ok r -> ready (rf_field r) -> unpadded (rf_field r) ->
  in_shape (l_comp (f_lay (rf_field r))) c -> 0 <= q < l_nsub (f_lay (rf_field r)) -> in_shape (l_pix (f_lay (rf_field r))) x ->
  i = q + l_nsub (f_lay (rf_field r)) * off (l_pstr (f_lay (rf_field r))) x ->
  smap_entry (srun zero y h) sm k i = Ok e -> rd e (off (running 1 (l_comp (f_lay (rf_field r)))) c) = value (rf_field r) (c ++ [q] ++ x).
Proof.
  intros R I H N F K G Re Un C Q X -> E. rewrite (smap_agrees zero y p mem SubPt rows sm h k _ R I H N F K) in E.
  unfold fresh_entry in E. rewrite G in E. cbn [bind] in E. destruct (new_map (rf_field r) SubPt (Some (sm_rows sm))) as [m| |] eqn:M; try discriminate. cbn [bind] in E.
  destruct (C24_sub_pt_entry (rf_field r) _ m c q x Re Un M C Q X) as (_ & e' & E1 & E2). rewrite E in E1. apply Ok_inj in E1. now subst.
Qed.
Print Assumptions C23_sub_pt_values.

Theorem C23_pixel_values {A} (zero : A) y p mem rows sm h k r c q x i e : sreachable zero y -> c_init (y_coll y) = true -> holds_state y p mem -> new_smap y p Pixel rows = Ok sm ->
  Forall (leaves_alone p mem) h -> (k <= Z.to_nat mem)%nat ->
  field_at (srun zero y h) p k = Ok r -> ready (rf_field r) -> unpadded (rf_field r) ->
  in_shape (l_comp (f_lay (rf_field r))) c -> 0 <= q < l_nsub (f_lay (rf_field r)) -> in_shape (l_pix (f_lay (rf_field r))) x ->
  i = off (l_pstr (f_lay (rf_field r))) x ->
  smap_entry (srun zero y h) sm k i = Ok e -> rd e (off (running 1 (l_comp (f_lay (rf_field r)))) c + l_nbc (f_lay (rf_field r)) * q) = value (rf_field r) (c ++ [q] ++ x).
Proof.
  intros R I H N F K G Re Un C Q X -> E. rewrite (smap_agrees zero y p mem Pixel rows sm h k _ R I H N F K) in E.
  unfold fresh_entry in E. rewrite G in E. cbn [bind] in E. destruct (new_map (rf_field r) Pixel (Some (sm_rows sm))) as [m| |] eqn:M; try discriminate. cbn [bind] in E.
  destruct (C24_pixel_entry (rf_field r) _ m c q x Re Un M C Q X) as (_ & e' & E1 & E2). rewrite E in E1. apply Ok_inj in E1. now subst.
Qed.
Print Assumptions C23_pixel_values.

(** The shape of the iterates: all scalars in one column by default, else the
    given number of rows. *)
Theorem C23_rows {A} (y : sys A) p u rows sm r : new_smap y p u rows = Ok sm -> field_at y p 0 = Ok r ->
  sm_rows sm = match rows with Some n => n | None => scalars_per_entry (rf_field r) u end.
Proof.
  unfold new_smap. intros H F. destruct (get_state y p) as [s| |]; cbn [bind] in H; try discriminate. rewrite F in H. cbn [bind] in H.
  destruct (sub_fields y p (s_mem s)) as [fs| |]; cbn [bind] in H; try discriminate. destruct (make_maps fs u _) as [ms| |]; cbn [bind] in H; try discriminate.
  destruct rows as [n|].
  - destruct (get_stride _ _ _); cbn [bind] in H; try discriminate. destruct (negb _); [discriminate|]. apply Ok_inj in H. now subst.
  - apply Ok_inj in H. subst. cbn [sm_rows]. unfold scalars_per_entry. destruct u; lia.
Qed.
Print Assumptions C23_rows.

(** The iterate handed out by a map: its old values are those of the map, and
    asking for more steps than remembered is refused. *)
Theorem C23_wrapper {A} (y : sys A) sm i w s : wrapper y sm i = Ok w -> get_state y (sm_prefix sm) = Ok s ->
  smap_entry y sm 0 i = Ok (fst w) /\
  (forall k, (1 <= k <= Z.to_nat (s_mem s))%nat -> wrapper_old w k = smap_entry y sm k i) /\
  (forall k, k = 0%nat \/ (Z.to_nat (s_mem s) < k)%nat -> wrapper_old w k = Err OutOfRange).
Proof. apply wrapper_agrees. Qed.
Print Assumptions C23_wrapper.

(** The size of the map is the number of entries of the current field, and all
    of them can be read, now and in the past. *)
Theorem C23_size {A} (zero : A) y p mem u rows sm h r : sreachable zero y -> c_init (y_coll y) = true -> holds_state y p mem -> new_smap y p u rows = Ok sm ->
  Forall (leaves_alone p mem) h -> field_at (srun zero y h) p 0 = Ok r -> ready (rf_field r) ->
  smap_size (srun zero y h) sm = Ok (entries_of (rf_field r) u) /\
  forall k i rk m, (k <= Z.to_nat mem)%nat -> field_at (srun zero y h) p k = Ok rk -> ready (rf_field rk) -> unpadded (rf_field rk) ->
    new_map (rf_field rk) u (Some (sm_rows sm)) = Ok m -> 0 <= i < entries_of (rf_field rk) u ->
    exists e, smap_entry (srun zero y h) sm k i = Ok e.
Proof.
  intros R I H N F G Re. destruct (new_smap_facts _ _ _ _ _ N) as (E1 & E2 & _). split.
  - unfold smap_size. rewrite E1, E2, G. cbn [bind]. destruct u; [reflexivity|]. unfold nb_entries, has_nsub. destruct Re as ((_ & _ & P & _) & _).
    replace (l_nsub (f_lay (rf_field r)) =? unknown) with false by (symmetry; apply Z.eqb_neq; unfold unknown; lia). reflexivity.
  - intros k i rk m K Gk Rk Uk M Hi. rewrite (smap_agrees zero y p mem u rows sm h k i R I H N F K). unfold fresh_entry. rewrite Gk. cbn [bind]. rewrite M. cbn [bind].
    rewrite (FieldProofs2.entry_block _ u _ m i Rk Uk M Hi). eauto.
Qed.
Print Assumptions C23_size.

(** A map made before the collection was initialised is completed by the
    initialisation and then agrees as well. *)
Theorem C23_early_map {A} (zero : A) y y' p s s' u rows sm : sreachable zero y -> sreachable zero y' -> c_init (y_coll y) = false -> c_init (y_coll y') = true ->
  c_order (y_coll y') = c_order (y_coll y) -> get_state y p = Ok s -> get_state y' p = Ok s' -> s_mem s' = s_mem s ->
  (forall nm, In nm (sub_names p (s_mem s)) -> exists r r', get_field (y_coll y) nm = Ok r /\ get_field (y_coll y') nm = Ok r' /\
     l_nbc (f_lay (rf_field r')) = l_nbc (f_lay (rf_field r)) /\ l_nsub (f_lay (rf_field r')) = l_nsub (f_lay (rf_field r))) ->
  new_smap y p u rows = Ok sm ->
  exists sm', initialise_smap y' sm = Ok sm' /\ sm_rows sm' = sm_rows sm /\
    forall k i, (k <= Z.to_nat (s_mem s))%nat -> smap_entry y' sm' k i = fresh_entry y' p k u (sm_rows sm) i.
Proof. apply early_smap. Qed.
Print Assumptions C23_early_map.

Example C23_case : exists sm,
  new_smap (srun 0 fresh_sys (with_state 3)) "eps" Pixel None = Ok sm /\
  let y := srun 0 fresh_sys (with_state 3 ++ fill 10 ++ [SCycle "eps"] ++ fill 20 ++ [SCycle "eps"] ++ fill 30) in
  smap_size y sm = Ok 2 /\ sm_rows sm = 2 /\
  map (fun k => smap_entry y sm k 1) [0; 1; 2; 3]%nat = [Ok [32; 33]; Ok [22; 23]; Ok [12; 13]; Ok [0; 0]] /\
  wrapper y sm 0 = Ok ([30; 31], [[20; 21]; [10; 11]; [0; 0]]).
Proof. eexists. split; [vm_compute; reflexivity|]. vm_compute. repeat split; reflexivity. Qed.
(** An early map, over memory 2: agreement does not need distinct slots. *)
Example C23_early_case : exists sm sm',
  let h := [SRegister "eps" Real 2 1 "quad" no_unit false; SColl (OAddPixel 4)] in
  new_smap (srun 0 fresh_sys h) "eps" SubPt None = Ok sm /\ smap_entry (srun 0 fresh_sys h) sm 0 0 = UB /\
  let y := srun 0 fresh_sys (h ++ [SColl OInitLocal; SWrite "eps" 1 7]) in
  initialise_smap y sm = Ok sm' /\ smap_entry y sm' 0 1 = Ok [7] /\ smap_entry y sm' 2 1 = Ok [0].
Proof. eexists; eexists. cbv zeta. split; [vm_compute; reflexivity|]. split; [vm_compute; reflexivity|]. split; [vm_compute; reflexivity|]. split; vm_compute; reflexivity. Qed.

(** ** C60: histories for every memory *)

(** In no state does a state field with another memory keep its states apart. *)
Theorem C60_memory_refuted {A} (zero : A) (y : sys A) p s : sreachable zero y -> get_state y p = Ok s -> ~ power_of_two (s_mem s + 1) ->
  exists i j, (i < j <= Z.to_nat (s_mem s))%nat /\ name_at y p i = name_at y p j.
Proof. apply slots_shared. Qed.
Print Assumptions C60_memory_refuted.

(** Memory 2: the values written before the cycle are not found afterwards. *)
Theorem C60_replay_refuted : let y := srun 0 fresh_sys (with_state 2 ++ fill 10) in
  scalars_at y "eps" 0 = Ok [10; 11; 12; 13] /\ scalars_at y "eps" 1 = Ok [10; 11; 12; 13] /\
  scalars_at (srun 0 y (SCycle "eps" :: fill 20)) "eps" 1 = Ok [20; 21; 22; 23].
Proof. vm_compute. repeat split; reflexivity. Qed.
Print Assumptions C60_replay_refuted.
Example C60_case : init_indices 2 = [2; 2; 0] /\ init_indices 3 = [0; 3; 2; 1] /\ ~ power_of_two (2 + 1) /\ init_indices 5 = [4; 5; 4; 1; 0; 1].
Proof.
  split; [reflexivity|]. split; [reflexivity|]. split; [|reflexivity]. intros (q & Hq & E). destruct (Z.eq_dec q 0) as [->|N]; [discriminate|].
  assert (q = 1 + (q - 1)) as F by lia. rewrite F, Z.pow_add_r in E by lia. change (2 ^ 1) with 2 in E. lia.
Qed.

(** ** C61: failed registrations *)

(** A field that already has the name of a later sub-field makes the
    registration fail after earlier sub-fields were registered; these stay. *)
Theorem C61_failed_registration_refuted :
  let y := srun 0 fresh_sys [SColl (reg "eps, sub_field index 1" "quad" 1)] in
  let '(y', o) := register_state 0 y "eps" Real 1 1 "quad" no_unit false in
  o = Err FieldCollectionError /\ get_state y' "eps" = Err FieldCollectionError /\
  list_fields (y_coll y) = ["eps, sub_field index 1"%string] /\
  list_fields (y_coll y') = ["eps, sub_field index 0"; "eps, sub_field index 1"]%string.
Proof. vm_compute. repeat split; reflexivity. Qed.
Print Assumptions C61_failed_registration_refuted.

(** What is kept: existing fields and state fields are not touched. *)
Theorem C61_existing_kept_partial {A} (zero : A) y prefix ty mem nbc tag u allow : snd (register_state zero y prefix ty mem nbc tag u allow) <> Ok tt ->
  let y' := fst (register_state zero y prefix ty mem nbc tag u allow) in
  y_states y' = y_states y /\ (forall nm r, get_field (y_coll y) nm = Ok r -> get_field (y_coll y') nm = Ok r).
Proof.
  unfold register_state. destruct (lookup prefix (y_states y)) as [s|] eqn:L.
  - intros _. cbv zeta. destruct allow; [|now split]. destruct (negb (ftype_eqb _ _)); [now split|]. destruct (negb (s_mem s =? mem)); [now split|].
    destruct (negb (s_nbc s =? nbc)); [now split|]. destruct (negb (String.eqb _ _)); [now split|]. destruct (negb (unit_eqb _ _)); now split.
  - assert (T : forall nm r, get_field (y_coll y) nm = Ok r -> get_field (touch_tag (y_coll y) tag) nm = Ok r).
    { intros nm r. unfold touch_tag, get_field. now destruct (tag_number (y_coll y) tag). }
    cbv zeta. destruct (mem <? 1); [intros _; split; [reflexivity|exact T]|].
    destruct (register_subs zero (touch_tag (y_coll y) tag) (sub_names prefix mem) ty nbc tag u) as [c2 o] eqn:E.
    assert (K : forall nm r, get_field (y_coll y) nm = Ok r -> get_field c2 nm = Ok r).
    { intros nm r H. pose proof (subs_keeps zero nm r ty nbc tag u (sub_names prefix mem) _ (T nm r H)) as S. rewrite E in S. exact S. }
    destruct o as [[]| |]; cbn [fst snd]; intros N; [congruence| |]; now split.
Qed.
Print Assumptions C61_existing_kept_partial.
