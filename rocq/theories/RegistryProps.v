(** Properties of field collections (C15-C21) and refuted extensions
    (C56-C59). *)
From Coq Require Import String NArith.
From Verif Require Import Base CIntModel GridModel GridSpec StridedModel UnitsModel LayoutModel LayoutSpec.
From Verif Require Import FieldModel FieldSpec RegistryModel RegistrySpec.
From Verif Require Import RegistryProofs RegistryProofs2 RegistryProofs3 RegistryProofs4.
Local Open Scope Z_scope.
Local Open Scope list_scope.

(** Shorthands for the concrete cases. *)
Definition no_unit : unit_t := unitless 0.
Definition reg (name tag : string) (n : Z) : op Z := ORegister name Real (inl n) tag no_unit false.
Definition fresh_local : coll Z := match new_coll false ColMajor [("quad"%string, 2)] with Ok c => c | _ => run 0 (mk_coll false ColMajor [] false 0 0 [] [] [] []) [] end.
Definition fresh_global : coll Z := match new_coll true ColMajor [("quad"%string, 2)] with Ok c => c | _ => run 0 (mk_coll true ColMajor [] false 0 0 [] [] [] []) [] end.
Definition outcomes (c : coll Z) (h : list (op Z)) : list (res unit) :=
  rev (fst (fold_left (fun s o => (snd (step 0 (snd s) o) :: fst s, fst (step 0 (snd s) o))) h ([], c))).

Lemma fresh_local_reachable h : reachable 0 (run 0 fresh_local h).
Proof. exists false, ColMajor, [("quad"%string, 2)], fresh_local, h. split; [vm_compute|]; reflexivity. Qed.
Lemma fresh_global_reachable h : reachable 0 (run 0 fresh_global h).
Proof. exists true, ColMajor, [("quad"%string, 2)], fresh_global, h. split; [vm_compute|]; reflexivity. Qed.

(** ** C15: names *)
Theorem C15_names_unique {A} (zero : A) c : reachable zero c -> NoDup (list_fields c).
Proof. intros R. apply reachable_inv in R. now apply ordered_NoDup, R. Qed.
Print Assumptions C15_names_unique.

(** Exactly the listed names are retrievable. *)
Theorem C15_listed_iff_retrievable {A} (c : coll A) name : In name (list_fields c) <-> exists r, get_field c name = Ok r.
Proof.
  unfold list_fields, get_field. rewrite lookup_keys. destruct (lookup name (c_fields c)) as [r|]; split; try congruence.
  - intros _. now exists r.
  - intros [r H]. discriminate.
Qed.
Print Assumptions C15_listed_iff_retrievable.

Theorem C15_fresh_registration {A} (zero : A) c name ty comp tag u allow : ~ In name (list_fields c) ->
  let '(c', o) := register_field zero c name ty comp tag u allow in
  (o <> Ok tt -> c_fields c' = c_fields c) /\
  (o = Ok tt -> (exists r, get_field c' name = Ok r /\ rf_tag r = tag /\ rf_unit r = u /\ rf_type r = ty /\
      l_comp (f_lay (rf_field r)) = comp_shape comp /\ l_nbc (f_lay (rf_field r)) = comp_nb comp /\ f_pad (rf_field r) = 0 /\
      l_nsub (f_lay (rf_field r)) = sub_pts_of c tag) /\
    (forall k, k <> name -> get_field c' k = get_field c k) /\ Permutation (list_fields c') (name :: list_fields c)).
Proof.
  intros N. apply register_fresh. unfold list_fields in N. destruct (lookup name (c_fields c)) eqn:E; [|reflexivity].
  exfalso. apply N. apply lookup_keys. congruence.
Qed.
Print Assumptions C15_fresh_registration.

(** A registration with a fresh name is only refused by an initialised
    collection that does not know the sub-division. *)
Theorem C15_fresh_registration_outcome {A} (zero : A) strict c name ty comp tag u allow : sensibly_reachable zero strict c ->
  positive comp -> ~ In name (list_fields c) ->
  snd (register_field zero c name ty comp tag u allow) = if c_init c && (sub_pts_of c tag =? unknown) then Err FieldError else Ok tt.
Proof.
  intros R P N. apply sensibly_sinv in R. destruct R as (I & T & B & _). apply register_outcome.
  - unfold list_fields in N. destruct (lookup name (c_fields c)) eqn:E; [|reflexivity]. exfalso. apply N. apply lookup_keys. congruence.
  - destruct (attr_comp comp P) as (-> & F & _). pose proof (zprod_pos _ F). lia.
  - destruct (c_init c); [left; auto|now right].
  - intros n H. apply T in H. lia.
Qed.
Print Assumptions C15_fresh_registration_outcome.

Theorem C15_existing_name {A} (zero : A) c name ty comp tag u allow r : get_field c name = Ok r ->
  fst (register_field zero c name ty comp tag u allow) = c /\
  (snd (register_field zero c name ty comp tag u allow) = Ok tt <->
   allow = true /\ rf_type r = ty /\ comp_match r comp /\ rf_tag r = tag /\ unit_eqb (rf_unit r) u = true).
Proof. apply register_existing. Qed.
Print Assumptions C15_existing_name.

Theorem C15_removal {A} (c : coll A) name : let '(c', o) := pop_field c name in
  o = get_field c name /\ (is_ok o = false -> c' = c) /\ (is_ok o = true -> get_field c' name = Err FieldCollectionError) /\
  (forall k, k <> name -> get_field c' k = get_field c k).
Proof. apply pop_spec. Qed.
Print Assumptions C15_removal.

(** A name keeps designating its field: no other operation drops it or
    changes its type or unit, and only [reshape] changes its shape or
    sub-division. *)
Theorem C15_name_keeps_designating {A} (zero : A) c o name r : get_field c name = Ok r -> o <> OPop name ->
  exists r', get_field (fst (step zero c o)) name = Ok r' /\ keeps name o r r'.
Proof. apply step_keeps. Qed.
Print Assumptions C15_name_keeps_designating.

(** Operations on one field do not touch another. *)
Theorem C15_other_fields_untouched {A} (zero : A) c o name name' : addressed o = Some name' -> name <> name' ->
  get_field (fst (step zero c o)) name = get_field c name.
Proof. apply step_isolated. Qed.
Print Assumptions C15_other_fields_untouched.

Example C15_case :
  let h := [reg "b" "quad" 3; reg "a" "pixel" 1; reg "b" "quad" 3; ORegister "b" Real (inl 3) "quad" no_unit true;
            ORegister "b" Int (inl 3) "quad" no_unit true; ORegister "b" Real (inl 4) "quad" no_unit true; OPop "c"; OPop "a"] in
  outcomes fresh_local h = [Ok tt; Ok tt; Err FieldCollectionError; Ok tt; Err RuntimeError; Err FieldCollectionError; Err FieldCollectionError; Ok tt] /\
  list_fields (run 0 fresh_local (firstn 7 h)) = ["a"%string; "b"%string] /\ list_fields (run 0 fresh_local h) = ["b"%string].
Proof. vm_compute. auto. Qed.

(** ** C16: sub-points are write-once *)
Theorem C16_write_once {A} (zero : A) c h tag n : tag_number c tag = Some n -> tag_number (run zero c h) tag = Some n.
Proof. apply run_number. Qed.
Print Assumptions C16_write_once.

Theorem C16_other_number_rejected {A} (c : coll A) tag n m : tag_number c tag = Some n -> m <> n ->
  set_nb_sub_pts c tag m = (c, Err FieldCollectionError).
Proof.
  intros T N. unfold set_nb_sub_pts. rewrite T. destruct (Z.eqb_spec n m); [congruence|reflexivity].
Qed.
Print Assumptions C16_other_number_rejected.

Theorem C16_set_takes_effect {A} (c : coll A) tag n : 1 <= n -> tag_number c tag = None ->
  snd (set_nb_sub_pts c tag n) = Ok tt /\ forall t, tag_number (fst (set_nb_sub_pts c tag n)) t = if String.eqb t tag then Some n else tag_number c t.
Proof.
  intros Hn T. split; [|intros t; apply set_nb_numbers; auto]. destruct (set_nb_cases c tag n) as [(_ & _ & [H|(m & H & _)])|(_ & _ & ->)]; [lia|congruence|reflexivity].
Qed.
Print Assumptions C16_set_takes_effect.

Theorem C16_fields_report_number {A} (zero : A) c name r : reachable zero c -> get_field c name = Ok r ->
  l_nsub (f_lay (rf_field r)) = sub_pts_of c (rf_tag r).
Proof.
  intros R G. apply reachable_inv in R. unfold get_field in G. destruct (lookup name (c_fields c)) as [r0|] eqn:L; [|discriminate].
  destruct R as [_ R]. injection G as ->. now apply (R name).
Qed.
Print Assumptions C16_fields_report_number.

Theorem C16_pixel_is_one {A} (zero : A) c : reachable zero c -> tag_number c pixel_tag = Some 1.
Proof. intros (g & o & t & c0 & h & N & ->). apply run_number. now apply new_coll_spec in N. Qed.
Print Assumptions C16_pixel_is_one.

Example C16_case : let c := run 0 fresh_local [reg "f" "nodes" 1; reg "g" "quad" 1] in
  sub_pts_of c "nodes" = unknown /\ outcomes c [OSetSubPts "nodes" 0; OSetSubPts "nodes" 4; OSetSubPts "nodes" 5; OSetSubPts "nodes" 4; OSetSubPts "pixel" 2] =
    [Err FieldCollectionError; Ok tt; Err FieldCollectionError; Ok tt; Err FieldCollectionError] /\
  (exists r, get_field (run 0 c [OSetSubPts "nodes" 4]) "f" = Ok r /\ l_nsub (f_lay (rf_field r)) = 4).
Proof. split; [vm_compute; reflexivity|]. split; [vm_compute; reflexivity|]. eexists. split; vm_compute; reflexivity. Qed.

(** ** C17: storage *)
Theorem C17_storage {A} (zero : A) strict c name r : sensibly_reachable zero strict c -> c_init c = true -> get_field c name = Ok r ->
  let f := rf_field r in
  0 < l_nsub (f_lay f) /\ 0 < l_nbc (f_lay f) /\ 0 <= f_pad f /\ 0 <= c_nbuf c /\
  len (f_vals f) = l_nsub (f_lay f) * c_nbuf c * l_nbc (f_lay f) + f_pad f /\
  f_ptr f = Some (f_gen f) /\ sees c f /\ eigen_vec_size f = if nb_entries f =? unknown then Err FieldError else Ok (l_nsub (f_lay f) * c_npix c * l_nbc (f_lay f)).
Proof.
  intros R Ini G. apply sensibly_sinv in R. destruct R as ((_ & I) & T & B & H). unfold get_field in G. destruct (lookup name (c_fields c)) as [r0|] eqn:L; [|discriminate].
  injection G as ->. cbn zeta. destruct (I _ _ L) as [S Ns]. destruct (H _ _ L) as [(A1 & A2 & A3 & _) St]. destruct (St Ini) as (N & P & Ln & _).
  assert (S' := S). destruct S' as (_ & _ & _ & S4 & S5 & _ & S7). rewrite S5 in Ln. split; [exact N|]. split; [rewrite A2; now apply zprod_pos|].
  split; [exact A1|]. split; [auto|]. split; [exact Ln|]. split; [exact P|]. split; [exact S|].
  unfold eigen_vec_size. rewrite S7, Ini. cbn [negb]. unfold nb_entries, has_nsub. destruct (Z.eqb_spec (l_nsub (f_lay (rf_field r))) unknown); [unfold unknown in *; lia|].
  cbn [negb]. rewrite S4. reflexivity.
Qed.
Print Assumptions C17_storage.

(** Every field of an initialised collection with sound pixels satisfies the
    hypotheses of the theorems about fields. *)
Theorem C17_ready {A} (zero : A) c name r : sensibly_reachable zero true c -> c_init c = true -> good_pixels c ->
  get_field c name = Ok r -> ready (rf_field r).
Proof. apply sensibly_ready. Qed.
Print Assumptions C17_ready.

(** Initialisation yields sound pixels: local collections always, global ones
    initialised with a storage order for grids of positive extents. *)
Theorem C17_sound_pixels_local {A} (zero : A) c : c_glob c = false -> c_order c = ColMajor \/ c_order c = RowMajor -> reachable zero c ->
  snd (step zero c OInitLocal) = Ok tt -> let c' := fst (step zero c OInitLocal) in
  c_init c' = true /\ good_pixels c' /\ c_index c' = c_index c /\ c_npix c' = Z.of_nat (length (c_index c)) /\ c_nbuf c' = c_npix c' /\ c_pix c' = [c_npix c'].
Proof. intros G O R. apply init_local_good; auto. now apply (reachable_inv zero). Qed.
Print Assumptions C17_sound_pixels_local.

Theorem C17_sound_pixels_global {A} (zero : A) c nd nsd loc o : c_glob c = true -> c_order c = ColMajor \/ c_order c = RowMajor -> reachable zero c ->
  let n := if (length nsd =? 0)%nat then nd else nsd in Forall (fun x => 0 < x) n ->
  snd (step zero c (OInitGlobalOrder nd nsd loc o)) = Ok tt ->
  let c' := fst (step zero c (OInitGlobalOrder nd nsd loc o)) in
  c_init c' = true /\ good_pixels c' /\ c_pix c' = n /\ c_npix c' = zprod n /\ c_nbuf c' = zprod n /\ c_index c' = zrange (Z.to_nat (zprod n)).
Proof. intros G O R n P H. apply init_global_order_good; auto. now apply (reachable_inv zero). Qed.
Print Assumptions C17_sound_pixels_global.

(** Registering before or after initialisation gives the same collection. *)
Theorem C17_order_of_registration {A} (zero : A) c name ty comp tag u allow a b p q idx : reachable zero c -> c_init c = false -> ~ In name (list_fields c) ->
  sub_pts_of c tag <> unknown -> 0 <= sub_pts_of c tag * b * comp_nb comp ->
  snd (finish_init zero (with_pixels c a b p q) idx) = Ok tt ->
  let c1 := fst (register_field zero c name ty comp tag u allow) in
  let x := finish_init zero (with_pixels c1 a b p q) idx in
  let y := register_field zero (fst (finish_init zero (with_pixels c a b p q) idx)) name ty comp tag u allow in
  snd x = Ok tt /\ snd y = Ok tt /\ (forall k, get_field (fst x) k = get_field (fst y) k) /\
  same_pixels (fst x) (fst y) /\ c_tags (fst x) = c_tags (fst y).
Proof.
  intros R Ini N. apply register_then_finish; [now apply (reachable_inv zero)|exact Ini|].
  unfold list_fields in N. destruct (lookup name (c_fields c)) eqn:E; [|reflexivity]. exfalso. apply N. apply lookup_keys. congruence.
Qed.
Print Assumptions C17_order_of_registration.

(** An uninitialised collection exposes no storage. *)
Theorem C17_uninitialised_hidden {A} (zero : A) c name r : reachable zero c -> c_init c = false -> get_field c name = Ok r ->
  eigen_vec_size (rf_field r) = Err FieldError /\
  (forall u rows m, new_map (rf_field r) u rows = Ok m -> m_init m = false /\ m_ptr m = None).
Proof.
  intros R Ini G. apply reachable_inv in R. unfold get_field in G. destruct (lookup name (c_fields c)) as [r0|] eqn:L; [|discriminate].
  injection G as ->. destruct R as [_ R]. destruct (R _ _ L) as [(_ & _ & _ & _ & _ & _ & S7) _]. rewrite Ini in S7. split.
  - unfold eigen_vec_size. rewrite S7. cbn [negb]. destruct (_ =? _); reflexivity.
  - intros u rows m. unfold new_map. destruct (map_rows _ _ _) as [[[st ro] co]| |]; cbn [bind]; try discriminate.
    rewrite S7. destruct (negb _); [discriminate|].
    destruct rows; [destruct (negb _); [discriminate|]|]; intros H; injection H as <-; cbn; auto.
Qed.
Print Assumptions C17_uninitialised_hidden.

Example C17_case :
  let c := run 0 fresh_global [reg "a" "quad" 3; OInitGlobalOrder [2; 2] [] [] ColMajor; reg "b" "quad" 3; OSetPad "b" 5] in
  (exists r, get_field c "a" = Ok r /\ len (f_vals (rf_field r)) = 24) /\ (exists r, get_field c "b" = Ok r /\ len (f_vals (rf_field r)) = 29).
Proof. split; eexists; (split; [vm_compute; reflexivity|vm_compute; reflexivity]). Qed.

(** ** C18: initialisation happens once *)
Theorem C18_second_rejected {A} (zero : A) c o : c_init c = true -> initialises o ->
  fst (step zero c o) = c /\ is_ok (snd (step zero c o)) = false.
Proof. apply double_init. Qed.
Print Assumptions C18_second_rejected.

(** From then on no history changes the pixels. *)
Theorem C18_pixels_fixed {A} (zero : A) c h : c_init c = true -> same_pixels c (run zero c h).
Proof. apply init_forever. Qed.
Print Assumptions C18_pixels_fixed.

(** A rejected initialisation never makes the collection initialised and
    keeps tags, pixel list and names; without fields it changes nothing. *)
Theorem C18_rejected {A} (zero : A) c o : initialises o -> is_ok (snd (step zero c o)) = false ->
  c_init (fst (step zero c o)) = c_init c /\ c_tags (fst (step zero c o)) = c_tags c /\ c_index (fst (step zero c o)) = c_index c /\
  list_fields (fst (step zero c o)) = list_fields c /\ (c_fields c = [] -> fst (step zero c o) = c).
Proof. apply failed_init. Qed.
Print Assumptions C18_rejected.

(** A local collection is initialised exactly when every field knows its
    sub-points and is either empty or completely filled. *)
Theorem C18_local_accepted_iff {A} (zero : A) strict c : sensibly_reachable zero strict c -> c_glob c = false -> c_init c = false ->
  snd (step zero c OInitLocal) = Ok tt <->
  forall name r, get_field c name = Ok r -> l_nsub (f_lay (rf_field r)) <> unknown /\
    (f_cur (rf_field r) = 0 \/ f_cur (rf_field r) = l_nsub (f_lay (rf_field r)) * Z.of_nat (length (c_index c))).
Proof.
  intros R G Ini. apply sensibly_sinv in R. destruct R as (I & T & B & H). cbn [step]. rewrite G. unfold init_local. rewrite Ini.
  set (n := Z.of_nat (length (c_index c))). rewrite finish_iff by now apply inv_with_pixels.
  assert (LP : forall k, lookup k (c_fields (with_pixels c n n [n] [1])) = option_map (fun r => set_field r (attach (with_pixels c n n [n] [1]) (rf_field r))) (lookup k (c_fields c)))
    by (intros k; unfold with_pixels; rewrite sync_fields; reflexivity).
  split.
  - intros Al k r Gk. unfold get_field in Gk. destruct (lookup k (c_fields c)) as [r0|] eqn:L; [|discriminate]. injection Gk as ->.
    specialize (Al k). rewrite LP, L in Al. specialize (Al _ eq_refl). destruct Al as (A1 & A2 & _). cbn in A1, A2. auto.
  - intros X k r. rewrite LP. destruct (lookup k (c_fields c)) as [r0|] eqn:L; [|discriminate]. intros E. injection E as <-.
    destruct (X k r0) as [X1 X2]; [unfold get_field; now rewrite L|]. unfold allocatable; cbn. split; [exact X1|]. split; [exact X2|]. right.
    destruct (H _ _ L) as [(A1 & A2 & A3 & _) _]. destruct (proj2 I _ _ L) as [_ Ns]. rewrite A2. pose proof (zprod_pos _ A3).
    assert (0 < l_nsub (f_lay (rf_field r0))) by (rewrite Ns in *; now apply sub_pts_pos).
    apply Z.add_nonneg_nonneg; [|exact A1]. apply Z.mul_nonneg_nonneg; [|lia]. apply Z.mul_nonneg_nonneg; unfold n; lia.
Qed.
Print Assumptions C18_local_accepted_iff.

Example C18_case : let c := run 0 fresh_global [reg "a" "quad" 1] in
  outcomes c [OInitGlobalOrder [2; 0] [] [] ColMajor; OInitGlobalOrder [2; 3] [] [] ColMajor; OInitGlobalOrder [4; 4] [] [] ColMajor] =
    [Err FieldCollectionError; Ok tt; Err FieldCollectionError] /\
  c_pix (run 0 c [OInitGlobalOrder [2; 3] [] [] ColMajor; OInitGlobalOrder [4; 4] [] [] ColMajor]) = [2; 3].
Proof. vm_compute. auto. Qed.

(** ** C56: a rejected initialisation has no effect (refuted) *)
Theorem C56_rejected_initialisation_has_no_effect_refuted :
  exists (c : coll Z) h,
    reachable 0 c /\ snd (step 0 c OInitLocal) = Err FieldError /\
    c_npix (fst (step 0 c OInitLocal)) <> c_npix c /\
    (exists r, get_field (fst (step 0 c OInitLocal)) "a" = Ok r /\ f_vals (rf_field r) <> [] /\
     exists r0, get_field c "a" = Ok r0 /\ f_vals (rf_field r0) = []) /\
    (* completing the collection now fails, although it would have succeeded *)
    snd (step 0 (run 0 c h) OInitLocal) = Ok tt /\
    snd (step 0 (run 0 (fst (step 0 c OInitLocal)) h) OInitLocal) = Err FieldCollectionError.
Proof.
  exists (run 0 fresh_local [reg "a" "quad" 1; reg "b" "nodes" 1; OAddPixel 7]), [OAddPixel 8; OSetSubPts "nodes" 3].
  split; [apply fresh_local_reachable|].
  split; [vm_compute; reflexivity|]. split; [vm_compute; discriminate|]. split.
  - eexists. split; [vm_compute; reflexivity|]. split; [vm_compute; discriminate|]. eexists. split; vm_compute; reflexivity.
  - split; vm_compute; reflexivity.
Qed.
Print Assumptions C56_rejected_initialisation_has_no_effect_refuted.

(** ** C57: a pad size can be set at any time (refuted) *)
Theorem C57_pad_before_initialisation_refuted :
  exists c : coll Z, reachable 0 c /\ outcomes c [OSetPad "a" 4; OInitGlobalOrder [2; 2] [] [] ColMajor] = [Ok tt; Err FieldCollectionError] /\
    outcomes c [OInitGlobalOrder [2; 2] [] [] ColMajor; OSetPad "a" 4] = [Ok tt; Ok tt] /\
    (* and no grid is accepted any more *)
    forall nd nsd loc s, Forall (fun x => 0 <= x) (if (length nsd =? 0)%nat then nd else nsd) ->
      is_ok (snd (step 0 (run 0 c [OSetPad "a" 4]) (OInitGlobal nd nsd loc s))) = false.
Proof.
  exists (run 0 fresh_global [reg "a" "quad" 1]).
  assert (R : reachable 0 (run 0 fresh_global [reg "a" "quad" 1])) by apply fresh_global_reachable.
  split; [exact R|].
  split; [vm_compute; reflexivity|]. split; [vm_compute; reflexivity|]. intros nd nsd loc s P. apply reachable_inv in R.
  pose proof (run_inv 0 [OSetPad "a" 4] _ R) as I. set (c := run 0 _ [OSetPad "a" 4]) in *.
  assert (L : exists r, lookup "a" (c_fields c) = Some r /\ f_cur (rf_field r) = -2 /\ l_nsub (f_lay (rf_field r)) = 2) by (eexists; split; [vm_compute; reflexivity|split; vm_compute; reflexivity]).
  assert (Gl : c_glob c = true) by (vm_compute; reflexivity). clearbody c. cbn [step]. rewrite Gl. unfold init_global.
  set (n := if (length nsd =? 0)%nat then nd else nsd) in *.
  destruct (_ <=? 0); [reflexivity|]. destruct (_ <? 0); [reflexivity|]. destruct (c_init c); [reflexivity|].
  destruct (pixels_strided _ _ _); [|reflexivity|]; destruct (get_buffer_size _ _) as [nb| |]; try reflexivity.
  destruct (snd (finish_init 0 (with_pixels c (get_size n) nb n s) (zrange (Z.to_nat (get_size n))))) as [[]| |] eqn:E; [exfalso|reflexivity|reflexivity].
  pose proof (proj1 (finish_iff 0 _ _ (inv_with_pixels c (get_size n) nb n s I)) E) as E'. clear E; rename E' into E. destruct L as (r & L & Cu & Ns). specialize (E "a"%string).
  unfold with_pixels in E. rewrite sync_fields in E. cbn [c_fields] in E. rewrite L in E. cbn [option_map] in E. specialize (E _ eq_refl).
  destruct E as (_ & E & _). cbn in E. rewrite Cu, Ns in E. assert (0 <= get_size n) by (rewrite LayoutProofs2.get_size_zprod; now apply zprod_nonneg). lia.
Qed.
Print Assumptions C57_pad_before_initialisation_refuted.

(** Once the collection is initialised, any non-negative pad is accepted and
    keeps the values. *)
Theorem C57_pad_after_initialisation_partial {A} (zero : A) c name r p : sensibly_reachable zero true c -> c_init c = true -> good_pixels c ->
  get_field c name = Ok r -> 0 <= p ->
  exists f', set_pad_size zero (rf_field r) p = (f', Ok tt) /\ ready f' /\ f_lay f' = f_lay (rf_field r) /\ f_pad f' = p /\
    (forall x, logical (rf_field r) x -> value f' x = value (rf_field r) x).
Proof. intros R I G E Hp. apply FieldProofs.set_pad_ready; [|exact Hp]. eapply sensibly_ready; eassumption. Qed.
Print Assumptions C57_pad_after_initialisation_partial.

(** ** C19: generated names *)
Theorem C19_fresh_name {A} (c : coll A) counter fuel : (length (list_fields c) < fuel)%nat ->
  exists name next, unique_name_loop fuel (fun s => existsb (String.eqb s) (list_fields c)) counter = Some (name, next) /\
    ~ In name (list_fields c) /\ (counter < next)%N.
Proof.
  intros L. destruct (unique_name_aux (fun s => existsb (String.eqb s) (list_fields c)) fuel (list_fields c) counter L) as (name & next & E1 & E2 & E3 & _).
  - intros n _ H. apply existsb_exists in H. destruct H as (x & Hx & E). apply String.eqb_eq in E. now subst.
  - exists name, next. split; [exact E1|]. split; [|exact E3]. intros I. assert (X : existsb (String.eqb name) (list_fields c) = true)
      by (apply existsb_exists; exists name; split; [exact I|apply String.eqb_refl]). cbn in E2. congruence.
Qed.
Print Assumptions C19_fresh_name.

(** Names of successive calls differ, whatever happened in between. *)
Theorem C19_names_never_repeat fuel1 fuel2 e1 e2 k n1 k1 n2 k2 k' : unique_name_loop fuel1 e1 k = Some (n1, k1) -> (k1 <= k')%N ->
  unique_name_loop fuel2 e2 k' = Some (n2, k2) -> n1 <> n2.
Proof.
  assert (G : forall fuel e k n next, unique_name_loop fuel e k = Some (n, next) -> exists m, n = generated_name m /\ next = N.succ m /\ (k <= m)%N).
  { induction fuel as [|fuel IH]; intros e k0 n next H; cbn [unique_name_loop] in H; [discriminate|]. destruct (e (generated_name k0)).
    - apply IH in H. destruct H as (m & H1 & H2 & H3). exists m. split; [exact H1|]. split; [exact H2|lia].
    - injection H as <- <-. exists k0. split; [reflexivity|]. split; [reflexivity|lia]. }
  intros H1 Hk H2 E. apply G in H1, H2. destruct H1 as (m1 & -> & -> & _). destruct H2 as (m2 & -> & _ & Hm). apply generated_name_inj in E. lia.
Qed.
Print Assumptions C19_names_never_repeat.

Example C19_case : unique_name_loop 3 (fun s => existsb (String.eqb s) ["generated_unique_name_9"%string; "generated_unique_name_10"%string]) 9 =
  Some ("generated_unique_name_11"%string, 12%N).
Proof. vm_compute. reflexivity. Qed.

(** ** C20: local collections, whole collection *)

(** A field registered in a fresh local collection and filled while pixels are
    added (in any interleaving, with any activity on other fields): if the
    collection accepts the initialisation, its pixels are the added ones in
    order, the field was either not pushed to at all or once per pixel, and
    the i-th pushed value belongs to every sub-point of the i-th pixel. *)
Theorem C20_collection_fill {A} (zero : A) c name ty comp tag u allow h nsub :
  reachable zero c -> c_glob c = false -> c_init c = false -> c_order c = ColMajor -> c_index c = [] -> ~ In name (list_fields c) ->
  tag_number c tag = Some nsub -> 0 < nsub -> Forall (fun x => 0 < x) comp -> zprod comp < 2 ^ 31 ->
  Forall (filling name (zprod comp)) h ->
  let c1 := run zero c (ORegister name ty (inr comp) tag u allow :: h) in
  let c2 := fst (step zero c1 OInitLocal) in
  snd (step zero c1 OInitLocal) = Ok tt ->
  c_index c2 = added h /\
  (length (pushed name h) = 0%nat \/ length (pushed name h) = length (added h)) /\
  exists r, get_field c2 name = Ok r /\
    (length (pushed name h) = length (added h) -> ready (rf_field r) /\ forall x q i, in_shape comp x -> 0 <= q < nsub -> (i < length (pushed name h))%nat ->
      value (rf_field r) (x ++ [q] ++ [Z.of_nat i]) = rd (nth i (pushed name h) []) (off (running 1 comp) x)).
Proof.
  intros R G I O Ix N. apply local_fill; auto; [now apply (reachable_inv zero)|].
  unfold get_field. unfold list_fields in N. destruct (lookup name (c_fields c)) eqn:E; [|reflexivity]. exfalso. apply N. apply lookup_keys. congruence.
Qed.
Print Assumptions C20_collection_fill.

Example C20_case :
  let h := [ORegister "f" Real (inr [1]) "quad" no_unit false; OAddPixel 7; OPush "f" [10]; reg "g" "pixel" 1; OAddPixel 3; OPush "g" [5]; OPush "f" [11]; OPush "g" [6]; OInitLocal] in
  outcomes fresh_local h = repeat (Ok tt) 9 /\ c_index (run 0 fresh_local h) = [7; 3] /\
  exists r, get_field (run 0 fresh_local h) "f" = Ok r /\ value (rf_field r) [0; 1; 1] = Ok 11 /\ f_vals (rf_field r) = [10; 10; 11; 11].
Proof. split; [vm_compute; reflexivity|]. split; [vm_compute; reflexivity|]. eexists. split; [vm_compute; reflexivity|]. split; vm_compute; reflexivity. Qed.

(** ** C59: pushing to a field of an initialised collection is refused (refuted) *)
Theorem C59_push_after_initialisation_refuted : exists (c : coll Z) r, reachable 0 c /\ c_init c = true /\
  snd (step 0 c (OPush "f" [9])) = Ok tt /\ get_field (fst (step 0 c (OPush "f" [9]))) "f" = Ok r /\
  len (f_vals (rf_field r)) <> l_nsub (f_lay (rf_field r)) * c_nbuf c * l_nbc (f_lay (rf_field r)) + f_pad (rf_field r) /\
  (* the data pointer is left dangling by the reallocation *)
  f_ptr (rf_field r) <> Some (f_gen (rf_field r)).
Proof.
  exists (run 0 fresh_local [reg "f" "quad" 1; OAddPixel 1; OInitLocal]). eexists.
  split; [apply fresh_local_reachable|].
  split; [vm_compute; reflexivity|]. split; [vm_compute; reflexivity|]. split; [vm_compute; reflexivity|]. split; vm_compute; discriminate.
Qed.
Print Assumptions C59_push_after_initialisation_refuted.

(** ** C21: sub-point indices *)
Theorem C21_indices {A} (c : coll A) tag s fuel : tag_number c tag = Some (Z.of_nat s) -> (0 < s)%nat -> (length (c_index c) * s <= fuel)%nat ->
  index_iterate c tag fuel = Ok (flat_map (fun p => map (fun q => p * Z.of_nat s + q) (zrange s)) (c_index c)).
Proof.
  intros T Hs Hf. unfold index_iterate, index_stride. rewrite T. cbn [bind]. change 0 with (Z.of_nat 0) at 1.
  rewrite index_loop_ok; [|exact Hs|destruct (c_index c); [right; auto|left; cbn; lia]|lia].
  cbn [Nat.mul Nat.add skipn]. unfold sub_pt_list. rewrite <- flat_map_concat_map. reflexivity.
Qed.
Print Assumptions C21_indices.

Theorem C21_each_once {A} (c : coll A) s : NoDup (c_index c) ->
  NoDup (flat_map (fun p => map (fun q => p * Z.of_nat s + q) (zrange s)) (c_index c)).
Proof. intros D. rewrite flat_map_concat_map. now apply sub_pt_NoDup. Qed.
Print Assumptions C21_each_once.

(** In an initialised collection the reported size is the number of indices;
    the condition of having one index per pixel is kept by every operation. *)
Theorem C21_size {A} (c : coll A) tag s : counted c -> c_init c = true -> tag_number c tag = Some (Z.of_nat s) ->
  index_size c tag = Ok (Z.of_nat (length (flat_map (fun p => map (fun q => p * Z.of_nat s + q) (zrange s)) (c_index c)))).
Proof.
  intros C I T. unfold index_size, index_stride. rewrite T. cbn [bind]. rewrite (C I), flat_map_concat_map. f_equal.
  pose proof (sub_pt_length (c_index c) s) as L. unfold sub_pt_list in L. rewrite L. lia.
Qed.
Print Assumptions C21_size.

Theorem C21_one_index_per_pixel {A} (zero : A) c h : reachable zero c -> counted c ->
  Forall (fun o => match o with OInitGlobal nd nsd _ _ | OInitGlobalOrder nd nsd _ _ => Forall (fun x => 0 <= x) (if (length nsd =? 0)%nat then nd else nsd) | _ => True end) h ->
  counted (run zero c h).
Proof.
  intros R. apply reachable_inv in R. revert c R. unfold run. induction h as [|o h IH]; intros c I C F; cbn [fold_left]; [exact C|].
  apply Forall_cons_iff in F. destruct F as [F1 F2]. apply IH; [now apply step_inv|now apply step_counted|exact F2].
Qed.
Print Assumptions C21_one_index_per_pixel.

(** In a global collection the indices are 0, 1, 2, ... in order. *)
Theorem C21_global_consecutive n s : flat_map (fun p => map (fun q => p * Z.of_nat s + q) (zrange s)) (zrange n) = zrange (n * s).
Proof.
  induction n as [|n IH]; [reflexivity|]. unfold zrange in *. rewrite seq_S, map_app, flat_map_app, IH. cbn [map flat_map Nat.add]. rewrite app_nil_r.
  replace (S n * s)%nat with (n * s + s)%nat by lia. rewrite seq_app, map_app. f_equal. rewrite map_map, Nat.add_0_l.
  assert (X : forall m k, map (fun x => Z.of_nat n * Z.of_nat s + Z.of_nat x) (seq k m) = map Z.of_nat (seq (n * s + k) m)).
  { induction m as [|m IHm]; intros k; [reflexivity|]. cbn [seq map]. rewrite IHm. f_equal; [lia|]. f_equal. f_equal. lia. }
  rewrite X, Nat.add_0_r. reflexivity.
Qed.
Print Assumptions C21_global_consecutive.

Example C21_case : let c := run 0 fresh_local [OAddPixel 7; OAddPixel 3; OInitLocal] in
  index_iterate c "quad" 4 = Ok [14; 15; 6; 7] /\ index_size c "quad" = Ok 4 /\ index_iterate c "nodes" 4 = Err FieldCollectionError.
Proof. vm_compute. auto. Qed.

(** ** C58: sub-point counts and iteration outside initialised collections (refuted) *)

(** Before initialisation the reported size is not the number of indices. *)
Theorem C58_size_before_initialisation_refuted : exists c : coll Z, reachable 0 c /\ index_iterate c "quad" 10 = Ok [14; 15] /\ index_size c "quad" = Ok (-2).
Proof.
  exists (run 0 fresh_local [OAddPixel 7]).
  split; [apply fresh_local_reachable|]. split; vm_compute; reflexivity.
Qed.
Print Assumptions C58_size_before_initialisation_refuted.

(** Numbers given to the constructor are not checked: zero sub-points are
    accepted and iteration divides by zero. *)
Theorem C58_zero_sub_points_refuted : exists c : coll Z, new_coll false ColMajor [("quad"%string, 0)] = Ok c /\ tag_number c "quad" = Some 0 /\
  snd (step 0 c (OSetSubPts "quad" 0)) = Err FieldCollectionError /\
  index_iterate (run 0 c [OAddPixel 1; OInitLocal]) "quad" 10 = UB.
Proof. eexists. split; [vm_compute; reflexivity|]. split; [vm_compute; reflexivity|]. split; vm_compute; reflexivity. Qed.
Print Assumptions C58_zero_sub_points_refuted.

(** With positive numbers at construction, every known number stays positive. *)
Theorem C58_numbers_positive_partial {A} (zero : A) strict c tag n : sensibly_reachable zero strict c -> tag_number c tag = Some n -> 0 < n.
Proof. intros R. apply sensibly_sinv in R. destruct R as (_ & T & _). apply T. Qed.
Print Assumptions C58_numbers_positive_partial.
