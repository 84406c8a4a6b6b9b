(** Lemmas on copies, mapped and detached fields. *)
From Coq Require Import String.
From Verif Require Import Base GridModel GridSpec StridedModel LayoutModel LayoutSpec LayoutProofs FieldModel FieldSpec FieldProps
  RegistryModel RegistrySpec RegistryProofs RegistryProofs2 RegistryProofs3 RegistryProps UnitsModel MapModel MapProofs StateModel CloneModel CloneSpec.
Local Open Scope Z_scope.
Local Open Scope list_scope.

Section Clone.
Context {A : Type} (zero : A).
Implicit Types c : coll A.
Implicit Types r : rfield A.

Lemma lookup_of_get c k r : get_field c k = Ok r -> lookup k (c_fields c) = Some r.
Proof. unfold get_field. destruct (lookup k (c_fields c)); [|discriminate]. intros H. apply Ok_inj in H. congruence. Qed.
Lemma get_of_lookup c k r : lookup k (c_fields c) = Some r -> get_field c k = Ok r.
Proof. unfold get_field. now intros ->. Qed.
Lemma fresh_lookup c k : ~ In k (list_fields c) -> lookup k (c_fields c) = None.
Proof. intros N. destruct (lookup k (c_fields c)) eqn:E; [|reflexivity]. exfalso. apply N. apply lookup_keys. congruence. Qed.

Lemma history_snoc h : forall c o strict, sensible_history zero strict c h -> sensible strict (run zero c h) o -> sensible_history zero strict c (h ++ [o]).
Proof.
  induction h as [|a h IH]; intros c o strict H S; cbn [app sensible_history] in *; [split; [exact S|exact I]|].
  destruct H as [H1 H2]. split; [exact H1|]. apply IH; [exact H2|exact S].
Qed.
Lemma sensibly_step c o strict : sensibly_reachable zero strict c -> sensible strict c o -> sensibly_reachable zero strict (fst (step zero c o)).
Proof.
  intros (g & od & t & c0 & h & N & P & H & E) S. exists g, od, t, c0, (h ++ [o]). split; [exact N|]. split; [exact P|]. split.
  - apply history_snoc; [exact H|now rewrite <- E].
  - unfold run. rewrite fold_left_app. cbn [fold_left]. fold (run zero c0 h). now rewrite <- E.
Qed.

Lemma sensibly_reach c strict : sensibly_reachable zero strict c -> reachable zero c.
Proof. intros (g & o & t & c0 & h & N & _ & _ & E). now exists g, o, t, c0, h. Qed.

(** Registration keeps the pixels. *)
Lemma register_coll c name ty comp tag u allow : same_coll c (fst (register_field zero c name ty comp tag u allow)).
Proof. apply (step_quiet zero c (ORegister name ty comp tag u allow)); [cbn; auto|discriminate]. Qed.

Lemma same_coll_good c c' : same_coll c c' -> good_pixels c -> good_pixels c'.
Proof. unfold same_coll, good_pixels. intros (E1 & E2 & E3 & E4 & E5 & E6 & E7 & _). rewrite ?E1, ?E2, ?E3, ?E4, ?E5, ?E6, ?E7. auto. Qed.

(** A registration under a fresh name in a usable collection. *)
Lemma registered c name ty comp tag u : usable zero c -> positive comp -> ~ In name (list_fields c) -> sub_pts_of c tag <> unknown ->
  exists c1 r, register_field zero c name ty comp tag u false = (c1, Ok tt) /\ usable zero c1 /\ same_coll c c1 /\ get_field c1 name = Ok r /\
    rf_tag r = tag /\ rf_unit r = u /\ rf_type r = ty /\ ready (rf_field r) /\ sees c (rf_field r) /\
    l_comp (f_lay (rf_field r)) = comp_shape comp /\ l_nbc (f_lay (rf_field r)) = comp_nb comp /\ l_nsub (f_lay (rf_field r)) = sub_pts_of c tag /\
    f_pad (rf_field r) = 0 /\ (forall k, k <> name -> get_field c1 k = get_field c k).
Proof.
  intros (R & I & G) P N T. pose proof (C15_fresh_registration_outcome zero true c name ty comp tag u false R P N) as O.
  pose proof (sensibly_step c (ORegister name ty comp tag u false) true R P) as R1. cbn [step] in R1.
  pose proof (register_coll c name ty comp tag u false) as S.
  pose proof (register_fresh zero c name ty comp tag u false (fresh_lookup c name N)) as F.
  destruct (register_field zero c name ty comp tag u false) as [c1 o]. cbn [fst snd] in *. rewrite I in O. cbn [andb] in O.
  destruct (Z.eqb_spec (sub_pts_of c tag) unknown); [congruence|]. subst o. destruct F as [_ F]. destruct (F eq_refl) as ((r & F1 & F2 & F3 & F4 & F5 & F6 & F7 & F8) & F9 & _).
  assert (U1 : usable zero c1). { split; [exact R1|]. split; [|now apply (same_coll_good c)]. destruct S as (_ & _ & E & _). congruence. }
  exists c1, r. split; [reflexivity|]. split; [exact U1|]. split; [exact S|]. split; [exact F1|]. split; [exact F2|]. split; [exact F3|]. split; [exact F4|].
  destruct U1 as (_ & I1 & G1). split; [exact (C17_ready zero c1 name r R1 I1 G1 F1)|]. split.
  - pose proof (reachable_inv zero c1 (sensibly_reach _ _ R1)) as [_ V]. destruct (V _ _ (lookup_of_get _ _ _ F1)) as [Se _].
    unfold same_coll in S. unfold sees in *. destruct S as (E1 & E2 & E3 & E4 & E5 & E6 & E7 & E8). rewrite <- ?E1, <- ?E2, <- ?E3, <- ?E4, <- ?E5, <- ?E6, <- ?E7. tauto.
  - auto 10.
Qed.

(** ** Detached fields *)
Lemma erase_insert {V} k (v : V) m : lookup k m = None -> erase k (insert k v m) = m.
Proof.
  assert (E : forall m : list (string * V), lookup k m = None -> erase k m = m).
  { unfold erase. induction m0 as [|[x w] m0 IH]; cbn; [reflexivity|]. destruct (String.eqb k x) eqn:B; [discriminate|]. cbn. intros H. now rewrite IH. }
  induction m as [|[x w] m IH]; cbn; intros H.
  - unfold erase. cbn. now rewrite String.eqb_refl.
  - destruct (String.eqb k x) eqn:B; [discriminate|]. destruct (String.compare k x) eqn:C.
    + rewrite eqb_compare, C in B. discriminate.
    + unfold erase. cbn. rewrite String.eqb_refl, B. cbn. f_equal. now apply E.
    + unfold erase in *. cbn. rewrite B. cbn. f_equal. now apply IH.
Qed.

Lemma detached c name ty shape tag u : usable zero c -> positive (inr shape) -> ~ In name (list_fields c) -> sub_pts_of c tag <> unknown ->
  exists r, detached_field zero c name ty shape tag u = (c, Ok r) /\
    rf_tag r = tag /\ rf_unit r = u /\ rf_type r = ty /\ l_comp (f_lay (rf_field r)) = shape /\ l_nsub (f_lay (rf_field r)) = sub_pts_of c tag /\
    ready (rf_field r) /\ sees c (rf_field r).
Proof.
  intros U P N T. destruct (registered c name ty (inr shape) tag u U P N T) as (c1 & r & E & _ & _ & G & H1 & H2 & H3 & H4 & H5 & H6 & H7 & H8 & H9 & _).
  exists r. split; [|auto 10]. unfold detached_field. rewrite E. unfold pop_field. rewrite (lookup_of_get _ _ _ G). f_equal.
  unfold register_field in E. rewrite (fresh_lookup c name N) in E.
  assert (Tc : touch_tag c tag = c). { unfold touch_tag, sub_pts_of in *. destruct (tag_number c tag); [reflexivity|congruence]. }
  rewrite Tc in E. destruct U as (_ & I & _). rewrite I in E. destruct (resize zero _) as [f' [[]|e|]]; try discriminate. injection E as <-.
  unfold with_fields. cbn [c_glob c_order c_tags c_init c_npix c_nbuf c_pix c_pstr c_index c_fields].
  rewrite erase_insert by now apply fresh_lookup. now destruct c.
Qed.

Lemma same_pixels_sees c c' f : same_pixels c c' -> c_order c' = c_order c -> c_glob c' = c_glob c -> sees c f -> attach c' f = f.
Proof.
  intros (E1 & E2 & E3 & E4 & E5 & _) E6 E7 S. apply attach_id. unfold sees in *. rewrite E1, E2, E3, E4, E5, E6, E7. exact S.
Qed.
Lemma step_kind o : forall c, c_order (fst (step zero c o)) = c_order c /\ c_glob (fst (step zero c o)) = c_glob c.
Proof.
  intros c. assert (Q : ~ initialises o -> (forall i, o <> OAddPixel i) -> c_order (fst (step zero c o)) = c_order c /\ c_glob (fst (step zero c o)) = c_glob c).
  { intros H1 H2. destruct (step_quiet zero c o H1 H2) as (E1 & E2 & _). auto. }
  assert (F : forall c i, c_order (fst (finish_init zero c i)) = c_order c /\ c_glob (fst (finish_init zero c i)) = c_glob c).
  { intros c' i. unfold finish_init. destruct (allocate_fields zero (c_fields c')) as [l [[]|e|]]; auto. }
  assert (W : forall a b p q i, c_order (fst (finish_init zero (with_pixels c a b p q) i)) = c_order c /\ c_glob (fst (finish_init zero (with_pixels c a b p q) i)) = c_glob c).
  { intros. destruct (F (with_pixels c a b p q) i) as [-> ->]. auto. }
  assert (G : forall nd nsd loc ps, c_order (fst (init_global zero c nd nsd loc ps)) = c_order c /\ c_glob (fst (init_global zero c nd nsd loc ps)) = c_glob c).
  { intros. unfold init_global. destruct (_ <=? 0); [auto|]. destruct (_ <? 0); [auto|]. destruct (c_init c); [auto|].
    destruct (pixels_strided (if (Datatypes.length nsd =? 0)%nat then nd else nsd) loc ps), (get_buffer_size (if (Datatypes.length nsd =? 0)%nat then nd else nsd) ps); cbn [fst]; auto. }
  destruct o; try (apply Q; [cbn; tauto|discriminate]); cbn [step].
  - destruct (c_glob c) eqn:Gl; cbn [fst]; [auto|]. unfold add_pixel. destruct (c_init c); cbn; auto.
  - destruct (c_glob c) eqn:Gl; cbn [fst]; [auto|]. unfold init_local. destruct (c_init c); cbn [fst]; [auto|]. apply W.
  - destruct (c_glob c) eqn:Gl; cbn [fst]; [|auto]. apply G.
  - destruct (c_glob c) eqn:Gl; cbn [fst]; [|auto]. unfold init_global_order. destruct (pixel_strides_for _ _); cbn [fst]; auto.
Qed.
Lemma run_kind h : forall c, c_order (run zero c h) = c_order c /\ c_glob (run zero c h) = c_glob c.
Proof.
  unfold run. induction h as [|o h IH]; intros c; cbn [fold_left]; [auto|]. destruct (IH (fst (step zero c o))) as [-> ->]. apply step_kind.
Qed.

Lemma detached_stays c h f : c_init c = true -> sees c f -> attach (run zero c h) f = f.
Proof. intros I S. destruct (run_kind h c) as [E1 E2]. now apply (same_pixels_sees c); [apply init_forever|..]. Qed.

(** ** Mapped fields *)
Lemma mapped_registered c name ty comp tag u make : usable zero c -> positive comp -> ~ In name (list_fields c) -> sub_pts_of c tag <> unknown ->
  exists c1 r, mapped zero c name ty comp tag u make = (c1, make (rf_field r)) /\ usable zero c1 /\ get_field c1 name = Ok r /\
    rf_tag r = tag /\ rf_unit r = u /\ rf_type r = ty /\ ready (rf_field r) /\ sees c (rf_field r) /\
    l_comp (f_lay (rf_field r)) = comp_shape comp /\ l_nbc (f_lay (rf_field r)) = comp_nb comp /\ l_nsub (f_lay (rf_field r)) = sub_pts_of c tag /\
    (forall k, k <> name -> get_field c1 k = get_field c k).
Proof.
  intros U P N T. destruct (registered c name ty comp tag u U P N T) as (c1 & r & E & U1 & _ & G & H1 & H2 & H3 & H4 & H5 & H6 & H7 & H8 & H9 & H10).
  exists c1, r. split; [|auto 15]. unfold mapped. rewrite E, (lookup_of_get _ _ _ G). reflexivity.
Qed.

(** Before the initialisation. *)
Lemma registered_early c name ty comp tag u : sensibly_reachable zero true c -> c_init c = false -> positive comp -> ~ In name (list_fields c) ->
  exists c1 r, register_field zero c name ty comp tag u false = (c1, Ok tt) /\ sensibly_reachable zero true c1 /\ c_init c1 = false /\ get_field c1 name = Ok r /\
    rf_tag r = tag /\ rf_unit r = u /\ rf_type r = ty /\ sees c (rf_field r) /\
    l_comp (f_lay (rf_field r)) = comp_shape comp /\ l_nbc (f_lay (rf_field r)) = comp_nb comp /\ l_nsub (f_lay (rf_field r)) = sub_pts_of c tag /\
    (forall k, k <> name -> get_field c1 k = get_field c k).
Proof.
  intros R I P N. pose proof (C15_fresh_registration_outcome zero true c name ty comp tag u false R P N) as O.
  pose proof (sensibly_step c (ORegister name ty comp tag u false) true R P) as R1. cbn [step] in R1.
  pose proof (register_coll c name ty comp tag u false) as S.
  pose proof (register_fresh zero c name ty comp tag u false (fresh_lookup c name N)) as F.
  destruct (register_field zero c name ty comp tag u false) as [c1 o]. cbn [fst snd] in *. rewrite I in O. cbn [andb] in O. subst o.
  destruct F as [_ F]. destruct (F eq_refl) as ((r & F1 & F2 & F3 & F4 & F5 & F6 & F7 & F8) & F9 & _).
  exists c1, r. split; [reflexivity|]. split; [exact R1|]. split; [destruct S as (_ & _ & E & _); congruence|]. split; [exact F1|]. split; [exact F2|]. split; [exact F3|]. split; [exact F4|].
  split; [|auto 10]. pose proof (reachable_inv zero c1 (sensibly_reach _ _ R1)) as [_ V]. destruct (V _ _ (lookup_of_get _ _ _ F1)) as [Se _].
  unfold same_coll in S. unfold sees in *. destruct S as (E1 & E2 & E3 & E4 & E5 & E6 & E7 & E8). rewrite <- ?E1, <- ?E2, <- ?E3, <- ?E4, <- ?E5, <- ?E6, <- ?E7. tauto.
Qed.

(** ** Copies *)
Lemma no_pixel_index (f : field A) x : l_npix (f_lay f) = zprod (l_pix (f_lay f)) -> l_npix (f_lay f) = 0 -> ~ logical f x.
Proof.
  intros Np Z [L H]. assert (F : Forall (fun n => 0 < n) (get_shape (f_lay f) SubPt)).
  { apply Forall_forall. intros n Hn. apply (In_nth _ _ 0) in Hn. destruct Hn as (i & Hi & En). specialize (H i Hi). unfold zn in H. rewrite En in H. lia. }
  unfold get_shape in F. apply Forall_app in F. pose proof (zprod_pos _ (proj2 F)). lia.
Qed.

(** The copy itself. *)
Definition copied (f f' g : field A) : Prop := ready f' /\ f_lay f' = f_lay f /\ f_glob f' = f_glob f /\ f_init f' = f_init f /\ same_values g f'.

Lemma assign_env sort (f g f' : field A) : assign_with sort f g = Ok f' -> f_lay f' = f_lay f /\ f_glob f' = f_glob f /\ f_init f' = f_init f /\
  f_cur f' = f_cur f /\ f_pad f' = f_pad f /\ f_gen f' = f_gen f /\ f_ptr f' = f_ptr f /\ exists v, f' = with_vals f v.
Proof.
  unfold assign_with, vec_update. destruct (f_glob f) eqn:G.
  - destruct (negb _); [discriminate|]. destruct (get_strides _ _ _) as [os| |]; cbn [bind]; try discriminate.
    destruct (get_strides _ _ _) as [is| |]; cbn [bind]; try discriminate. destruct (f_ptr f) as [p|] eqn:P; [|discriminate]. destruct (f_ptr g); [|discriminate].
    destruct (_ && _); [|discriminate]. destruct (strided_copy_with _ _ _ _ _ _) as [v| |]; cbn [bind]; try discriminate. intros H. apply Ok_inj in H. subst f'. repeat (split; [first [reflexivity | assumption | symmetry; assumption]|]). eexists; reflexivity.
  - destruct (eigen_vec_size f) as [n| |]; cbn [bind]; try discriminate. destruct (eigen_vec_size g) as [m| |]; cbn [bind]; try discriminate.
    destruct (negb _); [discriminate|]. destruct (span f _ _ _) as [a| |]; cbn [bind]; try discriminate. destruct (span g _ _ _) as [b| |]; cbn [bind]; try discriminate.
    intros H. apply Ok_inj in H. subst f'. repeat (split; [first [reflexivity | assumption | symmetry; assumption]|]). eexists; reflexivity.
Qed.

Lemma copy_same_layout sort (f g : field A) s : ready f -> ready g -> f_lay f = f_lay g -> (f_glob f = false -> unpadded f) ->
  get_strides (f_lay g) SubPt 1 = Ok s -> sort_outcome (get_shape (f_lay g) SubPt) s sort ->
  Forall (fun x => 0 < x) (l_pix (f_lay g)) \/ l_npix (f_lay g) = 0 -> zprod (get_shape (f_lay g) SubPt) < 2 ^ 31 ->
  exists f', assign_with sort f g = Ok f' /\ copied f f' g.
Proof.
  intros Rf Rg E U S So P B. unfold copied. destruct (f_glob f) eqn:G.
  - destruct P as [P|P].
    + destruct (C13_assign_copies_logical_values sort f g s Rf Rg G) as (f' & H1 & H2 & H3 & H4 & _); rewrite ?E; auto.
      destruct (assign_env _ _ _ _ H1) as (_ & E2 & E3 & _). exists f'. split; [exact H1|]. rewrite <- E, H3, E2, E3. repeat (split; [auto|]). intros x Hx. apply H4. unfold logical in *. now rewrite E.
    + destruct (C13_assign_empty_rank sort f g Rf Rg G) as (f' & H1 & H2 & H3); rewrite ?E; auto.
      destruct (assign_env _ _ _ _ H1) as (_ & E2 & E3 & E4 & E5 & E6 & E7 & v & ->). exists (with_vals f v). split; [exact H1|].
      split; [|]. { cbn in H3. subst v. destruct f. exact Rf. }
      split; [now rewrite H2|]. split; [now rewrite E2|]. split; [exact E3|]. intros x Hx. exfalso. revert Hx. apply no_pixel_index; [apply Rg|exact P].
  - destruct (C13_assign_local sort f g Rf Rg (U eq_refl) G) as (f' & H1 & H2 & H3 & H4 & _); rewrite ?E; auto.
    destruct (assign_env _ _ _ _ H1) as (_ & E2 & E3 & _). exists f'. split; [exact H1|]. rewrite <- E, H3, E2, E3. repeat (split; [auto|]). intros x Hx. apply H4. unfold logical in *. now rewrite E.
Qed.
End Clone.
