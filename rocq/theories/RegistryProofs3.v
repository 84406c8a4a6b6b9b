(** Registration, initialisation, filling and iteration of collections; names. *)
From Coq Require Import String Ascii.
From Verif Require Import Base CIntModel GridModel GridSpec StridedModel UnitsModel LayoutModel LayoutSpec LayoutProofs LayoutProofs2.
From Verif Require Import FieldModel FieldSpec FieldProofs FieldProofs3 RegistryModel RegistrySpec RegistryProofs RegistryProofs2.
Local Open Scope Z_scope.
Local Open Scope list_scope.

Section Reg.
Context {A : Type}.
Implicit Types (f : field A) (c : coll A) (r : rfield A).

(** ** Registration *)
Lemma register_fresh zero c name ty comp tag u allow : lookup name (c_fields c) = None ->
  let '(c', o) := register_field zero c name ty comp tag u allow in
  (o <> Ok tt -> c_fields c' = c_fields c) /\
  (o = Ok tt -> (exists r, get_field c' name = Ok r /\ rf_tag r = tag /\ rf_unit r = u /\ rf_type r = ty /\
      l_comp (f_lay (rf_field r)) = comp_shape comp /\ l_nbc (f_lay (rf_field r)) = comp_nb comp /\ f_pad (rf_field r) = 0 /\
      l_nsub (f_lay (rf_field r)) = sub_pts_of c tag) /\
    (forall k, k <> name -> get_field c' k = get_field c k) /\ Permutation (list_fields c') (name :: list_fields c)).
Proof.
  intros L. unfold register_field. rewrite L.
  destruct (touch_tag_same c tag) as (_ & _ & _ & _ & _ & _ & _ & _ & F).
  match goal with |- context [new_field ?l ?g ?i] => set (f := new_field l g i) end.
  assert (G : forall f', f_lay f' = f_lay f -> f_pad f' = 0 ->
    let c' := with_fields (touch_tag c tag) (insert name (mk_rfield tag u ty f') (c_fields (touch_tag c tag))) in
    (exists r, get_field c' name = Ok r /\ rf_tag r = tag /\ rf_unit r = u /\ rf_type r = ty /\
      l_comp (f_lay (rf_field r)) = comp_shape comp /\ l_nbc (f_lay (rf_field r)) = comp_nb comp /\ f_pad (rf_field r) = 0 /\
      l_nsub (f_lay (rf_field r)) = sub_pts_of c tag) /\
    (forall k, k <> name -> get_field c' k = get_field c k) /\ Permutation (list_fields c') (name :: list_fields c)).
  { intros f' E P. cbn zeta. rewrite F. split; [|split].
    - eexists. unfold get_field. cbn [with_fields c_fields]. rewrite lookup_insert_same. split; [reflexivity|]. cbn [rf_tag rf_unit rf_type rf_field]. rewrite E. unfold f; cbn.
      rewrite sub_pts_touch. auto 10.
    - intros k N. unfold get_field. cbn [with_fields c_fields]. now rewrite lookup_insert_other.
    - unfold list_fields. cbn [with_fields c_fields]. now apply insert_perm. }
  destruct (c_init c).
  - pose proof (resize_lay zero f) as (R1 & _ & _ & R4). destruct (resize zero f) as [f' [[]|e|]]; cbn [fst] in *.
    + split; [congruence|]. intros _. apply G; [exact R1|rewrite R4; reflexivity].
    + split; [intros _; exact F|discriminate].
    + split; [intros _; exact F|discriminate].
  - split; [congruence|]. intros _. apply G; reflexivity.
Qed.

(** When a fresh registration succeeds. *)
Lemma register_outcome zero c name ty comp tag u allow : lookup name (c_fields c) = None -> 0 <= comp_nb comp -> 0 <= c_nbuf c \/ c_init c = false ->
  (forall n, tag_number c tag = Some n -> 0 <= n) ->
  snd (register_field zero c name ty comp tag u allow) = if c_init c && (sub_pts_of c tag =? unknown) then Err FieldError else Ok tt.
Proof.
  intros L Hc Hb Ht. unfold register_field. rewrite L. destruct (c_init c) eqn:Ini; [|reflexivity].
  destruct Hb as [Hb|]; [|discriminate]. cbn [andb].
  match goal with |- context [new_field ?l ?g ?i] => set (f := new_field l g i : field A) end.
  assert (Nf : l_nsub (f_lay f) = sub_pts_of c tag) by (unfold f; cbn; apply sub_pts_touch).
  destruct (Z.eqb_spec (sub_pts_of c tag) unknown) as [Eu|Nu].
  - assert (R : resize zero f = (f, Err FieldError)) by (unfold resize, has_nsub; rewrite Nf, Eu, Z.eqb_refl; reflexivity). now rewrite R.
  - assert (R : snd (resize zero f) = Ok tt).
    { apply resize_succeeds; [congruence|]. rewrite Nf. unfold f; cbn [f_lay f_pad new_field l_nbuf l_nbc]. rewrite Z.add_0_r.
      apply Z.mul_nonneg_nonneg; [|exact Hc]. apply Z.mul_nonneg_nonneg; [|exact Hb]. unfold sub_pts_of in *. destruct (tag_number c tag) eqn:E; [eauto|congruence]. }
    destruct (resize zero f) as [f' o]. cbn [snd] in R. subst o. reflexivity.
Qed.

Lemma zlist_eqb_spec a : forall b, zlist_eqb a b = true <-> a = b.
Proof.
  induction a as [|x a IH]; intros [|y b]; cbn; try (split; congruence). rewrite andb_true_iff, IH, Z.eqb_eq. split; [intros [-> ->]; reflexivity|intros H; injection H; auto].
Qed.

Definition comp_match r (comp : Z + list Z) : Prop :=
  match comp with inl n => l_nbc (f_lay (rf_field r)) = n | inr s => l_comp (f_lay (rf_field r)) = s end.

Lemma comp_agrees_spec r comp : comp_agrees (rf_field r) comp = true <-> comp_match r comp.
Proof. destruct comp; cbn; [apply Z.eqb_eq|apply zlist_eqb_spec]. Qed.

Lemma ftype_eqb_spec a b : ftype_eqb a b = true <-> a = b.
Proof. destruct a, b; cbn; split; congruence. Qed.

Lemma register_existing zero c name ty comp tag u allow r : get_field c name = Ok r ->
  fst (register_field zero c name ty comp tag u allow) = c /\
  (snd (register_field zero c name ty comp tag u allow) = Ok tt <-> allow = true /\ rf_type r = ty /\ comp_match r comp /\ rf_tag r = tag /\ unit_eqb (rf_unit r) u = true).
Proof.
  unfold get_field. destruct (lookup name (c_fields c)) as [r0|] eqn:L; [|discriminate]. intros E; apply Ok_inj in E; subst r0.
  unfold register_field. rewrite L. rewrite <- comp_agrees_spec, <- ftype_eqb_spec, <- (String.eqb_eq (rf_tag r)).
  destruct allow; [|split; [reflexivity|split; [discriminate|intros [X _]; discriminate]]].
  destruct (ftype_eqb (rf_type r) ty); cbn [negb]; [|split; [reflexivity|split; [discriminate|intros (_ & X & _); discriminate]]].
  destruct (comp_agrees (rf_field r) comp); cbn [negb]; [|split; [reflexivity|split; [discriminate|intros (_ & _ & X & _); discriminate]]].
  destruct (String.eqb (rf_tag r) tag); cbn [negb]; [|split; [reflexivity|split; [discriminate|intros (_ & _ & _ & X & _); discriminate]]].
  destruct (unit_eqb (rf_unit r) u); cbn [negb]; [|split; [reflexivity|split; [discriminate|intros (_ & _ & _ & _ & X); discriminate]]].
  split; [reflexivity|]. split; auto 10.
Qed.

Lemma pop_spec c name : let '(c', o) := pop_field c name in
  o = get_field c name /\ (is_ok o = false -> c' = c) /\ (is_ok o = true -> get_field c' name = Err FieldCollectionError) /\
  (forall k, k <> name -> get_field c' k = get_field c k).
Proof.
  unfold pop_field, get_field. destruct (lookup name (c_fields c)) eqn:L.
  - split; [reflexivity|]. split; [discriminate|]. cbn [with_fields c_fields]. split; [intros _; now rewrite lookup_erase, String.eqb_refl|].
    intros k N. rewrite lookup_erase. apply String.eqb_neq in N. now rewrite N.
  - split; [reflexivity|]. split; [reflexivity|]. split; [discriminate|]. reflexivity.
Qed.

(** An entry survives every operation except its removal. *)
Definition keeps (name : string) (o : op A) (r r' : rfield A) : Prop :=
  rf_type r' = rf_type r /\ rf_unit r' = rf_unit r /\
  (rf_tag r' = rf_tag r \/ exists s t, o = OReshapeTag name s t /\ rf_tag r' = t) /\
  (l_comp (f_lay (rf_field r')) = l_comp (f_lay (rf_field r)) \/
   exists s, l_comp (f_lay (rf_field r')) = s /\ (o = OReshape name s \/ exists t, o = OReshapeTag name s t)).

Lemma keeps_field name o r f' : l_comp (f_lay f') = l_comp (f_lay (rf_field r)) -> keeps name o r (set_field r f').
Proof. unfold keeps; cbn; auto 10. Qed.

Lemma keeps_id name o r : keeps name o r r.
Proof. unfold keeps; auto 10. Qed.

Lemma on_field_lookup c name opf k : lookup k (c_fields (fst (on_field c name opf))) =
  if String.eqb k name then option_map (fun r => set_field r (fst (opf (rf_field r)))) (lookup name (c_fields c)) else lookup k (c_fields c).
Proof.
  unfold on_field. destruct (lookup name (c_fields c)) as [r|] eqn:L.
  - cbn [option_map]. destruct (opf (rf_field r)) as [f' o]; cbn [fst with_fields c_fields]. apply lookup_insert.
  - cbn. destruct (String.eqb_spec k name) as [->|]; auto.
Qed.

Lemma on_field_keeps c name opf k o r : lookup k (c_fields c) = Some r ->
  (forall f, l_comp (f_lay (fst (opf f))) = l_comp (f_lay f)) ->
  exists r', lookup k (c_fields (fst (on_field c name opf))) = Some r' /\ keeps k o r r'.
Proof.
  intros L H. rewrite on_field_lookup. destruct (String.eqb_spec k name) as [<-|].
  - rewrite L. cbn [option_map]. eexists; split; [reflexivity|]. now apply keeps_field.
  - exists r. split; [exact L|apply keeps_id].
Qed.

Lemma finish_lookup zero c idx k r : lookup k (c_fields c) = Some r ->
  exists f', lookup k (c_fields (fst (finish_init zero c idx))) = Some (set_field r f') /\ l_comp (f_lay f') = l_comp (f_lay (rf_field r)).
Proof.
  intros L. unfold finish_init. pose proof (allocate_each zero (c_fields c) k) as E.
  destruct (allocate_fields zero (c_fields c)) as [l o]; cbn [fst] in *.
  assert (G : exists f', lookup k l = Some (set_field r f') /\ l_comp (f_lay f') = l_comp (f_lay (rf_field r))).
  { destruct E as [E|(r0 & E1 & E2)].
    - exists (rf_field r). rewrite E, L. destruct r; auto.
    - rewrite L in E1. injection E1 as <-. exists (fst (resize zero (rf_field r))). rewrite E2. split; [reflexivity|]. now rewrite (proj1 (resize_lay zero (rf_field r))). }
  destruct G as (f' & G1 & G2). destruct o as [u|e|]; cbn [fst]; try (exists f'; split; assumption).
  rewrite sync_fields. cbn [c_fields]. rewrite G1. cbn [option_map]. eexists; split; [reflexivity|]. cbn. exact G2.
Qed.

Lemma with_pixels_lookup c a b p q k r : lookup k (c_fields c) = Some r ->
  exists f', lookup k (c_fields (with_pixels c a b p q)) = Some (set_field r f') /\ l_comp (f_lay f') = l_comp (f_lay (rf_field r)).
Proof. intros L. unfold with_pixels. rewrite sync_fields. cbn [c_fields]. rewrite L. cbn [option_map]. eexists; split; [reflexivity|]. reflexivity. Qed.

Lemma init_keeps zero c a b p q idx k o r : lookup k (c_fields c) = Some r ->
  exists r', lookup k (c_fields (fst (finish_init zero (with_pixels c a b p q) idx))) = Some r' /\ keeps k o r r'.
Proof.
  intros L. destruct (with_pixels_lookup c a b p q k r L) as (f1 & L1 & E1).
  destruct (finish_lookup zero _ idx k _ L1) as (f2 & L2 & E2). exists (set_field (set_field r f1) f2). split; [exact L2|].
  apply (keeps_field k o r). cbn in E2. congruence.
Qed.

Lemma init_global_keeps zero c nd nsd loc pstr k o r : lookup k (c_fields c) = Some r ->
  exists r', lookup k (c_fields (fst (init_global zero c nd nsd loc pstr))) = Some r' /\ keeps k o r r'.
Proof.
  intros L. assert (T : exists r', lookup k (c_fields c) = Some r' /\ keeps k o r r') by (exists r; split; [exact L|apply keeps_id]).
  unfold init_global. destruct (_ <=? 0); [exact T|]. destruct (_ <? 0); [exact T|]. destruct (c_init c); [exact T|].
  destruct (pixels_strided _ _ _); [|exact T|]; destruct (get_buffer_size _ _); try exact T. now apply init_keeps.
Qed.

Lemma step_keeps zero c o name r : get_field c name = Ok r -> o <> OPop name ->
  exists r', get_field (fst (step zero c o)) name = Ok r' /\ keeps name o r r'.
Proof.
  intros G N. unfold get_field in *. destruct (lookup name (c_fields c)) as [r0|] eqn:L; [|discriminate]. apply Ok_inj in G; subst r0.
  assert (T : exists r', lookup name (c_fields c) = Some r' /\ keeps name o r r') by (exists r; split; [exact L|apply keeps_id]).
  enough (X : exists r', lookup name (c_fields (fst (step zero c o))) = Some r' /\ keeps name o r r').
  { destruct X as (r' & X1 & X2). exists r'. now rewrite X1. }
  destruct o; cbn [step].
  - unfold register_field. destruct (lookup name0 (c_fields c)) as [r1|] eqn:L1.
    + destruct allow_existing; [|exact T]. repeat match goal with |- context [if ?b then _ else _] => destruct b; [exact T|] end. exact T.
    + destruct (touch_tag_same c tag) as (_ & _ & _ & _ & _ & _ & _ & _ & F).
      assert (G : forall x, exists r', lookup name (c_fields (with_fields (touch_tag c tag) (insert name0 x (c_fields (touch_tag c tag))))) = Some r' /\ keeps name (ORegister name0 ty comp tag u allow_existing) r r').
      { intros x. cbn [with_fields c_fields]. rewrite F, lookup_insert_other by congruence. exact T. }
      destruct (c_init c); [|apply G]. destruct (resize zero _) as [f' [u'|e|]]; cbn [fst]; [apply G| |]; rewrite F; exact T.
  - unfold pop_field. destruct (lookup name0 (c_fields c)); cbn [fst]; [|exact T]. cbn [with_fields c_fields]. rewrite lookup_erase.
    destruct (String.eqb_spec name name0); [congruence|]. exact T.
  - destruct (set_nb_cases c tag n) as [(_ & -> & _)|(_ & _ & ->)]; [exact T|]. cbn [fst with_fields c_fields]. rewrite lookup_map_fields, L. cbn [option_map].
    destruct (String.eqb (rf_tag r) tag); eexists; (split; [reflexivity|]); [now apply keeps_field|apply keeps_id].
  - destruct (c_glob c); [exact T|]. unfold add_pixel. destruct (c_init c); exact T.
  - destruct (c_glob c); [exact T|]. unfold init_local. destruct (c_init c); [exact T|]. now apply init_keeps.
  - destruct (c_glob c); [|exact T]. now apply init_global_keeps.
  - destruct (c_glob c); [|exact T]. unfold init_global_order. destruct (pixel_strides_for _ _); try exact T. now apply init_global_keeps.
  - apply on_field_keeps; [exact L|]. intros f. now rewrite (proj1 (set_pad_lay zero f p)).
  - apply on_field_keeps; [exact L|]. intros f. now rewrite (proj1 (keep_push_env f v)).
  - apply on_field_keeps; [exact L|]. intros f. now rewrite (proj1 (keep_push_single_env f v)).
  - rewrite on_field_lookup. destruct (String.eqb_spec name name0) as [<-|]; [|exact T]. rewrite L. cbn [option_map].
    unfold keep. destruct (field_reshape (rf_field r) shape None) as [f'|e|] eqn:E; cbn [fst]; eexists; (split; [reflexivity|]); try (now apply keeps_field).
    apply reshape_env in E. destruct E as (_ & E2 & _). unfold keeps; cbn. split; [reflexivity|]. split; [reflexivity|]. split; [now left|]. right. exists shape. auto.
  - unfold reshape_tag. destruct (lookup name0 (c_fields c)) as [r1|] eqn:L1; [|exact T].
    destruct (touch_tag_same c tag) as (_ & _ & _ & _ & _ & _ & _ & _ & F). cbn zeta.
    destruct (field_reshape (rf_field r1) shape _) as [f'|e|] eqn:E; cbn [fst]; try (rewrite F; exact T).
    cbn [with_fields c_fields]. rewrite F, lookup_insert. destruct (String.eqb_spec name name0) as [<-|]; [|exact T].
    rewrite L in L1. injection L1 as <-. eexists; split; [reflexivity|]. apply reshape_env in E. destruct E as (_ & E2 & _).
    unfold keeps; cbn. split; [reflexivity|]. split; [reflexivity|]. split; [right; eauto|]. right. exists shape. eauto.
  - apply on_field_keeps; [exact L|]. intros f. unfold keep. destruct (wr (f_vals f) i x); reflexivity.
Qed.

(** Operations addressed to another field. *)
Definition addressed (o : op A) : option string :=
  match o with
  | ORegister n _ _ _ _ _ | OPop n | OSetPad n _ | OPush n _ | OPushSingle n _ | OReshape n _ | OReshapeTag n _ _ | OWrite n _ _ => Some n
  | _ => None
  end.
Lemma step_isolated zero c o name name' : addressed o = Some name' -> name <> name' ->
  get_field (fst (step zero c o)) name = get_field c name.
Proof.
  intros Ha N. unfold get_field. assert (B : String.eqb name name' = false) by now apply String.eqb_neq.
  destruct o; cbn [addressed] in Ha; try discriminate; injection Ha as <-; cbn [step]; try (now rewrite on_field_lookup, B).
  - unfold register_field. destruct (lookup name0 (c_fields c)) as [r1|] eqn:L1.
    + destruct allow_existing; [|reflexivity]. repeat match goal with |- context [if ?b then _ else _] => destruct b; [reflexivity|] end. reflexivity.
    + destruct (touch_tag_same c tag) as (_ & _ & _ & _ & _ & _ & _ & _ & F).
      destruct (c_init c); [destruct (resize zero _) as [f' [u'|e|]]|]; cbn [fst with_fields c_fields]; rewrite F; try reflexivity; now rewrite lookup_insert_other.
  - unfold pop_field. destruct (lookup name0 (c_fields c)); cbn [fst]; [|reflexivity]. cbn [with_fields c_fields]. now rewrite lookup_erase, B.
  - unfold reshape_tag. destruct (lookup name0 (c_fields c)) as [r1|]; [|reflexivity].
    destruct (touch_tag_same c tag) as (_ & _ & _ & _ & _ & _ & _ & _ & F). cbn zeta.
    destruct (field_reshape _ _ _); cbn [fst with_fields c_fields]; rewrite F; try reflexivity. now rewrite lookup_insert_other.
Qed.

(** ** Initialisation happens once *)
Lemma double_init zero c o : c_init c = true -> initialises o -> fst (step zero c o) = c /\ is_ok (snd (step zero c o)) = false.
Proof.
  intros Ini Ho. destruct o; cbn [initialises] in Ho; try contradiction; cbn [step].
  - destruct (c_glob c); [auto|]. unfold init_local. rewrite Ini. auto.
  - destruct (c_glob c); [|auto]. unfold init_global. destruct (_ <=? 0); [auto|]. destruct (_ <? 0); [auto|]. rewrite Ini. auto.
  - destruct (c_glob c); [|auto]. unfold init_global_order. destruct (pixel_strides_for _ _); auto. unfold init_global. destruct (_ <=? 0); [auto|]. destruct (_ <? 0); [auto|]. rewrite Ini. auto.
Qed.

Definition same_pixels c c' : Prop := c_init c' = c_init c /\ c_npix c' = c_npix c /\ c_nbuf c' = c_nbuf c /\
  c_pix c' = c_pix c /\ c_pstr c' = c_pstr c /\ c_index c' = c_index c.

Lemma same_pixels_of_coll c c' : same_coll c c' -> same_pixels c c'.
Proof. unfold same_coll, same_pixels. tauto. Qed.

Lemma on_field_coll c name opf : same_coll c (fst (on_field c name opf)).
Proof. unfold on_field. destruct (lookup name (c_fields c)); [destruct (opf _)|]; unfold same_coll; cbn; auto 10. Qed.

Lemma step_quiet zero c o : ~ initialises o -> (forall i, o <> OAddPixel i) -> same_coll c (fst (step zero c o)).
Proof.
  intros Ho Na. destruct o; cbn [initialises] in Ho; try (exfalso; apply Ho; exact Logic.I); cbn [step]; try apply on_field_coll.
  - unfold register_field. destruct (lookup name (c_fields c)) as [r1|].
    + destruct allow_existing; [|apply same_coll_refl]. repeat match goal with |- context [if ?b then _ else _] => destruct b; [apply same_coll_refl|] end. apply same_coll_refl.
    + pose proof (same_coll_touch c tag) as S. destruct (c_init c); [destruct (resize zero _) as [f' [u'|e|]]|]; cbn [fst]; try exact S; unfold same_coll in *; cbn; exact S.
  - unfold pop_field. destruct (lookup name (c_fields c)); cbn [fst]; unfold same_coll; cbn; auto 10.
  - destruct (set_nb_cases c tag n) as [(_ & -> & _)|(_ & _ & ->)]; unfold same_coll; cbn; auto 10.
  - now contradiction (Na i).
  - pose proof (same_coll_touch c tag) as S. unfold reshape_tag. destruct (lookup name (c_fields c)) as [r1|]; [|apply same_coll_refl].
    cbn zeta. destruct (field_reshape _ _ _); cbn [fst]; exact S.
Qed.

Lemma init_forever zero h : forall c, c_init c = true -> same_pixels c (run zero c h).
Proof.
  unfold run. induction h as [|o h IH]; intros c Ini; cbn [fold_left]; [unfold same_pixels; auto 10|].
  assert (S : same_pixels c (fst (step zero c o))).
  { destruct o; try (apply same_pixels_of_coll, step_quiet; [solve [cbn; auto]|congruence]).
    - cbn [step]. destruct (c_glob c); [unfold same_pixels; auto 10|]. unfold add_pixel. rewrite Ini. unfold same_pixels; auto 10.
    - destruct (double_init zero c OInitLocal Ini Logic.I) as [-> _]. unfold same_pixels; auto 10.
    - destruct (double_init zero c (OInitGlobal nd nsd loc pstr) Ini Logic.I) as [-> _]. unfold same_pixels; auto 10.
    - destruct (double_init zero c (OInitGlobalOrder nd nsd loc o) Ini Logic.I) as [-> _]. unfold same_pixels; auto 10. }
  assert (Ini' : c_init (fst (step zero c o)) = true) by (destruct S as (-> & _); exact Ini).
  specialize (IH _ Ini'). destruct S as (S1 & S2 & S3 & S4 & S5 & S6). destruct IH as (I1 & I2 & I3 & I4 & I5 & I6).
  unfold same_pixels. repeat split; congruence.
Qed.

(** Fields that can be allocated. *)
Definition allocatable npix nbuf r : Prop :=
  l_nsub (f_lay (rf_field r)) <> unknown /\
  (f_cur (rf_field r) = 0 \/ f_cur (rf_field r) = l_nsub (f_lay (rf_field r)) * npix) /\
  ((len (f_vals (rf_field r)) = l_nsub (f_lay (rf_field r)) * nbuf * l_nbc (f_lay (rf_field r)) + f_pad (rf_field r) /\
    f_cur (rf_field r) = l_nsub (f_lay (rf_field r)) * nbuf) \/
   0 <= l_nsub (f_lay (rf_field r)) * nbuf * l_nbc (f_lay (rf_field r)) + f_pad (rf_field r)).

Lemma resize_ok_iff zero f : snd (resize zero f) = Ok tt <-> l_nsub (f_lay f) <> unknown /\
  ((len (f_vals f) = l_nsub (f_lay f) * l_nbuf (f_lay f) * l_nbc (f_lay f) + f_pad f /\ f_cur f = l_nsub (f_lay f) * l_nbuf (f_lay f)) \/
   0 <= l_nsub (f_lay f) * l_nbuf (f_lay f) * l_nbc (f_lay f) + f_pad f).
Proof.
  unfold resize, has_nsub. destruct (Z.eqb_spec (l_nsub (f_lay f)) unknown); cbn [negb]; [split; [discriminate|intros []; contradiction]|].
  destruct (Z.eqb_spec (len (f_vals f)) (l_nsub (f_lay f) * l_nbuf (f_lay f) * l_nbc (f_lay f) + f_pad f));
  destruct (Z.eqb_spec (f_cur f) (l_nsub (f_lay f) * l_nbuf (f_lay f))); cbn [andb]; [cbn; split; auto| | |];
  (destruct (Z.ltb_spec (l_nsub (f_lay f) * l_nbuf (f_lay f) * l_nbc (f_lay f) + f_pad f) 0); cbn;
   [split; [discriminate|intros (_ & [[X Y]|X]); [congruence|lia]]|split; auto]).
Qed.

Lemma allocate_iff zero npix nbuf (l : list (string * rfield A)) : Forall (fun p => l_npix (f_lay (rf_field (snd p))) = npix /\ l_nbuf (f_lay (rf_field (snd p))) = nbuf) l ->
  (snd (allocate_fields zero l) = Ok tt <-> Forall (fun p => allocatable npix nbuf (snd p)) l).
Proof.
  induction l as [|[k r] l IH]; intros F; [cbn; split; [constructor|reflexivity]|]. apply Forall_cons_iff in F. destruct F as [[F1 F2] F]. cbn in F1, F2.
  rewrite Forall_cons_iff, <- IH by exact F. cbn [allocate_fields snd]. unfold allocatable at 1. rewrite <- F1, <- F2.
  pose proof (resize_ok_iff zero (rf_field r)) as R.
  assert (Ne : l_nsub (f_lay (rf_field r)) <> unknown -> nb_entries (rf_field r) = l_nsub (f_lay (rf_field r)) * l_npix (f_lay (rf_field r))).
  { intros N. unfold nb_entries, has_nsub. destruct (Z.eqb_spec (l_nsub (f_lay (rf_field r))) unknown); [contradiction|reflexivity]. }
  destruct (Z.eqb_spec (f_cur (rf_field r)) 0) as [C0|C0]; destruct (Z.eqb_spec (f_cur (rf_field r)) (nb_entries (rf_field r))) as [C1|C1]; cbn [negb andb];
  try (destruct (resize zero (rf_field r)) as [f' o]; cbn [snd] in R; destruct o as [[]|e|];
       [destruct (allocate_fields zero l) as [l' o']; cbn [snd]; destruct R as [R _]; destruct (R eq_refl) as [R1 R2]; specialize (Ne R1); split; [intros H; split; [|exact H]; split; [exact R1|]; split; [lia|exact R2]|tauto]
       |split; [discriminate|intros ((H1 & _ & H2) & _); destruct R as [_ R]; discriminate R; auto]
       |split; [discriminate|intros ((H1 & _ & H2) & _); destruct R as [_ R]; discriminate R; auto]]).
  cbn [snd]. split; [discriminate|]. intros ((H1 & H2 & _) & _). rewrite (Ne H1) in C1. destruct H2; contradiction.
Qed.

Lemma ordered_In_lookup {V} (m : list (string * V)) k v : ordered m -> In (k, v) m -> lookup k m = Some v.
Proof.
  intros O. apply ordered_NoDup in O. induction m as [|[x w] m IH]; cbn; [contradiction|]. cbn in O. inversion_clear O as [|? ? N D].
  intros [E|I]; [injection E as -> ->; now rewrite String.eqb_refl|].
  destruct (String.eqb_spec k x) as [->|]; [|auto]. exfalso. apply N. apply (in_map fst) in I. exact I.
Qed.

Lemma finish_iff zero c idx : inv c ->
  (snd (finish_init zero c idx) = Ok tt <-> forall k r, lookup k (c_fields c) = Some r -> allocatable (c_npix c) (c_nbuf c) r).
Proof.
  intros [O I]. assert (F : Forall (fun p => l_npix (f_lay (rf_field (snd p))) = c_npix c /\ l_nbuf (f_lay (rf_field (snd p))) = c_nbuf c) (c_fields c)).
  { apply Forall_forall. intros [k r] H. apply ordered_In_lookup in H; [|exact O]. destruct (I _ _ H) as [(_ & _ & _ & S1 & S2 & _) _]. auto. }
  pose proof (allocate_iff zero _ _ _ F) as X. unfold finish_init. destruct (allocate_fields zero (c_fields c)) as [l o]; cbn [snd] in X.
  assert (E : forall o : res unit, snd (match o with Ok _ => (sync (mk_coll (c_glob c) (c_order c) (c_tags c) true (c_npix c) (c_nbuf c) (c_pix c) (c_pstr c) idx l), Ok tt) | _ => (with_fields c l, o) end) = o)
    by (intros [[]|e|]; reflexivity).
  rewrite E, X, Forall_forall. split.
  - intros H k r L. apply lookup_In in L. now apply (H (k, r)).
  - intros H [k r] L. apply (H k). now apply ordered_In_lookup.
Qed.

(** What a failed initialisation may have changed. *)
Lemma failed_init zero c o : initialises o -> is_ok (snd (step zero c o)) = false ->
  c_init (fst (step zero c o)) = c_init c /\ c_tags (fst (step zero c o)) = c_tags c /\ c_index (fst (step zero c o)) = c_index c /\
  list_fields (fst (step zero c o)) = list_fields c /\ (c_fields c = [] -> fst (step zero c o) = c).
Proof.
  intros Ho Hs. assert (T : c_init c = c_init c /\ c_tags c = c_tags c /\ c_index c = c_index c /\ list_fields c = list_fields c /\ (c_fields c = [] -> c = c)) by auto.
  assert (G : forall a b p q idx, is_ok (snd (finish_init zero (with_pixels c a b p q) idx)) = false ->
    let c' := fst (finish_init zero (with_pixels c a b p q) idx) in
    c_init c' = c_init c /\ c_tags c' = c_tags c /\ c_index c' = c_index c /\ list_fields c' = list_fields c /\ (c_fields c = [] -> c' = c)).
  { intros a b p q idx. unfold finish_init. pose proof (allocate_keys zero (c_fields (with_pixels c a b p q))) as K.
    assert (K2 : keys (c_fields (with_pixels c a b p q)) = keys (c_fields c)) by (unfold with_pixels, sync; cbn [with_fields c_fields]; apply keys_map_fields).
    destruct (allocate_fields zero (c_fields (with_pixels c a b p q))) as [l' [u|e|]] eqn:E; cbn [fst snd is_ok]; [discriminate| |];
    intros _; (split; [reflexivity|]; split; [reflexivity|]; split; [reflexivity|]; split; [unfold list_fields; cbn [with_fields c_fields]; cbn [fst] in K; congruence|];
    intros Fe; exfalso; unfold with_pixels, sync in E; cbn [with_fields c_fields] in E; rewrite Fe in E; discriminate). }
  destruct o; cbn [initialises] in Ho; try contradiction; cbn [step] in *.
  - destruct (c_glob c); [exact T|]. unfold init_local in *. destruct (c_init c) eqn:Ini; [rewrite <- Ini in *; exact T|]. rewrite <- Ini in *. now apply G.
  - destruct (c_glob c); [|exact T]. unfold init_global in *. destruct (_ <=? 0); [exact T|]. destruct (_ <? 0); [exact T|]. destruct (c_init c) eqn:Ini; [rewrite <- Ini in *; exact T|]. rewrite <- Ini in *.
    destruct (pixels_strided _ _ _); [|exact T|]; destruct (get_buffer_size _ _); try exact T. now apply G.
  - destruct (c_glob c); [|exact T]. unfold init_global_order in *. destruct (pixel_strides_for _ _); try exact T.
    unfold init_global in *. destruct (_ <=? 0); [exact T|]. destruct (_ <? 0); [exact T|]. destruct (c_init c) eqn:Ini; [rewrite <- Ini in *; exact T|]. rewrite <- Ini in *.
    destruct (pixels_strided _ _ _); [|exact T|]; destruct (get_buffer_size _ _); try exact T. now apply G.
Qed.
End Reg.
