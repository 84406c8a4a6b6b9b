(** Proofs about lifetimes: maps of fields that are left alone are the maps one
    would create now. *)
From Coq Require Import String.
From Verif Require Import Base GridModel StridedModel UnitsModel LayoutModel LayoutProofs FieldModel FieldSpec FieldProofs FieldProofs2 RegistryModel RegistrySpec RegistryProofs RegistryProofs2 RegistryProofs3 MapModel LifeModel LifeSpec LifeProofs LifeProofs2.
Local Open Scope Z_scope.
Local Open Scope list_scope.

Section L.
Context {A : Type} (zero : A).
Implicit Types (c : coll A) (w : world A) (f : field A).

Definition similar f f' : Prop := l_nbc (f_lay f') = l_nbc (f_lay f) /\ l_order (f_lay f') = l_order (f_lay f) /\
  (l_nsub (f_lay f') = l_nsub (f_lay f) \/ l_nsub (f_lay f) = unknown) /\ f_init f' = f_init f /\ (f_init f = true -> f_ptr f' = f_ptr f).
Lemma similar_refl f : similar f f.
Proof. unfold similar. auto. Qed.

Lemma similar_map f f' u rows m : similar f f' -> new_map f u rows = Ok m -> new_map f' u rows = Ok m.
Proof.
  intros (E1 & E2 & E3 & E4 & E5). unfold new_map, map_rows, get_stride, has_nsub. rewrite E1, E2, E4.
  replace (if f_init f then f_ptr f' else None) with (if f_init f then f_ptr f else None) by (destruct (f_init f); [symmetry; auto|reflexivity]).
  destruct u; [|auto]. destruct E3 as [->| ->]; [auto|]. rewrite Z.eqb_refl. cbn [negb bind]. discriminate.
Qed.

(** ** Attributes kept by initialisation *)
Definition alike_attr c f f' : Prop := l_nbc (f_lay f') = l_nbc (f_lay f) /\ l_nsub (f_lay f') = l_nsub (f_lay f) /\ (l_order (f_lay f') = l_order (f_lay f) \/ l_order (f_lay f') = c_order c).
Lemma finish_attr c idx k r : lookup k (c_fields c) = Some r ->
  exists f', lookup k (c_fields (fst (finish_init zero c idx))) = Some (set_field r f') /\ alike_attr c (rf_field r) f'.
Proof.
  intros L. unfold finish_init. pose proof (allocate_each zero (c_fields c) k) as E.
  destruct (allocate_fields zero (c_fields c)) as [l o]; cbn [fst] in *.
  assert (G : exists f', lookup k l = Some (set_field r f') /\ f_lay f' = f_lay (rf_field r)).
  { destruct E as [E|(r0 & E1 & E2)].
    - exists (rf_field r). rewrite E, L. destruct r; auto.
    - rewrite L in E1. injection E1 as <-. exists (fst (resize zero (rf_field r))). rewrite E2. split; [reflexivity|]. now rewrite (proj1 (resize_lay zero (rf_field r))). }
  destruct G as (f' & G1 & G2). destruct o as [u|e|]; cbn [fst]; try (exists f'; split; [assumption|]; unfold alike_attr; rewrite G2; auto).
  rewrite sync_fields. cbn [c_fields]. rewrite G1. cbn [option_map]. eexists; split; [reflexivity|]. unfold alike_attr. cbn. rewrite G2. auto.
Qed.
Lemma init_attr c a b p q idx k r : lookup k (c_fields c) = Some r ->
  exists f', lookup k (c_fields (fst (finish_init zero (with_pixels c a b p q) idx))) = Some (set_field r f') /\ alike_attr c (rf_field r) f'.
Proof.
  intros L. assert (L1 : lookup k (c_fields (with_pixels c a b p q)) = Some (set_field r (attach (mk_coll (c_glob c) (c_order c) (c_tags c) (c_init c) a b p q (c_index c) (c_fields c)) (rf_field r)))).
  { unfold with_pixels. rewrite sync_fields. cbn [c_fields]. now rewrite L. }
  destruct (finish_attr _ idx k _ L1) as (f2 & L2 & E1 & E2 & E3). exists f2. split; [exact L2|]. cbn in E1, E2, E3. unfold alike_attr. rewrite E1, E2. tauto.
Qed.
Lemma init_global_attr c nd nsd loc pstr k r : lookup k (c_fields c) = Some r ->
  exists f', lookup k (c_fields (fst (init_global zero c nd nsd loc pstr))) = Some (set_field r f') /\ alike_attr c (rf_field r) f'.
Proof.
  intros L. assert (T : exists f', lookup k (c_fields c) = Some (set_field r f') /\ alike_attr c (rf_field r) f') by (exists (rf_field r); split; [rewrite L; destruct r; reflexivity|unfold alike_attr; auto]).
  unfold init_global. destruct (_ <=? 0); [exact T|]. destruct (_ <? 0); [exact T|]. destruct (c_init c); [exact T|].
  destruct (pixels_strided _ _ _); [|exact T|]; destruct (get_buffer_size _ _); try exact T. now apply init_attr.
Qed.
Lemma step_init_attr c o k r : inv c -> initialises o -> lookup k (c_fields c) = Some r ->
  exists r', lookup k (c_fields (fst (step zero c o))) = Some r' /\ l_nbc (f_lay (rf_field r')) = l_nbc (f_lay (rf_field r)) /\
    l_nsub (f_lay (rf_field r')) = l_nsub (f_lay (rf_field r)) /\ l_order (f_lay (rf_field r')) = l_order (f_lay (rf_field r)).
Proof.
  intros I Ho L. assert (O : l_order (f_lay (rf_field r)) = c_order c) by (destruct I as [_ I]; destruct (I _ _ L) as [(S & _) _]; exact S).
  assert (T : exists f', lookup k (c_fields c) = Some (set_field r f') /\ alike_attr c (rf_field r) f') by (exists (rf_field r); split; [rewrite L; destruct r; reflexivity|unfold alike_attr; auto]).
  enough (X : exists f', lookup k (c_fields (fst (step zero c o))) = Some (set_field r f') /\ alike_attr c (rf_field r) f').
  { destruct X as (f' & X1 & X2 & X3 & X4). exists (set_field r f'). split; [exact X1|]. cbn. split; [exact X2|]. split; [exact X3|]. destruct X4; congruence. }
  destruct o; cbn [initialises] in Ho; try contradiction; cbn [step].
  - destruct (c_glob c); [exact T|]. unfold init_local. destruct (c_init c); [exact T|]. now apply init_attr.
  - destruct (c_glob c); [|exact T]. now apply init_global_attr.
  - destruct (c_glob c); [|exact T]. unfold init_global_order. destruct (pixel_strides_for _ _); try exact T. now apply init_global_attr.
Qed.

(** ** Operations that do not disturb a field *)
Definition disturbs (n : string) (o : op A) : Prop :=
  match o with OPop m | OSetPad m _ | OReshape m _ | OReshapeTag m _ _ => m = n | _ => False end.

Lemma step_similar c o n r : inv c -> sensible true c o -> ~ disturbs n o -> (initialises o -> c_init (fst (step zero c o)) = c_init c) -> lookup n (c_fields c) = Some r ->
  exists r', lookup n (c_fields (fst (step zero c o))) = Some r' /\ similar (rf_field r) (rf_field r').
Proof.
  intros I Se D Hi L. assert (T : exists r', lookup n (c_fields c) = Some r' /\ similar (rf_field r) (rf_field r')) by (exists r; split; [exact L|apply similar_refl]).
  assert (Ini : f_init (rf_field r) = c_init c) by (destruct I as [_ I]; destruct (I _ _ L) as [(_ & _ & _ & _ & _ & _ & S) _]; exact S).
  assert (Iso : forall n', addressed o = Some n' -> n <> n' -> exists r', lookup n (c_fields (fst (step zero c o))) = Some r' /\ similar (rf_field r) (rf_field r')).
  { intros n' Ha Nn. pose proof (step_isolated zero c o n n' Ha Nn) as X. unfold get_field in X. rewrite L in X.
    destruct (lookup n (c_fields (fst (step zero c o)))) as [r'|]; [|discriminate]. apply Ok_inj in X. subst r'. exists r. split; [reflexivity|apply similar_refl]. }
  assert (DI : initialises o -> exists r', lookup n (c_fields (fst (step zero c o))) = Some r' /\ similar (rf_field r) (rf_field r')).
  { intros Io. specialize (Hi Io). destruct (c_init c) eqn:Ic.
    - destruct (double_init zero c o Ic Io) as [-> _]. exact T.
    - destruct (step_init_attr c o n r I Io L) as (r' & L' & E1 & E2 & E3). exists r'. split; [exact L'|].
      pose proof (step_inv zero c o I) as [_ I']. destruct (I' _ _ L') as [(_ & _ & _ & _ & _ & _ & S) _].
      unfold similar. split; [exact E1|]. split; [exact E3|]. split; [now left|]. split; [congruence|]. rewrite Ini. discriminate. }
  destruct o as [name ty comp tag u a|name|tag k|i| |nd nsd loc ps|nd nsd loc so|name p|name v|name v|name s|name s tag|name i x]; try (apply DI; exact Logic.I).
  - destruct (String.eqb_spec n name) as [<-|Nn]; [|now apply (Iso name)]. cbn [step]. unfold register_field. rewrite L.
    destruct a; [|exact T]. repeat match goal with |- context [if ?b then _ else _] => destruct b; [exact T|] end. exact T.
  - apply (Iso name); [reflexivity|]. intros ->. now apply D.
  - cbn [step]. destruct (set_nb_cases c tag k) as [(_ & -> & _)|(_ & Tn & ->)]; [exact T|]. cbn [fst with_fields c_fields]. rewrite lookup_map_fields, L. cbn [option_map].
    destruct (String.eqb_spec (rf_tag r) tag) as [Et|]; eexists; (split; [reflexivity|]); [|apply similar_refl].
    unfold similar; cbn. split; [reflexivity|]. split; [reflexivity|]. split; [|auto]. destruct I as [_ I]. destruct (I _ _ L) as [_ Ns]. rewrite Ns, Et. unfold sub_pts_of.
    destruct Tn as [->| ->]; auto.
  - cbn [step]. destruct (c_glob c); [exact T|]. unfold add_pixel. destruct (c_init c); exact T.
  - apply (Iso name); [reflexivity|]. intros ->. now apply D.
  - destruct (String.eqb_spec n name) as [<-|Nn]; [|now apply (Iso name)]. cbn [step]. rewrite on_field_lookup, String.eqb_refl, L. cbn [option_map]. eexists; split; [reflexivity|].
    destruct (keep_push_env (rf_field r) v) as (E1 & _ & E3). unfold similar. cbn [set_field rf_field]. rewrite E1, E3, Ini. cbn [sensible] in Se. rewrite Se. split; [reflexivity|]. split; [reflexivity|]. split; [now left|]. split; [reflexivity|discriminate].
  - destruct (String.eqb_spec n name) as [<-|Nn]; [|now apply (Iso name)]. cbn [step]. rewrite on_field_lookup, String.eqb_refl, L. cbn [option_map]. eexists; split; [reflexivity|].
    destruct (keep_push_single_env (rf_field r) v) as (E1 & _ & E3). unfold similar. cbn [set_field rf_field]. rewrite E1, E3, Ini. cbn [sensible] in Se. rewrite Se. split; [reflexivity|]. split; [reflexivity|]. split; [now left|]. split; [reflexivity|discriminate].
  - apply (Iso name); [reflexivity|]. intros ->. now apply D.
  - apply (Iso name); [reflexivity|]. intros ->. now apply D.
  - destruct (String.eqb_spec n name) as [<-|Nn]; [|now apply (Iso name)]. cbn [step]. rewrite on_field_lookup, String.eqb_refl, L. cbn [option_map]. eexists; split; [reflexivity|].
    cbn [set_field rf_field]. unfold keep. destruct (wr (f_vals (rf_field r)) i x) as [v|e|]; cbn [bind fst]; unfold similar; cbn; auto.
Qed.

(** ** The invariant *)
Definition fresh_maps w : Prop := forall i n m r, maps_field w i n m -> lookup n (c_fields (w_coll w)) = Some r ->
  exists rows, new_map (rf_field r) (m_unit m) rows = Ok m.

Lemma calm_disturbs w o n i m : calm w (WColl o) -> maps_field w i n m -> ~ disturbs n o.
Proof.
  intros (_ & _ & C) (id & Li & Lm) D. destruct o; cbn [disturbs] in D; try contradiction; subst; exact (C id Li i _ Lm eq_refl).
Qed.

Lemma fresh_step w o : tinv w -> fresh_maps w -> calm w o -> fresh_maps (fst (wstep zero w o)).
Proof.
  intros T F C. pose proof (tinv_step zero w o T (proj1 C)) as T'. pose proof T as (I & Id & M & _).
  destruct o as [o|id|id u k|j|j].
  - destruct C as [_ [Se Cd]]. assert (C : calm w (WColl o)) by exact (conj Logic.I (conj Se Cd)).
    assert (D : initialises o \/ ~ initialises o) by (destruct o; cbn; auto). destruct D as [Io|Io].
    + destruct (wstep_init zero w o T Io) as (_ & _ & Ec & Ei & Kf & Ks). intros i n m r Mf L. rewrite Ec in L. destruct Mf as (id & Li & Lm). rewrite Ei in Li.
      destruct (is_ok (snd (step zero (w_coll w) o))) eqn:R.
      * destruct (Ks eq_refl) as [Kn K]. destruct (nlookup i (w_maps w)) as [lm|] eqn:L0; [|rewrite (Kn i L0) in Lm; discriminate].
        destruct (K i lm L0) as (f & lm' & Ff & L' & E1 & E2). rewrite L' in Lm. injection Lm as ->. cbn [lm_field lm_map] in *.
        assert (Lr : exists r0, lookup n (c_fields (w_coll w)) = Some r0). { destruct (lookup n (c_fields (w_coll w))) eqn:X; [now eexists|]. destruct Id as (_ & Id & _). apply Id in X. congruence. }
        destruct Lr as [r0 Lr]. assert (Mf : maps_field w i n (lm_map lm)). { exists id. split; [exact Li|]. rewrite L0. destruct lm; cbn in *. now subst. }
        destruct (F i n _ r0 Mf Lr) as [rows N0]. destruct (step_init_attr (w_coll w) o n r0 I Io Lr) as (r' & L2 & A1 & A2 & A3). rewrite L in L2. injection L2 as <-.
        destruct (init_ok_flag zero (w_coll w) o Io R) as [F0 F1].
        assert (I0 : f_init (rf_field r0) = false) by (destruct I as [_ I]; destruct (I _ _ Lr) as [(_ & _ & _ & _ & _ & _ & S) _]; congruence).
        assert (I1 : f_init (rf_field r) = true) by (pose proof (step_inv zero (w_coll w) o I) as [_ I2]; destruct (I2 _ _ L) as [(_ & _ & _ & _ & _ & _ & S) _]; congruence).
        destruct (early_map (rf_field r0) (rf_field r) (m_unit (lm_map lm)) rows (lm_map lm) I0 I1 A1 A3 (fun _ => A2) N0) as (_ & _ & m' & X1 & X2).
        assert (Em : f = rf_field r).
        { assert (Idc : ids_ok (with_coll w (fst (step zero (w_coll w) o)))). { destruct T' as (_ & Idw & _). unfold ids_ok in *. rewrite Ec, Ei in Idw. destruct Idw as (Q1 & Q2 & Q3 & _). destruct Id as (_ & _ & _ & Q4 & Q5). repeat (split; [assumption|]). exact Q5. }
          rewrite <- E1 in Ff. rewrite (field_registered (with_coll w (fst (step zero (w_coll w) o))) n id r Idc Li L) in Ff. now injection Ff as <-. }
        subst f. rewrite E2 in X1. apply Ok_inj in X1. subst m'. exists rows. replace (m_unit m) with (m_unit (lm_map lm)); [exact X2|].
        unfold initialise_map in E2. rewrite I1 in E2. cbn [negb] in E2. apply Ok_inj in E2. subst m. reflexivity.
      * rewrite (Kf eq_refl) in Lm. assert (Mf : maps_field w i n m) by (exists id; auto).
        assert (Lr : exists r0, lookup n (c_fields (w_coll w)) = Some r0). { destruct (lookup n (c_fields (w_coll w))) eqn:X; [now eexists|]. destruct Id as (_ & Id & _). apply Id in X. congruence. }
        destruct Lr as [r0 Lr]. destruct (F i n m r0 Mf Lr) as [rows N0].
        destruct (step_similar (w_coll w) o n r0 I Se (calm_disturbs w o n i m C Mf)) as (r' & L2 & Sm); [|exact Lr|].
        { intros _. destruct (step_flag zero (w_coll w) o) as [X|(_ & _ & X & _)]; [exact X|congruence]. }
        rewrite L in L2. injection L2 as <-. exists rows. now apply (similar_map (rf_field r0)).
    + (* other operations on the collection *)
      assert (W : w_coll (fst (wstep zero w (WColl o))) = fst (step zero (w_coll w) o) /\ w_maps (fst (wstep zero w (WColl o))) = w_maps w /\
                  (forall n id, lookup n (w_ids (fst (wstep zero w (WColl o)))) = Some id -> lookup n (w_ids w) = Some id \/ id = w_next w)).
      { cbn [wstep]. destruct (step zero (w_coll w) o) as [c [u0|e|]]; [|cbn [fst w_coll w_maps w_ids]; auto|cbn [fst w_coll w_maps w_ids]; auto].
        destruct o; try (cbn [fst w_coll w_maps w_ids]; auto; fail); try (exfalso; apply Io; exact Logic.I).
        - destruct (lookup name (w_ids w)) eqn:Q; cbn [fst w_coll w_maps w_ids]; [auto|]. split; [reflexivity|]. split; [reflexivity|]. intros n id. rewrite lookup_insert.
          destruct (String.eqb n name); [|auto]. intros X. injection X as <-. auto.
        - destruct (lookup name (w_ids w)); [|cbn; auto]. destruct (lookup name (c_fields (w_coll w))); cbn [fst w_coll w_maps w_ids]; [|auto]. split; [reflexivity|]. split; [reflexivity|]. intros n' id'. rewrite lookup_erase.
          destruct (String.eqb n' name); [discriminate|auto]. }
      destruct W as (W1 & W2 & W3). intros i n m r (id & Li & Lm) L. rewrite W1 in L. rewrite W2 in Lm.
      assert (Li0 : lookup n (w_ids w) = Some id).
      { destruct (W3 n id Li) as [X| ->]; [exact X|]. destruct (M i _ Lm) as (_ & Al & _). cbn [lm_field] in Al. pose proof (field_below w _ Id Al). lia. }
      assert (Mf : maps_field w i n m) by (exists id; auto).
      assert (Lr : exists r0, lookup n (c_fields (w_coll w)) = Some r0). { destruct (lookup n (c_fields (w_coll w))) eqn:X; [now eexists|]. destruct Id as (_ & Id & _). apply Id in X. congruence. }
      destruct Lr as [r0 Lr]. destruct (F i n m r0 Mf Lr) as [rows N0].
      destruct (step_similar (w_coll w) o n r0 I Se (calm_disturbs w o n i m C Mf)) as (r' & L2 & Sm); [intros X; contradiction|exact Lr|].
      rewrite L in L2. injection L2 as <-. exists rows. now apply (similar_map (rf_field r0)).
  - exact F.
  - cbn [wstep]. destruct (field_at w id) as [f|] eqn:Ff; [|exact F]. destruct (make_map f u k) as [m|e|] eqn:Mk; [|exact F|exact F].
    intros i n m' r (id' & Li & Lm) L. cbn [fst add_map w_ids w_coll w_maps nlookup] in *. destruct (Nat.eqb_spec i (w_next w)) as [->|Ni]; [|apply (F i n m' r); [now exists id'|exact L]].
    injection Lm as -> ->. rewrite (field_registered w n id' r Id Li L) in Ff. injection Ff as <-. exists (kind_rows k).
    apply make_map_inv in Mk. now rewrite (proj1 (proj2 (proj2 (new_map_init _ _ _ _ Mk)))).
  - cbn [wstep]. destruct (nlookup j (w_maps w)) as [lm|] eqn:Lj; [|exact F]. destruct (field_at w (lm_field lm)) as [f|] eqn:Ff; [|exact F]. destruct (negb _); [exact F|].
    intros i n m' r (id' & Li & Lm) L. cbn [fst add_map w_ids w_coll w_maps nlookup] in *. destruct (Nat.eqb_spec i (w_next w)) as [->|Ni].
    + apply (F j n m' r); [exists id'; split; [exact Li|congruence]|exact L].
    + apply (F i n m' r); [now exists id'|exact L].
  - intros i n m' r (id' & Li & Lm) L. cbn [wstep fst w_ids w_coll w_maps] in *. rewrite nlookup_remove in Lm. destruct (i =? j)%nat; [discriminate|]. apply (F i n m' r); [now exists id'|exact L].
Qed.

Lemma calm_tidy w o : calm w o -> tidy w o.
Proof. intros [H _]. exact H. Qed.

Lemma calm_fresh w : lives zero calm w -> tinv w /\ fresh_maps w.
Proof.
  induction 1 as [glob order tags c0 H P|w o Lw [T F] C].
  - split; [eapply start_tinv; eassumption|]. intros i n m r (id & Li & _). discriminate.
  - split; [apply tinv_step; [exact T|now apply calm_tidy]|now apply fresh_step].
Qed.

(** The collection of a calm world has a sensible history. *)
Lemma sensible_snoc h : forall c o, sensible_history zero true c h -> sensible true (run zero c h) o -> sensible_history zero true c (h ++ [o]).
Proof.
  unfold run. induction h as [|x h IH]; intros c o; cbn [app sensible_history fold_left]; [intros _ H; split; [exact H|exact Logic.I]|]. intros [H1 H2] H3. split; [exact H1|]. now apply IH.
Qed.
Lemma wstep_coll w o : w_coll (fst (wstep zero w o)) = match o with WColl o => fst (step zero (w_coll w) o) | _ => w_coll w end.
Proof.
  destruct o as [o|id|id u k|j|j]; cbn [wstep]; try reflexivity.
  - assert (R : forall l w0, w_coll (fst (run_calls l w0)) = w_coll w0).
    { induction l as [|i l IH]; intros w0; cbn [run_calls]; [reflexivity|]. destruct (nlookup i (w_maps w0)); [|apply IH]. destruct (field_at w0 _); [|reflexivity].
      destruct (initialise_map _ _); [|reflexivity|reflexivity]. now rewrite IH. }
    destruct (step zero (w_coll w) o) as [c [u0|e|]]; [|reflexivity|reflexivity].
    destruct o; try reflexivity; try apply R; try (destruct (lookup name (w_ids w)); try reflexivity; destruct (lookup name (c_fields (w_coll w))); reflexivity).
  - destruct (field_at w id); [|reflexivity]. destruct (make_map _ _ _); reflexivity.
  - destruct (nlookup j (w_maps w)); [|reflexivity]. destruct (field_at w _); [|reflexivity]. destruct (negb _); reflexivity.
Qed.
Lemma calm_sensible w : lives zero calm w -> sensibly_reachable zero true (w_coll w).
Proof.
  induction 1 as [glob order tags c0 H P|w o Lw IH C].
  - exists glob, order, tags, c0, []. cbn. auto.
  - rewrite wstep_coll. destruct o as [o|id|id u k|j|j]; try exact IH. destruct IH as (g & od & t & c0 & h & N & Pt & Sh & E).
    exists g, od, t, c0, (h ++ [o]). split; [exact N|]. split; [exact Pt|]. destruct C as (_ & Se & _). rewrite E in Se. split; [now apply sensible_snoc|].
    rewrite E. unfold run. now rewrite fold_left_app.
Qed.
End L.
