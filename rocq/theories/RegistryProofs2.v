(** Storage of the fields of a collection; registration; initialisation. *)
From Coq Require Import String Ascii.
From Verif Require Import Base CIntModel GridModel GridSpec StridedModel UnitsModel LayoutModel LayoutSpec LayoutProofs LayoutProofs2.
From Verif Require Import FieldModel FieldSpec FieldProofs FieldProofs3 RegistryModel RegistrySpec RegistryProofs.
Local Open Scope Z_scope.
Local Open Scope list_scope.

Section Reg.
Context {A : Type}.
Implicit Types (f : field A) (c : coll A) (r : rfield A).

Lemma resize_ok zero f : snd (resize zero f) = Ok tt -> let g := fst (resize zero f) in
  l_nsub (f_lay f) <> unknown /\ f_ptr g = Some (f_gen g) /\ f_cur g = l_nsub (f_lay f) * l_nbuf (f_lay f) /\
  len (f_vals g) = l_nsub (f_lay f) * l_nbuf (f_lay f) * l_nbc (f_lay f) + f_pad f.
Proof.
  cbn zeta. unfold resize, has_nsub. destruct (Z.eqb_spec (l_nsub (f_lay f)) unknown); cbn [negb]; [discriminate|].
  destruct (Z.eqb_spec (len (f_vals f)) (l_nsub (f_lay f) * l_nbuf (f_lay f) * l_nbc (f_lay f) + f_pad f));
  destruct (Z.eqb_spec (f_cur f) (l_nsub (f_lay f) * l_nbuf (f_lay f))); cbn [andb]; [intros _; cbn; auto| | |];
  (destruct (Z.ltb_spec (l_nsub (f_lay f) * l_nbuf (f_lay f) * l_nbc (f_lay f) + f_pad f) 0); [discriminate|]; intros _; cbn;
   split; [assumption|]; split; [reflexivity|]; split; [reflexivity|]; unfold len; rewrite vec_resize_length; apply Z2Nat.id; assumption).
Qed.

Lemma resize_succeeds zero f : l_nsub (f_lay f) <> unknown -> 0 <= l_nsub (f_lay f) * l_nbuf (f_lay f) * l_nbc (f_lay f) + f_pad f ->
  snd (resize zero f) = Ok tt.
Proof.
  intros N P. unfold resize, has_nsub. destruct (Z.eqb_spec (l_nsub (f_lay f)) unknown); [contradiction|]; cbn [negb].
  destruct (_ && _); [reflexivity|]. destruct (Z.ltb_spec (l_nsub (f_lay f) * l_nbuf (f_lay f) * l_nbc (f_lay f) + f_pad f) 0); [lia|reflexivity].
Qed.

(** Attributes in sensible histories. *)
Definition attr f : Prop := 0 <= f_pad f /\ l_nbc (f_lay f) = zprod (l_comp (f_lay f)) /\
  Forall (fun x => 0 < x) (l_comp (f_lay f)) /\ zprod (l_comp (f_lay f)) < 2 ^ 31.
Definition stored (strict : bool) f : Prop := 0 < l_nsub (f_lay f) /\ f_ptr f = Some (f_gen f) /\
  len (f_vals f) = l_nsub (f_lay f) * l_nbuf (f_lay f) * l_nbc (f_lay f) + f_pad f /\
  (strict = true -> f_cur f = l_nsub (f_lay f) * l_nbuf (f_lay f)).

Definition sinv strict c : Prop := inv c /\ (forall tag n, tag_number c tag = Some n -> 0 < n) /\
  (c_init c = true -> 0 <= c_nbuf c) /\
  forall k r, lookup k (c_fields c) = Some r -> attr (rf_field r) /\ (c_init c = true -> stored strict (rf_field r)).

Lemma sub_pts_pos c tag : (forall tag n, tag_number c tag = Some n -> 0 < n) -> sub_pts_of c tag <> unknown -> 0 < sub_pts_of c tag.
Proof. unfold sub_pts_of. intros H N. destruct (tag_number c tag) eqn:E; [eauto|congruence]. Qed.

Lemma attr_comp comp : positive comp -> comp_nb comp = zprod (comp_shape comp) /\
  Forall (fun x => 0 < x) (comp_shape comp) /\ zprod (comp_shape comp) < 2 ^ 31.
Proof.
  destruct comp as [n|s]; cbn [positive comp_nb comp_shape].
  - intros H. unfold zprod; cbn [fold_right]. split; [lia|]. split; [repeat constructor; lia|lia].
  - intros [F L]. split; [now apply nb_from_shape_exact|auto].
Qed.

Lemma attr_lay f f' : f_lay f' = f_lay f -> 0 <= f_pad f' -> attr f -> attr f'.
Proof. unfold attr. intros -> P (_ & H). auto. Qed.

Lemma keep_push_pad f v : f_pad (fst (keep (fun f => push_back f v) f)) = f_pad f.
Proof.
  unfold keep, push_back. destruct (f_glob f) eqn:G; [auto|]. destruct (negb (has_nsub f)); [auto|].
  destruct (negb _); [auto|]. cbn [fst]. match goal with |- context [push_all ?g ?w] => destruct (push_all_app g w) as (_ & _ & _ & _ & _ & P) end. rewrite P. reflexivity.
Qed.

Lemma keep_push_single_pad f v : f_pad (fst (keep (fun f => push_back_single f v) f)) = f_pad f.
Proof.
  unfold keep, push_back_single. destruct (f_glob f) eqn:G; [auto|]. destruct (negb (has_nsub f)); [auto|].
  destruct (negb _); [auto|]. cbn [fst]. match goal with |- context [push_all ?g ?w] => destruct (push_all_app g w) as (_ & _ & _ & _ & _ & P) end. rewrite P. reflexivity.
Qed.

(** *** What each operation does, for the parts not covered by [inv] *)
Lemma sinv_same_fields strict c c' : sinv strict c -> inv c' -> (forall t, tag_number c' t = tag_number c t) ->
  c_init c' = c_init c -> c_nbuf c' = c_nbuf c -> c_fields c' = c_fields c -> sinv strict c'.
Proof. intros (I & T & B & H) I' T' Ei En Ef. unfold sinv. rewrite Ei, En, Ef. split; [exact I'|]. split; [intros t n; rewrite T'; eauto|]. auto. Qed.

Lemma sinv_insert strict c c1 name r : sinv strict c -> inv (with_fields c1 (insert name r (c_fields c1))) ->
  (forall t, tag_number c1 t = tag_number c t) -> c_init c1 = c_init c -> c_nbuf c1 = c_nbuf c -> c_fields c1 = c_fields c ->
  attr (rf_field r) -> (c_init c = true -> stored strict (rf_field r)) -> sinv strict (with_fields c1 (insert name r (c_fields c1))).
Proof.
  intros (I & T & B & H) I' T' Ei En Ef At St. split; [exact I'|]. split.
  - intros t n. rewrite (number_tags c1) by reflexivity. rewrite T'. eauto.
  - cbn [with_fields c_init c_nbuf c_fields]. rewrite Ei, En, Ef. split; [exact B|]. intros k r'. rewrite lookup_insert.
    destruct (String.eqb k name); [intros E; injection E as <-; auto|eauto].
Qed.

Lemma stored_of_resize strict zero f : snd (resize zero f) = Ok tt -> 0 < l_nsub (f_lay f) -> stored strict (fst (resize zero f)).
Proof.
  intros R N. destruct (resize_ok zero f R) as (_ & P & Cu & L). destruct (resize_lay zero f) as (Ey & _ & _ & Ep).
  unfold stored. rewrite Ey, Ep. auto.
Qed.

Lemma sinv_register strict zero c name ty comp tag u allow : sinv strict c -> positive comp ->
  sinv strict (fst (register_field zero c name ty comp tag u allow)).
Proof.
  intros S P. pose proof (inv_register zero c name ty comp tag u allow (proj1 S)) as I'.
  pose proof (register_number zero c name ty comp tag u allow) as T'. revert I' T'.
  unfold register_field. destruct (lookup name (c_fields c)) as [r|] eqn:L.
  - intros _ _. destruct allow; [|exact S]. repeat match goal with |- context [if ?b then _ else _] => destruct b; [exact S|] end. exact S.
  - match goal with |- context [new_field ?l ?g ?i] => set (f := new_field l g i) end.
    destruct (touch_tag_same c tag) as (_ & _ & Ei & _ & En & _ & _ & _ & Ef). destruct (attr_comp comp P) as (P1 & P2 & P3).
    assert (Af : attr f) by (unfold attr, f; cbn; split; [lia|auto]).
    destruct (c_init c) eqn:Ini.
    + pose proof (resize_lay zero f) as (R1 & _ & _ & R4). destruct (resize zero f) as [f' [[]|e|]] eqn:R; cbn [fst] in *;
        intros I' T'; try (apply (sinv_same_fields strict c); auto; congruence).
      assert (Nf : l_nsub (f_lay f) = sub_pts_of c tag) by (unfold f; cbn; apply sub_pts_touch).
      assert (Rk : snd (resize zero f) = Ok tt) by now rewrite R. pose proof (resize_ok zero f Rk) as (Hu & _).
      apply (sinv_insert strict c); auto; [congruence| |].
      * cbn. apply (attr_lay f); [exact R1|rewrite R4; unfold f; cbn; lia|exact Af].
      * intros _. cbn. replace f' with (fst (resize zero f)) by now rewrite R. apply stored_of_resize; [exact Rk|].
        rewrite Nf in *. destruct S as (_ & T & _). now apply sub_pts_pos.
    + cbn [fst]. intros I' _. apply (sinv_insert strict c); auto; [intros; apply touch_tag_number|congruence|]. intros; congruence.
Qed.

Lemma sinv_set_nb strict c tag n : sinv strict c -> sinv strict (fst (set_nb_sub_pts c tag n)).
Proof.
  intros (I & T & B & H). pose proof (inv_set_nb c tag n I) as I'. destruct (set_nb_cases c tag n) as [(_ & E & _)|(Hn & Ht & E)]; [rewrite E; repeat (split; [assumption|]); assumption|].
  pose proof (fun t => set_nb_numbers c tag n t Hn Ht) as N. rewrite E in *. cbn [fst] in *.
  split; [exact I'|]. split.
  - intros t m. rewrite N. destruct (String.eqb t tag); [intros X; injection X as <-; lia|eauto].
  - cbn [with_fields with_tags c_init c_nbuf c_fields]. split; [exact B|]. intros k r. rewrite lookup_map_fields.
    destruct (lookup k (c_fields c)) as [r0|] eqn:L; cbn [option_map]; [|discriminate]. intros X; injection X as <-.
    destruct (H _ _ L) as [At St]. destruct (String.eqb_spec (rf_tag r0) tag) as [Et|]; [|auto].
    split; [exact At|]. intros Ini. specialize (St Ini). destruct (proj2 I _ _ L) as [_ Ns].
    assert (Nn : l_nsub (f_lay (rf_field r0)) = n).
    { rewrite Et in Ns. unfold sub_pts_of in Ns. destruct Ht as [Ht|Ht]; rewrite Ht in Ns; [|exact Ns].
      unfold stored in St. unfold unknown in Ns. lia. }
    unfold set_nsub, set_field, with_lay, stored in *. cbn. rewrite <- Nn. exact St.
Qed.

Lemma sinv_on_field strict c name opf : sinv strict c -> inv (fst (on_field c name opf)) ->
  (forall f, attr f -> sees c f -> attr (fst (opf f)) /\ (c_init c = true -> 0 <= c_nbuf c -> stored strict f -> stored strict (fst (opf f)))) ->
  sinv strict (fst (on_field c name opf)).
Proof.
  intros S I' Ho. revert I'. unfold on_field. destruct (lookup name (c_fields c)) as [r|] eqn:L; [|intros _; exact S].
  destruct (opf (rf_field r)) as [f' o] eqn:Eo. cbn [fst]. intros I'. destruct S as (I & T & B & H). destruct (H _ _ L) as [At St].
  destruct (Ho (rf_field r) At (proj1 (proj2 I _ _ L))) as [H1 H2]. rewrite Eo in H1, H2. cbn [fst] in H1, H2.
  apply (sinv_insert strict c); auto. unfold sinv. tauto.
Qed.

Lemma buffer_size_nonneg n s b : get_buffer_size n s = Ok b -> 0 <= b.
Proof.
  unfold get_buffer_size. destruct (negb _); [discriminate|]. intros H; apply Ok_inj in H; subst b.
  assert (G : forall l a, 0 <= a -> 0 <= fold_left (fun acc (p : Z * Z) => Z.max acc (fst p * snd p)) l a).
  { induction l as [|p l IH]; intros a Ha; cbn [fold_left]; [exact Ha|]. apply IH. lia. }
  now apply G.
Qed.

Lemma sinv_with_pixels strict c a b p q : sinv strict c -> c_init c = false -> sinv strict (with_pixels c a b p q).
Proof.
  intros (I & T & B & H) Ini. split; [now apply inv_with_pixels|]. unfold with_pixels. split; [exact T|].
  cbn [sync with_fields c_init c_nbuf c_fields]. rewrite Ini. split; [congruence|]. intros k r. rewrite lookup_map_fields.
  destruct (lookup k (c_fields c)) as [r0|] eqn:L; cbn [option_map]; [|discriminate]. intros X; injection X as <-.
  split; [apply (H _ _ L)|congruence].
Qed.

Lemma sinv_finish strict zero c idx : sinv strict c -> c_init c = false -> 0 <= c_nbuf c -> sinv strict (fst (finish_init zero c idx)).
Proof.
  intros (I & T & B & H) Ini Hb. pose proof (inv_finish zero c idx I) as I'. revert I'. unfold finish_init.
  pose proof (allocate_each zero (c_fields c)) as E. pose proof (allocate_ok zero (c_fields c)) as Ek.
  destruct (allocate_fields zero (c_fields c)) as [l o]; cbn [fst] in *.
  assert (At : forall k r, lookup k l = Some r -> attr (rf_field r)).
  { intros k r Lk. destruct (E k) as [E1|(r0 & E1 & E2)].
    - rewrite E1 in Lk. now apply H with k.
    - rewrite E2 in Lk. injection Lk as <-. destruct (H _ _ E1) as [X _]. unfold resized, set_field; cbn.
      pose proof (resize_lay zero (rf_field r0)) as (R1 & _ & _ & R4). apply (attr_lay (rf_field r0)); [exact R1|rewrite R4; apply X|exact X]. }
  destruct o as [u|e|]; cbn [fst]; intros I'.
  - split; [exact I'|]. split; [exact T|]. cbn [sync with_fields c_init c_nbuf c_fields]. split; [auto|].
    intros k r. rewrite lookup_map_fields. destruct (lookup k l) as [r1|] eqn:L1; cbn [option_map]; [|discriminate]. intros X; injection X as <-.
    split; [apply (At _ _ L1)|]. intros _. destruct (Ek l u eq_refl k) as [Ek1 Ek2]. rewrite L1 in Ek1.
    destruct (lookup k (c_fields c)) as [r0|] eqn:L0; cbn [option_map] in Ek1; [|discriminate]. injection Ek1 as ->.
    destruct (Ek2 r0 eq_refl) as [R _]. destruct (proj2 I _ _ L0) as [Se Ns].
    assert (Pn : 0 < l_nsub (f_lay (rf_field r0))).
    { destruct (resize_ok zero (rf_field r0) R) as (U & _). rewrite Ns in *. now apply sub_pts_pos. }
    pose proof (stored_of_resize strict zero (rf_field r0) R Pn) as St. unfold stored, resized, set_field, attach in *. cbn in *.
    destruct (resize_lay zero (rf_field r0)) as (R1 & _). rewrite R1 in *. destruct Se as (_ & _ & _ & _ & <- & _). exact St.
  - split; [exact I'|]. split; [exact T|]. cbn [with_fields c_init c_nbuf c_fields]. rewrite Ini. split; [congruence|]. intros k r Lk. split; [eauto|congruence].
  - split; [exact I'|]. split; [exact T|]. cbn [with_fields c_init c_nbuf c_fields]. rewrite Ini. split; [congruence|]. intros k r Lk. split; [eauto|congruence].
Qed.

Lemma sinv_init_global strict zero c nd nsd loc pstr : sinv strict c -> sinv strict (fst (init_global zero c nd nsd loc pstr)).
Proof.
  intros S. unfold init_global. destruct (_ <=? 0); [exact S|]. destruct (_ <? 0); [exact S|]. destruct (c_init c) eqn:Ini; [exact S|].
  destruct (pixels_strided _ _ _); [|exact S|]; destruct (get_buffer_size _ _) eqn:Eb; try exact S. apply sinv_finish; [now apply sinv_with_pixels|exact Ini|].
  cbn. eapply buffer_size_nonneg; eassumption.
Qed.

Lemma wr_length (v : list A) i x w : wr v i x = Ok w -> len w = len v.
Proof. unfold wr, len. destruct (_ || _); [discriminate|]. intros H; apply Ok_inj in H; subst w. now rewrite upd_length. Qed.

Lemma step_sinv strict zero c o : sinv strict c -> sensible strict c o -> sinv strict (fst (step zero c o)).
Proof.
  intros S Se. pose proof (step_inv zero c o (proj1 S)) as I'. revert I'. destruct o; cbn [step sensible] in *.
  - intros _. now apply sinv_register.
  - unfold pop_field. destruct (lookup name (c_fields c)) eqn:L; cbn [fst]; [|intros _; exact S]. intros I'. destruct S as (I & T & B & H).
    split; [exact I'|]. split; [exact T|]. split; [exact B|]. cbn [with_fields c_fields c_init]. intros k r'. rewrite lookup_erase.
    destruct (String.eqb k name); [discriminate|]. eauto.
  - intros _. now apply sinv_set_nb.
  - destruct (c_glob c); [intros _; exact S|]. unfold add_pixel. destruct (c_init c) eqn:Ei; [intros _; exact S|]. cbn [fst]. intros I'.
    apply (sinv_same_fields strict c); auto.
  - destruct (c_glob c); [intros _; exact S|]. unfold init_local. destruct (c_init c) eqn:Ei; [intros _; exact S|]. intros _.
    apply sinv_finish; [now apply sinv_with_pixels|exact Ei|]. cbn. lia.
  - destruct (c_glob c); [|intros _; exact S]. intros _. now apply sinv_init_global.
  - destruct (c_glob c); [|intros _; exact S]. intros _. unfold init_global_order. destruct (pixel_strides_for _ _); try exact S. now apply sinv_init_global.
  - intros I'. apply sinv_on_field; [exact S|exact I'|]. intros f At Sf. pose proof (set_pad_lay zero f p) as (R1 & _ & _ & R4).
    split; [apply (attr_lay f); [exact R1|now rewrite R4|exact At]|]. intros Ini Hb (N & P & L & Cu). apply stored_of_resize; [|exact N].
    apply resize_succeeds; cbn; [unfold unknown; lia|]. destruct At as (_ & Ec & Fc & _). destruct Sf as (_ & _ & _ & _ & -> & _). rewrite Ec.
    pose proof (zprod_pos _ Fc). apply Z.add_nonneg_nonneg; [|exact Se]. apply Z.mul_nonneg_nonneg; [apply Z.mul_nonneg_nonneg; lia|lia].
  - intros I'. apply sinv_on_field; [exact S|exact I'|]. intros f At Sf. pose proof (keep_push_env f v) as (R1 & _ & _).
    split; [|congruence]. apply (attr_lay f); [exact R1|rewrite keep_push_pad; apply At|exact At].
  - intros I'. apply sinv_on_field; [exact S|exact I'|]. intros f At Sf. pose proof (keep_push_single_env f v) as (R1 & _ & _).
    split; [|congruence]. apply (attr_lay f); [exact R1|rewrite keep_push_single_pad; apply At|exact At].
  - intros I'. apply sinv_on_field; [exact S|exact I'|]. intros f At Sf. unfold keep. destruct (field_reshape f shape None) as [f'|e|] eqn:E; cbn [fst]; auto.
    apply reshape_env in E. destruct E as (E1 & E2 & E3 & E4 & E5 & E6 & E7 & E8 & E9 & E10). destruct Se as [Fs Ls].
    split; [unfold attr; rewrite E2, E3, E7; split; [apply At|]; split; [now apply nb_from_shape_exact|auto]|].
    intros _ _ (N & P & L & Cu). unfold stored. destruct E1 as (_ & _ & _ & _ & En & _). rewrite E3, E4, E6, E7, E8, E9, E10, En. rewrite E4 in E5.
    split; [exact N|]. split; [exact P|]. split; [|exact Cu]. rewrite L. f_equal.
    transitivity (l_nbuf (f_lay f) * (l_nbc (f_lay f) * l_nsub (f_lay f))); [ring|]. rewrite <- E5. ring.
  - unfold reshape_tag. destruct (lookup name (c_fields c)) as [r|] eqn:L; [|intros _; exact S]. cbn zeta.
    destruct (touch_tag_same c tag) as (_ & _ & Ei & _ & En & _ & _ & _ & Ef).
    destruct (field_reshape (rf_field r) shape _) as [f'|e|] eqn:E; cbn [fst]; intros I';
      try (apply (sinv_same_fields strict c); auto; intros; apply touch_tag_number).
    apply reshape_env in E. destruct E as (E1 & E2 & E3 & E4 & E5 & E6 & E7 & E8 & E9 & E10). destruct Se as (Fs & Ls & Hst).
    assert (S' := S). destruct S' as (I & T & B & H). destruct (H _ _ L) as [At St].
    apply (sinv_insert strict c); auto; [intros; apply touch_tag_number| |]; cbn [rf_field].
    + unfold attr. rewrite E2, E3, E7. split; [apply At|]. split; [now apply nb_from_shape_exact|auto].
    + intros Ini. destruct (St Ini) as (N & P & Ln & Cu). rewrite sub_pts_touch in E4. rewrite E4 in E5.
      assert (Ps : 0 < get_nb_from_shape shape) by (rewrite nb_from_shape_exact by assumption; now apply zprod_pos).
      assert (Pc : 0 < l_nbc (f_lay (rf_field r))) by (destruct At as (_ & -> & Fc & _); now apply zprod_pos).
      assert (Pk : 0 < sub_pts_of c tag).
      { apply (Z.mul_pos_cancel_l _ _ Ps). rewrite E5. now apply Z.mul_pos_pos. }
      unfold stored. destruct E1 as (_ & _ & _ & _ & En' & _). rewrite E3, E4, E6, E7, E8, E9, E10, En'.
      split; [exact Pk|]. split; [exact P|]. split.
      * rewrite Ln. f_equal. transitivity (l_nbuf (f_lay (rf_field r)) * (l_nbc (f_lay (rf_field r)) * l_nsub (f_lay (rf_field r)))); [ring|]. rewrite <- E5. ring.
      * intros Hs. rewrite (Hst Hs Ini r); [now apply Cu|]. unfold get_field. now rewrite L.
  - intros I'. apply sinv_on_field; [exact S|exact I'|]. intros f At Sf. unfold keep. destruct (wr (f_vals f) i x) as [w|e|] eqn:E; cbn; auto.
    split; [exact At|]. intros _ _ (N & P & L & Cu). apply wr_length in E. unfold stored, with_vals; cbn. rewrite E. auto.
Qed.

Lemma run_sinv strict zero h : forall c, sinv strict c -> sensible_history zero strict c h -> sinv strict (run zero c h).
Proof.
  unfold run. induction h as [|o h IH]; intros c S H; cbn [fold_left sensible_history] in *; [exact S|].
  destruct H as [H1 H2]. apply IH; [now apply step_sinv|exact H2].
Qed.

Lemma build_map_lookup_aux (l : list (string * Z)) : forall m k v, lookup k (fold_left (fun m p => match lookup (fst p) m with Some _ => m | None => insert (fst p) (snd p) m end) l m) = Some v ->
  lookup k m = Some v \/ In (k, v) l.
Proof.
  induction l as [|[x w] l IH]; intros m k v; cbn [fold_left fst snd]; [auto|]. intros H. apply IH in H.
  destruct H as [H|H]; [|right; now right]. destruct (lookup x m) eqn:E; [auto|]. rewrite lookup_insert in H.
  destruct (String.eqb_spec k x) as [->|]; [|auto]. injection H as <-. right. now left.
Qed.

Lemma new_coll_sinv strict glob order tags c : new_coll glob order tags = Ok c -> positive_tags tags -> sinv strict c.
Proof.
  intros N P. destruct (new_coll_spec _ _ _ _ N) as (I & Px & F & _ & _ & Ini & _ & T). split; [exact I|]. split.
  - intros tag n Ht. destruct (String.eqb_spec tag pixel_tag) as [->|Nt]; [rewrite Px in Ht; injection Ht as <-; lia|].
    rewrite (T tag Nt) in Ht. destruct (lookup tag (build_map tags)) as [m|] eqn:L; [|discriminate].
    destruct (m =? unknown); [discriminate|]. injection Ht as <-. unfold build_map in L. apply build_map_lookup_aux in L.
    destruct L as [L|L]; [discriminate|]. unfold positive_tags in P. rewrite Forall_forall in P. now apply (P _ L).
  - rewrite Ini. split; [congruence|]. rewrite F. cbn. discriminate.
Qed.

Lemma sensibly_sinv strict zero c : sensibly_reachable zero strict c -> sinv strict c.
Proof. intros (g & o & t & c0 & h & N & P & Sh & ->). apply run_sinv; [|exact Sh]. eapply new_coll_sinv; eassumption. Qed.

Lemma sensibly_ready zero c k r : sensibly_reachable zero true c -> c_init c = true -> good_pixels c ->
  get_field c k = Ok r -> ready (rf_field r).
Proof.
  intros Sr Ini (Ho & Em & Np & Hn) G. apply sensibly_sinv in Sr. destruct Sr as ((_ & I) & T & B & H).
  unfold get_field in G. destruct (lookup k (c_fields c)) as [r0|] eqn:L; [|discriminate]. apply Ok_inj in G; subst r0.
  destruct (I _ _ L) as [Se Ns]. destruct (H _ _ L) as [(A1 & A2 & A3 & A4) St]. destruct (St Ini) as (N & P & Ln & Cu).
  destruct Se as (S1 & S2 & S3 & S4 & S5 & S6 & S7). unfold ready, sane, buffer_scalars. rewrite S1, S2, S3, S4, S5, S7.
  rewrite S5 in Ln, Cu. split; [auto 10|]. split; [exact Ini|]. split; [exact P|]. split; [exact A1|]. split; [exact Np|]. split; [exact Hn|].
  split; [auto|]. rewrite Ln. f_equal.
Qed.
End Reg.
