(** History of state fields. *)
From Coq Require Import String NArith.
From Verif Require Import Base CIntModel GridModel GridSpec StridedModel UnitsModel LayoutModel LayoutSpec LayoutProofs.
From Verif Require Import FieldModel FieldSpec FieldProofs RegistryModel RegistrySpec RegistryProofs RegistryProofs2 RegistryProofs3 RegistryProofs4.
From Verif Require Import StateModel StateSpec StateProofs.
Local Open Scope Z_scope.
Local Open Scope list_scope.

Section S.
Context {A : Type}.
Implicit Types (c : coll A) (y : sys A).

(** A field of an initialised collection that knows its sub-points. *)
Definition settled c nm (r : rfield A) : Prop :=
  c_init c = true /\ get_field c nm = Ok r /\ tag_number c (rf_tag r) = Some (l_nsub (f_lay (rf_field r))).

Lemma step_init zero c o : c_init c = true -> c_init (fst (step zero c o)) = true.
Proof. intros I. pose proof (init_forever zero [o] c I) as (H & _). cbn in H. congruence. Qed.
Lemma step_known zero c o tag n : tag_number c tag = Some n -> tag_number (fst (step zero c o)) tag = Some n.
Proof. intros T. exact (run_number zero [o] c tag n T). Qed.

Lemma set_nsub_id (r : rfield A) : set_nsub r (l_nsub (f_lay (rf_field r))) = r.
Proof. destruct r as [t u ty f]. destruct f as [l ? ? ? ? ? ? ? ?]. destruct l. reflexivity. Qed.

Lemma step_same zero c o nm r : settled c nm r -> names_field o <> Some nm -> settled (fst (step zero c o)) nm r.
Proof.
  intros (I & G & T) N. split; [now apply step_init|]. split; [|now apply step_known].
  destruct (names_field o) as [nm'|] eqn:E.
  - rewrite (step_isolated zero c o nm nm'); [exact G|exact E|congruence].
  - destruct o; cbn in E; try discriminate.
    + cbn [step]. destruct (set_nb_cases c tag n) as [(_ & -> & _)|(_ & Ht & ->)]; [exact G|]. cbn [fst]. unfold get_field in *. cbn [with_fields c_fields].
      assert (Lm : forall l, lookup nm (map_fields (fun r : rfield A => if String.eqb (rf_tag r) tag then set_nsub r n else r) l) =
        option_map (fun r : rfield A => if String.eqb (rf_tag r) tag then set_nsub r n else r) (lookup nm l)).
      { induction l as [|[k v] l IH]; [reflexivity|]. cbn. destruct (String.eqb nm k); [reflexivity|exact IH]. }
      rewrite Lm. destruct (lookup nm (c_fields c)) as [r0|]; [|discriminate]. apply Ok_inj in G. subst r0. cbn [option_map].
      destruct (String.eqb_spec (rf_tag r) tag) as [Et|]; [|reflexivity]. rewrite Et in T. assert (n = l_nsub (f_lay (rf_field r))) as -> by (destruct Ht; congruence).
      now rewrite set_nsub_id.
    + cbn [step]. destruct (c_glob c); [exact G|]. unfold add_pixel. rewrite I. exact G.
    + destruct (double_init zero c OInitLocal I Logic.I) as [-> _]. exact G.
    + destruct (double_init zero c (OInitGlobal nd nsd loc pstr) I Logic.I) as [-> _]. exact G.
    + destruct (double_init zero c (OInitGlobalOrder nd nsd loc o) I Logic.I) as [-> _]. exact G.
Qed.

Lemma register_same zero c nm r n ty comp tag u : settled c nm r -> settled (fst (register_field zero c n ty comp tag u false)) nm r.
Proof.
  intros S. destruct (string_dec n nm) as [->|N].
  - destruct S as (I & G & T). destruct (register_existing zero c nm ty comp tag u false r G) as [-> _]. repeat split; auto.
  - apply (step_same zero c (ORegister n ty comp tag u false) nm r S). cbn. congruence.
Qed.

Lemma subs_same zero nm r ty nbc tag u ns : forall c, settled c nm r -> settled (fst (register_subs zero c ns ty nbc tag u)) nm r.
Proof.
  induction ns as [|n ns IH]; intros c S; [exact S|]. cbn [register_subs].
  pose proof (register_same zero c nm r n ty (inl nbc) tag u S) as S'. destruct (register_field zero c n ty (inl nbc) tag u false) as [c' [u'|e|]]; cbn [fst] in *; auto.
Qed.

Lemma touch_settled c nm r tag : settled c nm r -> settled (touch_tag c tag) nm r.
Proof.
  intros (I & G & T). destruct (touch_tag_same c tag) as (_ & _ & F1 & _ & _ & _ & _ & _ & F2).
  split; [congruence|]. split; [unfold get_field in *; now rewrite F2|now rewrite touch_tag_number].
Qed.

Lemma register_state_same zero y prefix ty mem nbc tag u allow nm r : settled (y_coll y) nm r ->
  settled (y_coll (fst (register_state zero y prefix ty mem nbc tag u allow))) nm r.
Proof.
  intros S. unfold register_state. destruct (lookup prefix (y_states y)).
  - destruct allow; [|exact S]. repeat match goal with |- context [if ?b then _ else _] => destruct b; [exact S|] end. exact S.
  - cbn zeta. apply (touch_settled _ _ _ tag) in S. destruct (mem <? 1); [exact S|].
    pose proof (subs_same zero nm r ty nbc tag u (sub_names prefix mem) _ S) as S'. destruct (register_subs zero _ _ _ _ _ _) as [c' [u'|e|]]; cbn [fst y_coll] in *; exact S'.
Qed.

Lemma name_at_name y p k n : name_at y p k = Ok n -> exists j, n = sub_name p j.
Proof.
  unfold name_at. destruct (get_state y p); cbn [bind]; try discriminate. destruct (slot a k); cbn [bind]; try discriminate.
  intros E. apply Ok_inj in E. eauto.
Qed.

(** One step, seen from a sub-field. *)
Lemma sstep_same zero y o p mem nm r : In nm (sub_names p mem) -> leaves_alone p mem o -> settled (y_coll y) nm r ->
  (forall i x, o = SWrite p i x -> name_at y p 0 <> Ok nm) -> settled (y_coll (fst (sstep zero y o))) nm r.
Proof.
  intros I L S W. destruct o as [prefix ty m nbc tag u allow|prefix|prefix i x|o]; cbn [sstep].
  - now apply register_state_same.
  - destruct (lookup prefix (y_states y)); exact S.
  - destruct (name_at y prefix 0) as [n| |] eqn:E; [|exact S|exact S].
    assert (N : nm <> n).
    { intros ->. destruct (string_dec prefix p) as [->|Np]; [now apply (W i x)|]. apply name_at_name in E. destruct E as [j ->].
      apply in_sub_names in I. destruct I as (k & _ & E). apply sub_name_inj in E. destruct E. congruence. }
    pose proof (step_same zero _ (OWrite n i x) nm r S) as X. destruct (step zero (y_coll y) (OWrite n i x)) as [c' o]. cbn [fst y_coll] in *. apply X. cbn. congruence.
  - pose proof (step_same zero _ o nm r S) as X. destruct (step zero (y_coll y) o) as [c' o']. cbn [fst y_coll] in *. apply X. intros E. exact (L _ E I).
Qed.

(** ** The entry of a state field *)
Definition rotated (s : sfield) (t : Z) : sfield :=
  mk_sfield (s_mem s) (s_nbc s) (s_tag s) (s_unit s) (s_type s) (map (fun v => (v + t) mod (s_mem s + 1)) (s_idx s)).
Definition in_range (s : sfield) : Prop := 1 <= s_mem s /\ Forall (fun v => 0 <= v <= s_mem s) (s_idx s).

Lemma rotated_0 s : in_range s -> rotated s 0 = s.
Proof.
  intros (H & F). destruct s as [m n t u ty l]. unfold rotated; cbn in *. f_equal. induction F as [|v l Hv F IH]; [reflexivity|]. cbn. rewrite IH. f_equal. rewrite Z.add_0_r. apply Z.mod_small. lia.
Qed.
Lemma rotated_rotated s a b : 1 <= s_mem s -> rotated (rotated s a) b = rotated s (a + b).
Proof.
  intros H. unfold rotated; cbn. f_equal. rewrite map_map. apply map_ext. intros v. rewrite Zplus_mod_idemp_l. f_equal. lia.
Qed.
Lemma cycled_rotated s : cycled s = rotated s 1.
Proof. reflexivity. Qed.
Lemma in_range_rotated s t : 1 <= s_mem s -> in_range (rotated s t).
Proof. intros H. split; [exact H|]. cbn. apply Forall_map, Forall_forall. intros v _. pose proof (Z.mod_pos_bound (v + t) (s_mem s + 1) ltac:(lia)). lia. Qed.

Lemma sstep_state zero y o p s : lookup p (y_states y) = Some s ->
  lookup p (y_states (fst (sstep zero y o))) = Some (match o with SCycle q => if String.eqb q p then cycled s else s | _ => s end).
Proof.
  intros L. destruct o as [prefix ty m nbc tag u allow|prefix|prefix i x|o]; cbn [sstep].
  - unfold register_state. destruct (lookup prefix (y_states y)) eqn:E.
    + destruct allow; [|exact L]. repeat match goal with |- context [if ?b then _ else _] => destruct b; [exact L|] end. exact L.
    + cbn zeta. destruct (m <? 1); [exact L|]. destruct (register_subs zero _ _ _ _ _ _) as [c' [u'|e|]]; cbn [fst y_states]; try exact L.
      rewrite lookup_insert. destruct (String.eqb_spec p prefix); [congruence|exact L].
  - destruct (String.eqb_spec prefix p) as [->|N].
    + rewrite L. cbn [fst y_states]. now rewrite lookup_insert_same.
    + destruct (lookup prefix (y_states y)); cbn [fst y_states]; [|exact L]. rewrite lookup_insert_other by congruence. exact L.
  - destruct (name_at y prefix 0); try exact L. destruct (step zero _ _); exact L.
  - destruct (step zero _ _); exact L.
Qed.

Lemma srun_state zero p h : forall y s, in_range s -> lookup p (y_states y) = Some s ->
  lookup p (y_states (srun zero y h)) = Some (rotated s (Z.of_nat (cycles p h))).
Proof.
  unfold srun. induction h as [|o h IH]; intros y s R L; cbn [fold_left]; [change (Z.of_nat (cycles p [])) with 0; now rewrite rotated_0|].
  apply (sstep_state zero y o) in L. destruct R as [R1 R2]. assert (In1 : in_range s) by (split; auto).
  destruct o as [prefix ty m nbc tag u allow|prefix|prefix i x|o]; try (apply (IH _ _ In1) in L; exact L).
  unfold cycles; cbn [filter]. destruct (String.eqb prefix p).
  - rewrite cycled_rotated in L. apply IH in L; [|now apply in_range_rotated]. rewrite L, rotated_rotated by exact R1. f_equal. f_equal. unfold cycles. cbn [length]. lia.
  - apply (IH _ _ In1) in L. exact L.
Qed.

(** Facts of all reachable systems. *)
Definition states_ok y : Prop := forall p s, lookup p (y_states y) = Some s -> 1 <= s_mem s /\ exists t, 0 <= t /\
  s_idx s = map (fun v => (v + t) mod (s_mem s + 1)) (init_indices (s_mem s)).

Lemma subs_inv zero ty nbc tag u ns : forall c, inv c -> inv (fst (register_subs zero c ns ty nbc tag u)).
Proof.
  induction ns as [|n ns IH]; intros c S; [exact S|]. cbn [register_subs].
  pose proof (step_inv zero c (ORegister n ty (inl nbc) tag u false) S) as S'. cbn [step] in S'. destruct (register_field zero c n ty (inl nbc) tag u false) as [c' [u'|e|]]; cbn [fst] in *; auto.
Qed.

Lemma sstep_ok zero y o : inv (y_coll y) -> states_ok y -> inv (y_coll (fst (sstep zero y o))) /\ states_ok (fst (sstep zero y o)).
Proof.
  intros I S. destruct o as [prefix ty m nbc tag u allow|prefix|prefix i x|o]; cbn [sstep].
  - unfold register_state. destruct (lookup prefix (y_states y)) eqn:E.
    + destruct allow; [|auto]. repeat match goal with |- context [if ?b then _ else _] => destruct b; [auto|] end. auto.
    + cbn zeta. pose proof (inv_touch _ tag I) as I1. destruct (Z.ltb_spec m 1); [split; [exact I1|exact S]|].
      pose proof (subs_inv zero ty nbc tag u (sub_names prefix m) _ I1) as I2. destruct (register_subs zero _ _ _ _ _ _) as [c' [u'|e|]]; cbn [fst y_coll] in *; (split; [exact I2|]); try exact S.
      intros p s. cbn [y_states]. rewrite lookup_insert. destruct (String.eqb p prefix); [|apply S]. intros H0. injection H0 as <-. cbn. split; [lia|]. exists 0. split; [lia|].
      rewrite <- (map_id (init_indices m)) at 1. apply map_ext_in. intros v Hv. apply init_in_range in Hv; [|lia]. rewrite Z.add_0_r, Z.mod_small; lia.
  - destruct (lookup prefix (y_states y)) as [s0|] eqn:E; [|auto]. cbn [fst y_coll]. split; [exact I|]. intros p s. cbn [y_states]. rewrite lookup_insert.
    destruct (String.eqb p prefix); [|apply S]. intros H; injection H as <-. destruct (S _ _ E) as (H1 & t & Ht & Hi). cbn. split; [exact H1|]. exists (t + 1). split; [lia|].
    rewrite Hi, map_map. apply map_ext. intros v. rewrite Zplus_mod_idemp_l. f_equal. lia.
  - destruct (name_at y prefix 0) as [n| |]; auto. pose proof (step_inv zero (y_coll y) (OWrite n i x) I). destruct (step zero _ _); auto.
  - pose proof (step_inv zero (y_coll y) o I). destruct (step zero _ _); auto.
Qed.

Lemma sreachable_ok zero y : sreachable zero y -> inv (y_coll y) /\ states_ok y.
Proof.
  intros (g & o & t & c0 & h & N & ->). assert (I : inv (y_coll (mk_sys c0 [])) /\ states_ok (mk_sys c0 [])) by (split; [cbn; now apply new_coll_spec in N|intros p s H; discriminate]).
  revert I. generalize (mk_sys c0 []). unfold srun. induction h as [|x h IH]; intros y I; [exact I|]. cbn [fold_left]. apply IH. now apply sstep_ok.
Qed.

Lemma idx_rotated s t i : s_idx s = map (fun v => (v + t) mod (s_mem s + 1)) (init_indices (s_mem s)) -> 1 <= s_mem s -> power_of_two (s_mem s + 1) ->
  (i <= Z.to_nat (s_mem s))%nat -> nth_error (s_idx s) i = Some ((t - Z.of_nat i) mod (s_mem s + 1)).
Proof.
  intros E H P L. rewrite E, nth_error_map, init_pow2 by (auto; lia). cbn [option_map]. rewrite Zplus_mod_idemp_l. f_equal. f_equal. lia.
Qed.
Lemma idx_length s t : s_idx s = map (fun v => (v + t) mod (s_mem s + 1)) (init_indices (s_mem s)) -> 0 <= s_mem s -> length (s_idx s) = Z.to_nat (s_mem s + 1).
Proof. intros -> H. rewrite map_length. now apply init_length. Qed.

Lemma states_in_range y p s : states_ok y -> lookup p (y_states y) = Some s -> in_range s.
Proof. intros S L. destruct (S _ _ L) as (H & t & _ & E). split; [exact H|]. rewrite E. apply Forall_map, Forall_forall. intros v _. pose proof (Z.mod_pos_bound (v + t) (s_mem s + 1) ltac:(lia)). lia. Qed.

(** Sub-fields stay settled along histories, and those that are never current
    keep their scalars. *)
Lemma srun_same zero p mem nm h : forall y r, In nm (sub_names p mem) -> Forall (leaves_alone p mem) h -> settled (y_coll y) nm r ->
  (forall h1 h2, h = h1 ++ h2 -> name_at (srun zero y h1) p 0 <> Ok nm) -> settled (y_coll (srun zero y h)) nm r.
Proof.
  unfold srun. induction h as [|o h IH]; intros y r I F S W; [exact S|]. cbn [fold_left]. apply Forall_cons_iff in F. destruct F as [F1 F2]. apply IH; auto.
  - apply (sstep_same zero y o p mem nm r I F1 S). intros i x _. exact (W [] (o :: h) eq_refl).
  - intros h1 h2 ->. exact (W (o :: h1) h2 eq_refl).
Qed.

Lemma holds_settled zero y p mem nm : sreachable zero y -> c_init (y_coll y) = true -> holds_state y p mem -> In nm (sub_names p mem) ->
  exists r, settled (y_coll y) nm r.
Proof.
  intros R Ini [_ H] I. destruct (H _ I) as (r & G & N). exists r. split; [exact Ini|]. split; [exact G|]. apply sreachable_ok in R. destruct R as [[_ R] _].
  unfold get_field in G. destruct (lookup nm (c_fields (y_coll y))) as [r0|] eqn:L; [|discriminate]. apply Ok_inj in G; subst r0.
  destruct (R _ _ L) as [_ E]. unfold has_nsub in N. unfold sub_pts_of in E. destruct (tag_number (y_coll y) (rf_tag r)) as [n|]; [congruence|].
  rewrite E in N. discriminate.
Qed.

Lemma name_at_spec y p s k v : lookup p (y_states y) = Some s -> nth_error (s_idx s) k = Some v -> name_at y p k = Ok (sub_name p (Z.to_nat v)).
Proof. intros L N. unfold name_at, get_state, slot. rewrite L. cbn [bind]. rewrite N. reflexivity. Qed.

Lemma mod_neq a b m : 0 < m -> 0 < b - a < m -> a mod m <> b mod m.
Proof.
  intros Hm H E. assert (X : (b - a) mod m = 0) by (rewrite Zminus_mod, E, Z.sub_diag; apply Z.mod_0_l; lia). rewrite Z.mod_small in X by lia. lia.
Qed.

Lemma cycles_app (p : string) (h1 h2 : list (sop A)) : cycles p (h1 ++ h2) = (cycles p h1 + cycles p h2)%nat.
Proof. unfold cycles. rewrite filter_app, app_length. reflexivity. Qed.

(** The main statement: what is current now is [old k] after [k] cycles. *)
Lemma replay zero y p mem k h : sreachable zero y -> c_init (y_coll y) = true -> holds_state y p mem -> power_of_two (mem + 1) ->
  Forall (leaves_alone p mem) h -> cycles p h = (k - 1)%nat -> (1 <= k <= Z.to_nat mem)%nat ->
  field_at (srun zero y (SCycle p :: h)) p k = field_at y p 0 /\ is_ok (field_at y p 0) = true.
Proof.
  intros R Ini H P F C K. pose proof (sreachable_ok zero y R) as [_ SO]. destruct H as [(s & G & Em) Hs]. unfold get_state in G.
  destruct (lookup p (y_states y)) as [s0|] eqn:L; [|discriminate]. apply Ok_inj in G; subst s0. destruct (SO _ _ L) as (M1 & t & Ht & Ei). subst mem.
  set (m := s_mem s) in *. assert (Z0 : nth_error (s_idx s) 0 = Some (t mod (m + 1))) by (rewrite (idx_rotated s t 0 Ei M1 P ltac:(lia)); f_equal; f_equal; lia).
  set (nm := sub_name p (Z.to_nat (t mod (m + 1)))).
  pose proof (Z.mod_pos_bound t (m + 1) ltac:(lia)) as Bt.
  assert (Inm : In nm (sub_names p m)) by (apply in_sub_names; exists (Z.to_nat (t mod (m + 1))); split; [lia|reflexivity]).
  assert (N0 : name_at y p 0 = Ok nm) by (eapply name_at_spec; eassumption).
  destruct (holds_settled zero y p m nm R Ini) as (r & St); [split; [exists s; unfold get_state; rewrite L; auto|exact Hs]|exact Inm|].
  assert (Rg : in_range s) by (eapply states_in_range; eassumption).
  assert (Idx : forall hh j, (j <= Z.to_nat m)%nat -> name_at (srun zero y hh) p j = Ok (sub_name p (Z.to_nat ((t + Z.of_nat (cycles p hh) - Z.of_nat j) mod (m + 1))))).
  { intros hh j Hj. pose proof (srun_state zero p hh y s Rg L) as Lh. eapply name_at_spec; [exact Lh|]. cbn [rotated s_idx]. rewrite nth_error_map, (idx_rotated s t j Ei M1 P Hj). cbn [option_map].
    fold m. rewrite Zplus_mod_idemp_l. f_equal. f_equal. lia. }
  assert (St2 : settled (y_coll (srun zero y (SCycle p :: h))) nm r).
  { change (srun zero y (SCycle p :: h)) with (srun zero (fst (sstep zero y (SCycle p))) h). eapply srun_same; [exact Inm|exact F| |].
    - cbn [sstep]. rewrite L. exact St.
    - intros h1 h2 ->. change (srun zero (fst (sstep zero y (SCycle p))) h1) with (srun zero y (SCycle p :: h1)). rewrite Idx by lia.
      intros X. apply Ok_inj in X. unfold nm in X. apply sub_name_inj in X. destruct X as [_ X].
      assert (cycles p (SCycle p :: h1) = S (cycles p h1)) as Y by (unfold cycles; cbn; now rewrite String.eqb_refl). rewrite Y in X. rewrite cycles_app in C.
      pose proof (Z.mod_pos_bound (t + Z.of_nat (S (cycles p h1)) - Z.of_nat 0) (m + 1) ltac:(lia)).
      apply (mod_neq t (t + Z.of_nat (S (cycles p h1)) - Z.of_nat 0) (m + 1)); lia. }
  assert (Nk : name_at (srun zero y (SCycle p :: h)) p k = Ok nm).
  { rewrite Idx by lia. unfold nm. assert (cycles p (SCycle p :: h) = k) as -> by (unfold cycles in *; cbn; rewrite String.eqb_refl; cbn; lia).
    f_equal. f_equal. f_equal. f_equal. lia. }
  unfold field_at. rewrite N0, Nk. cbn [bind]. destruct St as (_ & G1 & _), St2 as (_ & G2 & _). unfold get_field in G1, G2.
  destruct (lookup nm (c_fields (y_coll y))); [|discriminate]. destruct (lookup nm (c_fields (y_coll (srun zero y (SCycle p :: h))))); [|discriminate].
  apply Ok_inj in G1, G2. subst. auto.
Qed.
End S.
