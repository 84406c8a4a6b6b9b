(** Registration of state fields and maps over them. *)
From Coq Require Import String NArith.
From Verif Require Import Base CIntModel GridModel GridSpec StridedModel UnitsModel LayoutModel LayoutSpec LayoutProofs.
From Verif Require Import FieldModel FieldSpec FieldProofs FieldProofs2 FieldProofs3 RegistryModel RegistrySpec RegistryProofs RegistryProofs2 RegistryProofs3 RegistryProofs4.
From Verif Require Import StateModel StateSpec StateProofs StateProofs2.
Local Open Scope Z_scope.
Local Open Scope list_scope.

Lemma mapM_len {B C} (g : B -> res C) l : forall l', mapM g l = Ok l' -> length l' = length l.
Proof.
  induction l as [|x r IH]; intros l' H; cbn in H; [apply Ok_inj in H; now subst|]. destruct (g x); cbn [bind] in H; try discriminate.
  destruct (mapM g r) as [ys| |]; cbn [bind] in H; try discriminate. apply Ok_inj in H; subst. cbn. f_equal. auto.
Qed.

Section S.
Context {A : Type}.
Implicit Types (c : coll A) (y : sys A).

(** Registration never changes an existing field. *)
Lemma register_keeps zero c n ty comp tag u nm r : get_field c nm = Ok r -> get_field (fst (register_field zero c n ty comp tag u false)) nm = Ok r.
Proof.
  intros G. destruct (string_dec nm n) as [->|N]; [now destruct (register_existing zero c n ty comp tag u false r G) as [-> _]|].
  pose proof (step_isolated zero c (ORegister n ty comp tag u false) nm n eq_refl N) as E. cbn [step] in E. congruence.
Qed.
Lemma subs_keeps zero nm r ty nbc tag u ns : forall c, get_field c nm = Ok r -> get_field (fst (register_subs zero c ns ty nbc tag u)) nm = Ok r.
Proof.
  induction ns as [|n ns IH]; intros c G; [exact G|]. cbn [register_subs].
  pose proof (register_keeps zero c n ty (inl nbc) tag u nm r G) as G'. destruct (register_field zero c n ty (inl nbc) tag u false) as [c' [u'|e|]]; cbn [fst] in *; auto.
Qed.
Lemma subs_others zero nm ty nbc tag u ns : forall c, ~ In nm ns -> get_field (fst (register_subs zero c ns ty nbc tag u)) nm = get_field c nm.
Proof.
  induction ns as [|n ns IH]; intros c N; [reflexivity|]. cbn [register_subs].
  assert (X : get_field (fst (register_field zero c n ty (inl nbc) tag u false)) nm = get_field c nm).
  { apply (step_isolated zero c (ORegister n ty (inl nbc) tag u false) nm n); [reflexivity|]. intros ->. apply N. now left. }
  destruct (register_field zero c n ty (inl nbc) tag u false) as [c' [u'|e|]]; cbn [fst] in *; try exact X.
  rewrite IH; [exact X|]. intros I. apply N. now right.
Qed.

Lemma subs_spec zero ty nbc tag u ns : forall c, snd (register_subs zero c ns ty nbc tag u) = Ok tt ->
  forall nm, In nm ns -> exists r, get_field (fst (register_subs zero c ns ty nbc tag u)) nm = Ok r /\ as_requested r ty nbc tag u (sub_pts_of c tag).
Proof.
  induction ns as [|n ns IH]; intros c H nm I; [destruct I|]. cbn [register_subs] in *.
  destruct (lookup n (c_fields c)) as [r0|] eqn:L.
  { destruct (register_existing zero c n ty (inl nbc) tag u false r0) as [_ X]; [unfold get_field; now rewrite L|].
    destruct (register_field zero c n ty (inl nbc) tag u false) as [c' [[]|e|]]; cbn [snd fst] in *; try discriminate.
    destruct X as [X _]. destruct (X eq_refl) as [X1 _]. discriminate. }
  pose proof (register_fresh zero c n ty (inl nbc) tag u false L) as F. pose proof (register_number zero c n ty (inl nbc) tag u false tag) as T.
  destruct (register_field zero c n ty (inl nbc) tag u false) as [c' [[]|e|]]; cbn [snd fst] in *; try discriminate.
  destruct F as [_ F]. destruct (F eq_refl) as ((r & G & F1 & F2 & F3 & F4 & F5 & _ & F6) & _).
  destruct I as [<-|I].
  - exists r. split; [now apply subs_keeps|]. unfold as_requested. cbn in F4, F5. auto 10.
  - destruct (IH c' H nm I) as (r' & G' & Q). exists r'. split; [exact G'|]. unfold sub_pts_of in *. now rewrite T in Q.
Qed.

Lemma register_state_fresh zero y prefix ty mem nbc tag u allow : get_state y prefix = Err FieldCollectionError ->
  snd (register_state zero y prefix ty mem nbc tag u allow) = Ok tt ->
  let y' := fst (register_state zero y prefix ty mem nbc tag u allow) in
  1 <= mem /\ get_state y' prefix = Ok (mk_sfield mem nbc tag u ty (init_indices mem)) /\
  (forall nm, In nm (sub_names prefix mem) -> exists r, get_field (y_coll y') nm = Ok r /\ as_requested r ty nbc tag u (sub_pts_of (y_coll y) tag)) /\
  (forall nm, ~ In nm (sub_names prefix mem) -> get_field (y_coll y') nm = get_field (y_coll y) nm) /\
  (forall q, q <> prefix -> get_state y' q = get_state y q).
Proof.
  intros G H. unfold get_state in *. unfold register_state in *. destruct (lookup prefix (y_states y)) eqn:L; [discriminate|]. cbn zeta in *.
  destruct (Z.ltb_spec mem 1); [discriminate|]. set (c1 := touch_tag (y_coll y) tag) in *.
  pose proof (subs_spec zero ty nbc tag u (sub_names prefix mem) c1) as S. pose proof (fun nm => subs_others zero nm ty nbc tag u (sub_names prefix mem) c1) as O.
  destruct (register_subs zero c1 (sub_names prefix mem) ty nbc tag u) as [c2 [[]|e|]]; cbn [snd fst y_coll y_states] in *; try discriminate.
  split; [lia|]. split; [now rewrite lookup_insert_same|]. split; [|split].
  - intros nm I. destruct (S eq_refl nm I) as (r & G1 & Q). exists r. split; [exact G1|]. unfold c1 in Q. now rewrite sub_pts_touch in Q.
  - intros nm N. rewrite O by exact N. unfold get_field, c1. destruct (touch_tag_same (y_coll y) tag) as (_ & _ & _ & _ & _ & _ & _ & _ & ->). reflexivity.
  - intros q N. now rewrite lookup_insert_other.
Qed.

Lemma register_state_existing zero y prefix ty mem nbc tag u allow s : get_state y prefix = Ok s ->
  fst (register_state zero y prefix ty mem nbc tag u allow) = y /\
  (snd (register_state zero y prefix ty mem nbc tag u allow) = Ok tt <->
   allow = true /\ s_type s = ty /\ s_mem s = mem /\ s_nbc s = nbc /\ s_tag s = tag /\ unit_eqb (s_unit s) u = true).
Proof.
  unfold get_state. destruct (lookup prefix (y_states y)) as [s0|] eqn:L; [|discriminate]. intros E; apply Ok_inj in E; subst s0.
  unfold register_state. rewrite L. rewrite <- ftype_eqb_spec, <- (String.eqb_eq (s_tag s)), <- (Z.eqb_eq (s_mem s)), <- (Z.eqb_eq (s_nbc s)).
  destruct allow; [|split; [reflexivity|split; [discriminate|intros [X _]; discriminate]]].
  destruct (ftype_eqb (s_type s) ty); cbn [negb]; [|split; [reflexivity|split; [discriminate|intros (_ & X & _); discriminate]]].
  destruct (s_mem s =? mem); cbn [negb]; [|split; [reflexivity|split; [discriminate|intros (_ & _ & X & _); discriminate]]].
  destruct (s_nbc s =? nbc); cbn [negb]; [|split; [reflexivity|split; [discriminate|intros (_ & _ & _ & X & _); discriminate]]].
  destruct (String.eqb (s_tag s) tag); cbn [negb]; [|split; [reflexivity|split; [discriminate|intros (_ & _ & _ & _ & X & _); discriminate]]].
  destruct (unit_eqb (s_unit s) u); cbn [negb]; [|split; [reflexivity|split; [discriminate|intros (_ & _ & _ & _ & _ & X); discriminate]]].
  split; [reflexivity|]. split; auto 10.
Qed.

(** ** Evolution of a sub-field: only its scalars change. *)
Lemma with_vals_id (f : field A) : with_vals f (f_vals f) = f.
Proof. destruct f; reflexivity. Qed.
Lemma set_field_id (r : rfield A) : set_field r (rf_field r) = r.
Proof. destruct r; reflexivity. Qed.

Lemma write_settled zero c nm r i x : settled c nm r -> exists v, settled (fst (step zero c (OWrite nm i x))) nm (set_field r (with_vals (rf_field r) v)).
Proof.
  intros (I & G & T). unfold get_field in G. destruct (lookup nm (c_fields c)) as [r0|] eqn:L; [|discriminate]. apply Ok_inj in G; subst r0.
  destruct (wr (f_vals (rf_field r)) i x) as [w|e|] eqn:W; [exists w|exists (f_vals (rf_field r))|exists (f_vals (rf_field r))];
  (split; [now apply step_init|]; split; [|apply step_known; exact T]; unfold get_field; cbn [step]; rewrite on_field_lookup, String.eqb_refl, L; cbn [option_map]; unfold keep; rewrite W; cbn [bind fst]);
  rewrite ?with_vals_id; reflexivity.
Qed.

Lemma sstep_evolves zero y o p mem nm r : In nm (sub_names p mem) -> leaves_alone p mem o -> settled (y_coll y) nm r ->
  exists v, settled (y_coll (fst (sstep zero y o))) nm (set_field r (with_vals (rf_field r) v)).
Proof.
  intros I L S.
  assert (W : forall i x, (exists j, o = SWrite p i x /\ name_at y p 0 = Ok j /\ j = nm) -> exists v, settled (y_coll (fst (sstep zero y o))) nm (set_field r (with_vals (rf_field r) v))).
  { intros i x (j & -> & E & ->). cbn [sstep]. rewrite E. destruct (write_settled zero _ nm r i x S) as [v V]. exists v. destruct (step zero _ _); exact V. }
  assert (D : (exists i x, o = SWrite p i x /\ name_at y p 0 = Ok nm) \/ (forall i x, o = SWrite p i x -> name_at y p 0 <> Ok nm)).
  { destruct o as [| |q i x|]; try (right; intros; discriminate). destruct (string_dec q p) as [->|]; [|right; intros; congruence].
    destruct (name_at y p 0) as [n| |] eqn:E; try (right; intros; discriminate). destruct (string_dec n nm) as [->|]; [left; eauto|right; congruence]. }
  destruct D as [(i & x & D1 & D2)|D]; [apply (W i x); eauto|]. exists (f_vals (rf_field r)). rewrite with_vals_id, set_field_id. eapply sstep_same; eassumption.
Qed.

Lemma srun_evolves zero p mem nm h : forall y r, In nm (sub_names p mem) -> Forall (leaves_alone p mem) h -> settled (y_coll y) nm r ->
  exists v, settled (y_coll (srun zero y h)) nm (set_field r (with_vals (rf_field r) v)).
Proof.
  unfold srun. induction h as [|o h IH]; intros y r I F S; [exists (f_vals (rf_field r)); now rewrite with_vals_id, set_field_id|].
  cbn [fold_left]. apply Forall_cons_iff in F. destruct F as [F1 F2]. destruct (sstep_evolves zero y o p mem nm r I F1 S) as [v V].
  destruct (IH _ _ I F2 V) as [w Hw]. exists w. exact Hw.
Qed.

(** ** Maps *)
Lemma make_maps_nth (fs : list (field A)) u rows : forall ms, make_maps fs u rows = Ok ms -> length ms = length fs /\
  forall j f, nth_error fs j = Some f -> exists m, nth_error ms j = Some m /\ new_map f u (Some rows) = Ok m.
Proof.
  induction fs as [|f fs IH]; intros ms H; cbn in H; [apply Ok_inj in H; subst; split; [reflexivity|intros [|j] f; discriminate]|].
  destruct (new_map f u (Some rows)) as [m| |] eqn:E; cbn [bind] in H; try discriminate. destruct (make_maps fs u rows) as [ms'| |]; cbn [bind] in H; try discriminate.
  apply Ok_inj in H; subst ms. destruct (IH _ eq_refl) as [L N]. split; [cbn; lia|]. intros [|j] g G; cbn in *; [injection G as <-; eauto|auto].
Qed.

Lemma sub_fields_nth y p mem fs : sub_fields y p mem = Ok fs -> forall j, (j < Z.to_nat (mem + 1))%nat ->
  exists r, get_field (y_coll y) (sub_name p j) = Ok r /\ nth_error fs j = Some (rf_field r).
Proof.
  unfold sub_fields, sub_names. generalize (Z.to_nat (mem + 1)) as n.
  enough (X : forall n a fs, mapM (fun n0 => match lookup n0 (c_fields (y_coll y)) with Some r => Ok (rf_field r) | None => UB end) (map (sub_name p) (seq a n)) = Ok fs ->
    forall j, (j < n)%nat -> exists r, get_field (y_coll y) (sub_name p (a + j)) = Ok r /\ nth_error fs j = Some (rf_field r)) by (intros n H j Hj; exact (X n 0%nat fs H j Hj)).
  clear fs. induction n as [|n IH]; intros a fs H j Hj; [lia|]. cbn [seq map mapM] in H.
  destruct (lookup (sub_name p a) (c_fields (y_coll y))) as [r|] eqn:E; cbn [bind] in H; [|discriminate].
  destruct (mapM _ (map (sub_name p) (seq (S a) n))) as [fs'| |] eqn:M; cbn [bind] in H; try discriminate. apply Ok_inj in H; subst fs.
  destruct j as [|j]; [exists r; rewrite Nat.add_0_r; unfold get_field; rewrite E; auto|]. destruct (IH (S a) fs' M j ltac:(lia)) as (r' & G & N).
  exists r'. rewrite <- Nat.add_succ_comm. auto.
Qed.

Lemma new_smap_facts y p u rows sm : new_smap y p u rows = Ok sm -> sm_prefix sm = p /\ sm_unit sm = u /\ (forall r, rows = Some r -> sm_rows sm = r) /\
  exists s, get_state y p = Ok s /\ forall j, (j < Z.to_nat (s_mem s + 1))%nat ->
    exists r m, get_field (y_coll y) (sub_name p j) = Ok r /\ nth_error (sm_maps sm) j = Some m /\ new_map (rf_field r) u (Some (sm_rows sm)) = Ok m.
Proof.
  unfold new_smap. destruct (get_state y p) as [s| |]; cbn [bind]; try discriminate. destruct (field_at y p 0) as [cur| |]; cbn [bind]; try discriminate.
  set (r := match rows with Some r => r | None => _ end). destruct (sub_fields y p (s_mem s)) as [fs| |] eqn:E; cbn [bind]; try discriminate.
  destruct (make_maps fs u r) as [ms| |] eqn:M; cbn [bind]; try discriminate.
  intros H. assert (sm = mk_smap p u r ms) as ->.
  { destruct rows; [|now apply Ok_inj in H]. destruct (get_stride _ _ _); cbn [bind] in H; try discriminate. destruct (negb _); [discriminate|now apply Ok_inj in H]. }
  split; [reflexivity|]. split; [reflexivity|]. split; [cbn [sm_rows]; intros r1 Er; subst rows; reflexivity|]. exists s. split; [reflexivity|]. intros j Hj. destruct (sub_fields_nth _ _ _ _ E j Hj) as (r' & G & N).
  destruct (make_maps_nth _ _ _ _ M) as [_ X]. destruct (X _ _ N) as (m & X1 & X2). exists r', m. auto.
Qed.

Lemma new_smap_length y p u rows sm s : new_smap y p u rows = Ok sm -> get_state y p = Ok s -> length (sm_maps sm) = Z.to_nat (s_mem s + 1).
Proof.
  unfold new_smap. intros H G. rewrite G in H. cbn [bind] in H. destruct (field_at y p 0) as [cur| |]; cbn [bind] in H; try discriminate.
  set (r := match rows with Some r => r | None => _ end) in H. destruct (sub_fields y p (s_mem s)) as [fs| |] eqn:E; cbn [bind] in H; try discriminate.
  destruct (make_maps fs u r) as [ms| |] eqn:M; cbn [bind] in H; try discriminate.
  assert (sm = mk_smap p u r ms) as ->.
  { destruct rows; [|now apply Ok_inj in H]. destruct (get_stride _ _ _); cbn [bind] in H; try discriminate. destruct (negb _); [discriminate|now apply Ok_inj in H]. }
  cbn. apply make_maps_nth in M. destruct M as [-> _]. unfold sub_fields in E. apply mapM_len in E. rewrite E. unfold sub_names. now rewrite map_length, seq_length.
Qed.

Lemma new_map_with_vals (f : field A) v u rows : new_map (with_vals f v) u rows = new_map f u rows.
Proof. destruct f. reflexivity. Qed.

Lemma entry_from_maps y p s k sm i : get_state y p = Ok s -> sm_prefix sm = p -> in_range s -> length (s_idx s) = Z.to_nat (s_mem s + 1) -> (k <= Z.to_nat (s_mem s))%nat ->
  (forall j, (j < Z.to_nat (s_mem s + 1))%nat -> exists r m, get_field (y_coll y) (sub_name p j) = Ok r /\ nth_error (sm_maps sm) j = Some m /\ new_map (rf_field r) (sm_unit sm) (Some (sm_rows sm)) = Ok m) ->
  smap_entry y sm k i = fresh_entry y p k (sm_unit sm) (sm_rows sm) i.
Proof.
  intros G Ep [M1 Rg] Ln K H. unfold smap_entry, fresh_entry, field_at, name_at, slot. rewrite Ep, G. cbn [bind].
  destruct (nth_error (s_idx s) k) as [j|] eqn:N; [|apply nth_error_None in N; lia]. cbn [bind].
  assert (Hj : 0 <= j <= s_mem s) by (rewrite Forall_forall in Rg; apply Rg; eapply nth_error_In; eassumption).
  destruct (H (Z.to_nat j) ltac:(lia)) as (r & m & G1 & G2 & G3). rewrite G2. unfold get_field in G1.
  destruct (lookup (sub_name p (Z.to_nat j)) (c_fields (y_coll y))); [|discriminate]. apply Ok_inj in G1; subst. cbn [bind]. rewrite G3. reflexivity.
Qed.

Lemma maps_agree zero y p mem u sm h k i s : sreachable zero y -> c_init (y_coll y) = true -> holds_state y p mem ->
  sm_prefix sm = p -> sm_unit sm = u -> get_state y p = Ok s ->
  (forall j, (j < Z.to_nat (s_mem s + 1))%nat ->
    exists r m, get_field (y_coll y) (sub_name p j) = Ok r /\ nth_error (sm_maps sm) j = Some m /\ new_map (rf_field r) u (Some (sm_rows sm)) = Ok m) ->
  Forall (leaves_alone p mem) h -> (k <= Z.to_nat mem)%nat ->
  smap_entry (srun zero y h) sm k i = fresh_entry (srun zero y h) p k u (sm_rows sm) i.
Proof.
  intros R Ini H E1 E2 G X F K. pose proof (sreachable_ok zero y R) as [_ SO].
  destruct (proj1 H) as (s' & G' & Em). rewrite G in G'. apply Ok_inj in G'; subst s'.
  assert (L : lookup p (y_states y) = Some s) by (unfold get_state in G; destruct (lookup p (y_states y)); [apply Ok_inj in G; congruence|discriminate]).
  assert (Rg : in_range s) by (eapply states_in_range; eassumption). destruct (SO _ _ L) as (M1 & t & _ & Ei).
  pose proof (srun_state zero p h y s Rg L) as L'. set (s' := rotated s (Z.of_nat (cycles p h))) in *.
  rewrite <- E2. apply entry_from_maps with (s := s').
  - unfold get_state. now rewrite L'.
  - exact E1.
  - now apply in_range_rotated.
  - cbn. rewrite map_length. apply (idx_length s t Ei). lia.
  - cbn. rewrite Em. exact K.
  - cbn [s' rotated s_mem]. intros j Hj. destruct (X j Hj) as (r & m & G1 & G2 & G3).
    assert (Inm : In (sub_name p j) (sub_names p mem)) by (apply in_sub_names; exists j; split; [rewrite <- Em; exact Hj|reflexivity]).
    destruct (holds_settled zero y p mem (sub_name p j) R Ini H Inm) as (r0 & St). pose proof St as (_ & G0 & _). rewrite G1 in G0. apply Ok_inj in G0; subst r0.
    destruct (srun_evolves zero p mem (sub_name p j) h y r Inm F St) as (v & _ & G4 & _). exists (set_field r (with_vals (rf_field r) v)), m.
    split; [exact G4|]. split; [exact G2|]. cbn [rf_field set_field]. rewrite new_map_with_vals, E2. exact G3.
Qed.

Lemma smap_agrees zero y p mem u rows sm h k i : sreachable zero y -> c_init (y_coll y) = true -> holds_state y p mem -> new_smap y p u rows = Ok sm ->
  Forall (leaves_alone p mem) h -> (k <= Z.to_nat mem)%nat ->
  smap_entry (srun zero y h) sm k i = fresh_entry (srun zero y h) p k u (sm_rows sm) i.
Proof.
  intros R Ini H N. destruct (new_smap_facts _ _ _ _ _ N) as (E1 & E2 & _ & s & G & X). now apply (maps_agree zero y p mem u sm h k i s).
Qed.

Lemma wrapper_agrees y sm i w s : wrapper y sm i = Ok w -> get_state y (sm_prefix sm) = Ok s ->
  smap_entry y sm 0 i = Ok (fst w) /\
  (forall k, (1 <= k <= Z.to_nat (s_mem s))%nat -> wrapper_old w k = smap_entry y sm k i) /\
  (forall k, k = 0%nat \/ (Z.to_nat (s_mem s) < k)%nat -> wrapper_old w k = Err OutOfRange).
Proof.
  unfold wrapper. intros H G. rewrite G in H. cbn [bind] in H. destruct (smap_entry y sm 0 i) as [e0| |]; cbn [bind] in H; try discriminate.
  destruct (mapM _ _) as [os| |] eqn:M; cbn [bind] in H; try discriminate. apply Ok_inj in H; subst w. split; [reflexivity|].
  assert (X : length os = Z.to_nat (s_mem s) /\ forall j, (j < Z.to_nat (s_mem s))%nat -> exists e, nth_error os j = Some e /\ smap_entry y sm (1 + j) i = Ok e).
  { clear G. revert os M. generalize 1%nat as a. induction (Z.to_nat (s_mem s)) as [|n IH]; intros a os M; cbn [seq mapM] in M.
    - apply Ok_inj in M; subst. split; [reflexivity|intros; lia].
    - destruct (smap_entry y sm a i) as [e| |] eqn:E; cbn [bind] in M; try discriminate. destruct (mapM _ _) as [os'| |] eqn:M'; cbn [bind] in M; try discriminate.
      apply Ok_inj in M; subst os. destruct (IH _ _ M') as [L N]. split; [cbn; lia|]. intros [|j] Hj; [exists e; rewrite Nat.add_0_r; auto|].
      destruct (N j ltac:(lia)) as (e' & N1 & N2). exists e'. rewrite <- Nat.add_succ_comm. auto. }
  destruct X as [L X]. split.
  - intros [|k] K; [lia|]. destruct (X k ltac:(lia)) as (e & X1 & X2). cbn [wrapper_old snd]. rewrite X1. symmetry. exact X2.
  - intros [|k] K; [reflexivity|]. cbn [wrapper_old snd]. destruct (nth_error os k) eqn:E; [|reflexivity].
    assert (k < length os)%nat by (apply nth_error_Some; congruence). lia.
Qed.

(** Maps made before initialisation. *)
Lemma initialise_maps_nth ms : forall fs, length ms = length fs -> (forall j m f, nth_error ms j = Some m -> nth_error fs j = Some f -> exists m', initialise_map m f = Ok m') ->
  exists ms', initialise_maps ms fs = Ok ms' /\ length ms' = length ms /\
    forall j m (f : field A), nth_error ms j = Some m -> nth_error fs j = Some f -> exists m', nth_error ms' j = Some m' /\ initialise_map m f = Ok m'.
Proof.
  induction ms as [|m ms IH]; intros [|f fs] L H; cbn in L; try lia.
  - exists []. split; [reflexivity|]. split; [reflexivity|]. intros [|j]; discriminate.
  - destruct (H 0%nat m f eq_refl eq_refl) as (m' & E). destruct (IH fs ltac:(lia)) as (ms' & E1 & E2 & E3); [intros j; exact (H (S j))|].
    exists (m' :: ms'). cbn. rewrite E, E1. cbn. split; [reflexivity|]. split; [lia|]. intros [|j] m0 f0 N1 N2; cbn in *; [injection N1 as <-; injection N2 as <-; eauto|eauto].
Qed.

Lemma early_smap zero y y' p s s' u rows sm : sreachable zero y -> sreachable zero y' -> c_init (y_coll y) = false -> c_init (y_coll y') = true ->
  c_order (y_coll y') = c_order (y_coll y) -> get_state y p = Ok s -> get_state y' p = Ok s' -> s_mem s' = s_mem s ->
  (forall nm, In nm (sub_names p (s_mem s)) -> exists r r', get_field (y_coll y) nm = Ok r /\ get_field (y_coll y') nm = Ok r' /\
     l_nbc (f_lay (rf_field r')) = l_nbc (f_lay (rf_field r)) /\ l_nsub (f_lay (rf_field r')) = l_nsub (f_lay (rf_field r))) ->
  new_smap y p u rows = Ok sm ->
  exists sm', initialise_smap y' sm = Ok sm' /\ sm_rows sm' = sm_rows sm /\
    forall k i, (k <= Z.to_nat (s_mem s))%nat -> smap_entry y' sm' k i = fresh_entry y' p k u (sm_rows sm) i.
Proof.
  intros R R' I I' O G G' Em F N. destruct (new_smap_facts _ _ _ _ _ N) as (E1 & E2 & _ & s0 & G0 & X). rewrite G in G0. apply Ok_inj in G0; subst s0.
  pose proof (sreachable_ok zero y R) as [V _]. pose proof (sreachable_ok zero y' R') as [V' SO].
  assert (L : lookup p (y_states y') = Some s') by (unfold get_state in G'; destruct (lookup p (y_states y')); [apply Ok_inj in G'; congruence|discriminate]).
  assert (Q : forall j, (j < Z.to_nat (s_mem s + 1))%nat -> exists r r' m m', get_field (y_coll y) (sub_name p j) = Ok r /\ get_field (y_coll y') (sub_name p j) = Ok r' /\
     nth_error (sm_maps sm) j = Some m /\ initialise_map m (rf_field r') = Ok m' /\ new_map (rf_field r') u (Some (sm_rows sm)) = Ok m').
  { intros j Hj. destruct (X j Hj) as (r & m & X1 & X2 & X3). destruct (F (sub_name p j)) as (r1 & r' & F1 & F2 & F3 & F4); [apply in_sub_names; eauto|].
    rewrite X1 in F1. apply Ok_inj in F1; subst r1. exists r, r', m.
    assert (S1 : sees (y_coll y) (rf_field r)) by (unfold get_field in X1; destruct (lookup _ (c_fields (y_coll y))) eqn:E; [apply Ok_inj in X1; subst; eapply V; eassumption|discriminate]).
    assert (S2 : sees (y_coll y') (rf_field r')) by (unfold get_field in F2; destruct (lookup _ (c_fields (y_coll y'))) eqn:E; [apply Ok_inj in F2; subst; eapply V'; eassumption|discriminate]).
    destruct S1 as (S1a & _ & _ & _ & _ & _ & S1b), S2 as (S2a & _ & _ & _ & _ & _ & S2b).
    destruct (early_map (rf_field r) (rf_field r') u (Some (sm_rows sm)) m) as (_ & _ & m' & M1 & M2); try congruence. exists m'. auto 10. }
  assert (Fs : exists fs, sub_fields y' p (s_mem s) = Ok fs).
  { unfold sub_fields. rewrite (FieldProofs2.mapM_ok _ (fun n => match lookup n (c_fields (y_coll y')) with Some r => rf_field r | None => rf_field (mk_rfield EmptyString (unitless 0) Real (new_field (mk_layout [] 0 0 ColMajor [] [] 0 0) false false)) end)); [eauto|].
    intros n Hn. destruct (F n Hn) as (r & r' & _ & F2 & _). unfold get_field in F2. destruct (lookup n (c_fields (y_coll y'))); [reflexivity|discriminate]. }
  destruct Fs as [fs Fs]. pose proof (sub_fields_nth _ _ _ _ Fs) as Fn.
  assert (Lf : length fs = Z.to_nat (s_mem s + 1)) by (unfold sub_fields in Fs; apply mapM_len in Fs; rewrite Fs; unfold sub_names; now rewrite map_length, seq_length).
  assert (Lm : length (sm_maps sm) = Z.to_nat (s_mem s + 1)) by (eapply new_smap_length; eassumption).
  destruct (initialise_maps_nth (sm_maps sm) fs) as (ms' & M1 & M2 & M3); [congruence| |].
  { intros j m f H1 H2. assert (Hj : (j < Z.to_nat (s_mem s + 1))%nat) by (rewrite <- Lf; apply nth_error_Some; congruence).
    destruct (Q j Hj) as (r & r' & m0 & m' & Q1 & Q2 & Q3 & Q4 & _). destruct (Fn j Hj) as (r1 & Fn1 & Fn2). rewrite Q3 in H1. injection H1 as <-.
    rewrite Q2 in Fn1. apply Ok_inj in Fn1; subst r1. rewrite Fn2 in H2. injection H2 as <-. eauto. }
  exists (mk_smap p u (sm_rows sm) ms'). split; [unfold initialise_smap; rewrite E1, G'; cbn [bind]; rewrite Em, Fs; cbn [bind]; rewrite M1, E2; reflexivity|].
  split; [reflexivity|]. intros k i K.
  destruct (SO _ _ L) as (M0 & t & _ & Ei). refine (entry_from_maps y' p s' k (mk_smap p u (sm_rows sm) ms') i G' eq_refl _ _ _ _).
  - eapply states_in_range; eassumption.
  - apply (idx_length s' t Ei). lia.
  - now rewrite Em.
  - rewrite Em. intros j Hj. cbn [sm_maps sm_unit sm_rows]. destruct (Q j Hj) as (r & r' & m0 & m' & Q1 & Q2 & Q3 & Q4 & Q5). destruct (Fn j Hj) as (r1 & Fn1 & Fn2).
    rewrite Q2 in Fn1. apply Ok_inj in Fn1; subst r1. destruct (M3 j m0 (rf_field r') Q3 Fn2) as (m1 & M4 & M5). exists r', m1. split; [exact Q2|]. split; [exact M4|]. congruence.
Qed.
End S.
