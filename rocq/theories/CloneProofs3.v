(** Lemmas on the index map, empty clones and statically sized state maps. *)
From Coq Require Import String.
From Verif Require Import Base GridModel GridSpec StridedModel LayoutModel LayoutSpec LayoutProofs FieldModel FieldSpec FieldProofs FieldProps
  RegistryModel RegistrySpec RegistryProofs RegistryProofs2 RegistryProofs3 RegistryProofs4 RegistryProps UnitsModel FieldProofs2 MapModel MapProofs StateModel StateSpec StateProofs StateProofs2 StateProofs3 StateProofs4 CloneModel CloneSpec CloneProofs.
Local Open Scope Z_scope.
Local Open Scope list_scope.

(** ** The index map *)
Lemma zlookup_insert k k' v m : zlookup k (zinsert k' v m) = match zlookup k m with Some w => Some w | None => if k =? k' then Some v else None end.
Proof.
  assert (A : forall m, zlookup k (m ++ [(k', v)]) = match zlookup k m with Some w => Some w | None => if k =? k' then Some v else None end).
  { induction m0 as [|[x w] m0 IH]; cbn; [reflexivity|]. destruct (k =? x); [reflexivity|exact IH]. }
  unfold zinsert. destruct (zlookup k' m) as [w|] eqn:E; [|apply A].
  destruct (zlookup k m) eqn:E2; [reflexivity|]. destruct (Z.eqb_spec k k') as [->|]; [congruence|reflexivity].
Qed.

Lemma pl_run_snoc l g : pl_run (l ++ [g]) = pl_add (pl_run l) g.
Proof. unfold pl_run. now rewrite fold_left_app. Qed.
Lemma pl_run_pixels l : pl_pixels (pl_run l) = l.
Proof. induction l as [|g l IH] using rev_ind; [reflexivity|]. rewrite pl_run_snoc. unfold pl_add. cbn [pl_pixels]. now rewrite IH. Qed.

Lemma nth_error_snoc {X} (l : list X) g i : nth_error (l ++ [g]) i = if (i <? length l)%nat then nth_error l i else if (i =? length l)%nat then Some g else None.
Proof.
  destruct (Nat.ltb_spec i (length l)); [now rewrite nth_error_app1|]. rewrite nth_error_app2 by assumption.
  destruct (Nat.eqb_spec i (length l)) as [->|]; [now rewrite Nat.sub_diag|]. destruct (i - length l)%nat as [|[|k]] eqn:E; [lia|reflexivity|reflexivity].
Qed.

Lemma pl_lookup l g : (forall i, zlookup g (pl_map (pl_run l)) = Some i <-> exists k, i = Z.of_nat k /\ first_at l g k) /\
  (zlookup g (pl_map (pl_run l)) = None <-> ~ In g l).
Proof.
  induction l as [|a l [IH1 IH2]] using rev_ind.
  - cbn. split; [|tauto]. intros i. split; [discriminate|]. intros (k & _ & H & _). destruct k; discriminate.
  - rewrite pl_run_snoc. unfold pl_add. cbn [pl_map]. rewrite zlookup_insert, pl_run_pixels.
    destruct (zlookup g (pl_map (pl_run l))) as [w|] eqn:E.
    + destruct (proj1 (IH1 w) eq_refl) as (k & Ek & F1 & F2). assert (Lk : (k < length l)%nat) by (apply nth_error_Some; congruence). split.
      * intros i. split.
        -- intros H. injection H as <-. exists k. split; [exact Ek|]. split; [rewrite nth_error_app1; assumption|].
           intros j Hj. rewrite nth_error_app1 by lia. now apply F2.
        -- intros (k' & -> & H1 & H2). f_equal. rewrite Ek. f_equal. destruct (Nat.lt_trichotomy k k') as [H|[H|H]]; [|exact H|].
           ++ exfalso. apply (H2 k H). rewrite nth_error_app1; assumption.
           ++ exfalso. apply (F2 k' H). rewrite nth_error_app1 in H1 by lia. exact H1.
      * split; [discriminate|]. intros N. exfalso. apply N. apply in_or_app. left. now apply nth_error_In in F1.
    + assert (N : ~ In g l) by now apply IH2. destruct (Z.eqb_spec g a) as [->|Ne].
      * split.
        -- intros i. split.
           ++ intros H. injection H as <-. exists (length l). split; [reflexivity|]. split; [rewrite nth_error_app2, Nat.sub_diag by lia; reflexivity|].
              intros j Hj H. rewrite nth_error_app1 in H by lia. apply N. now apply nth_error_In in H.
           ++ intros (k & -> & H1 & H2). f_equal. f_equal. rewrite nth_error_snoc in H1. destruct (Nat.ltb_spec k (length l)).
              ** exfalso. apply N. now apply nth_error_In in H1.
              ** destruct (Nat.eqb_spec k (length l)); [auto|discriminate].
        -- split; [discriminate|]. intros H. exfalso. apply H. apply in_or_app. right. now left.
      * split.
        -- intros i. split; [discriminate|]. intros (k & _ & H1 & _). exfalso. apply nth_error_In in H1. apply in_app_or in H1.
           destruct H1 as [H1|[H1|[]]]; [contradiction|congruence].
        -- split; [|reflexivity]. intros _ H. apply in_app_or in H. destruct H as [H|[H|[]]]; [contradiction|congruence].
Qed.

(** A map over a field without data. *)
Lemma null_map {A} (f : field A) u m : f_ptr f = None -> new_map f u None = Ok m -> 0 < scalars_per_entry f u -> forall i, map_entry m f i = UB.
Proof.
  intros P M Ps i. destruct (m_stride_per _ _ _ _ M) as [_ E2]. assert (Pt : m_ptr m = None).
  { unfold new_map in M. destruct (map_rows f u None) as [[[a b] d]| |]; cbn [bind] in M; try discriminate. destruct (negb _); [discriminate|]. apply Ok_inj in M. subst m.
    cbn [m_ptr]. rewrite P. now destruct (f_init f). }
  unfold map_entry, span. rewrite E2, Pt. destruct (Z.leb_spec (scalars_per_entry f u) 0); [lia|reflexivity].
Qed.

(** ** Empty clones *)
Section Empty.
Context {A : Type} (zero : A).
Implicit Types c : coll A.

Lemma build_map_lookup (l : list (string * Z)) k : lookup k (build_map l) = lookup k l.
Proof.
  assert (X : forall l m : list (string * Z), lookup k (fold_left (fun m p => match lookup (fst p) m with Some _ => m | None => insert (fst p) (snd p) m end) l m) =
              match lookup k m with Some v => Some v | None => lookup k l end).
  { induction l0 as [|[x w] l0 IH]; intros m; cbn [fold_left fst snd]; [now destruct (lookup k m)|]. rewrite IH. cbn [lookup].
    destruct (lookup x m) as [z|] eqn:E.
    - destruct (String.eqb_spec k x) as [->|]; [now rewrite E|reflexivity].
    - rewrite lookup_insert. destruct (String.eqb_spec k x) as [->|]; [now rewrite E|reflexivity]. }
  unfold build_map. now rewrite X.
Qed.

Lemma clone_numbers c glob : reachable zero c -> exists c0 : coll A, new_coll glob ColMajor (c_tags c) = Ok c0 /\ (forall t, tag_number c0 t = tag_number c t) /\
  c_fields c0 = [] /\ c_glob c0 = glob /\ c_order c0 = ColMajor /\ c_init c0 = false /\ c_index c0 = [] /\ inv c0.
Proof.
  intros R. pose proof (C16_pixel_is_one zero c R) as P1. unfold new_coll, set_nb_sub_pts.
  set (b := mk_coll glob ColMajor (build_map (c_tags c)) false unknown unknown (if glob then [] else [unknown]) (if glob then [] else [1]) [] [] : coll A).
  assert (T : forall t, tag_number b t = tag_number c t) by (intros t; unfold tag_number, b; cbn [c_tags]; now rewrite build_map_lookup).
  assert (N : exists c0 : coll A, new_coll glob ColMajor (c_tags c) = Ok c0).
  { unfold new_coll, set_nb_sub_pts. fold b. rewrite T, P1. cbn. eauto. }
  destruct N as (c0 & N). exists c0. destruct (new_coll_spec _ _ _ _ N) as (I & H1 & H2 & H3 & H4 & H5 & H6 & H7).
  split; [exact N|]. split; [|auto 10]. intros t. destruct (String.eqb_spec t pixel_tag) as [->|Nt]; [congruence|].
  rewrite H7 by exact Nt. rewrite build_map_lookup. reflexivity.
Qed.

Lemma add_pixels_ok l : forall c, c_init c = false -> exists c', add_pixels c l = Ok c' /\ c_index c' = c_index c ++ l /\ c_init c' = false /\
  c_tags c' = c_tags c /\ c_fields c' = c_fields c /\ c_glob c' = c_glob c /\ c_order c' = c_order c.
Proof.
  induction l as [|g l IH]; intros c I; cbn [add_pixels]; [exists c; rewrite app_nil_r; auto 10|]. unfold add_pixel. rewrite I.
  match goal with |- context [add_pixels ?d l] => destruct (IH d) as (c' & E & H1 & H2 & H3 & H4 & H5 & H6); [reflexivity|] end.
  exists c'. split; [exact E|]. cbn in *. rewrite H1, <- app_assoc. auto 10.
Qed.

Lemma local_clone_ok c : reachable zero c -> exists c', local_clone c = Ok c' /\ c_index c' = c_index c /\ (forall t, tag_number c' t = tag_number c t) /\
  c_init c' = false /\ c_glob c' = false /\ list_fields c' = [] /\
  exists c2, step zero c' OInitLocal = (c2, Ok tt) /\ c_init c2 = true /\ c_index c2 = c_index c /\ c_npix c2 = Z.of_nat (length (c_index c)) /\ c_nbuf c2 = c_npix c2 /\
    c_pix c2 = [c_npix c2] /\ c_pstr c2 = [1].
Proof.
  intros R. destruct (clone_numbers c false R) as (c0 & N & T & F & G & O & I & X & V).
  destruct (add_pixels_ok (c_index c) c0 I) as (c' & E & H1 & H2 & H3 & H4 & H5 & H6). rewrite X in H1. cbn [app] in H1.
  exists c'. unfold local_clone. rewrite N. cbn [bind]. split; [exact E|]. split; [exact H1|]. split; [intros t; rewrite <- T; now apply number_tags|].
  split; [exact H2|]. split; [congruence|]. split; [unfold list_fields; now rewrite H4, F|].
  cbn [step]. rewrite H5, G. unfold init_local. rewrite H2, H1. unfold finish_init, with_pixels, sync. cbn [c_fields with_fields]. rewrite H4, F. cbn.
  eexists. split; [reflexivity|]. cbn. auto 10.
Qed.

Lemma same_domain (nd nsd : list Z) : let n := if (length nsd =? 0)%nat then nd else nsd in (if (length n =? 0)%nat then nd else n) = n.
Proof. cbn zeta. destruct (length nsd =? 0)%nat eqn:El; [destruct (length nd =? 0)%nat; reflexivity|now rewrite El]. Qed.

Lemma relocated n loc s p : pixels_strided n loc s = Ok p -> exists p', pixels_strided n (px_loc p) s = Ok p'.
Proof.
  unfold pixels_strided, pixels_strided_with. destruct (is_buffer_contiguous_ax _ _ _); cbn [bind]; try discriminate.
  destruct (Nat.eqb_spec (length (default_loc n loc)) (length n)) as [E|]; cbn [negb]; [|discriminate]. destruct (length s =? length n)%nat; cbn [negb]; [|discriminate].
  intros H. apply Ok_inj in H. subst p. cbn [px_loc]. unfold default_loc at 1. destruct (Nat.eqb_spec (length (default_loc n loc)) 0) as [Z|].
  - rewrite repeat_length, Nat.eqb_refl. cbn [negb]. eauto.
  - rewrite E, Nat.eqb_refl. cbn [negb]. eauto.
Qed.

Lemma global_clone_ok c0 nd nsd loc o c1 h : reachable zero c0 -> c_order c0 = ColMajor -> o = ColMajor \/ o = Automatic ->
  step zero c0 (OInitGlobalOrder nd nsd loc o) = (c1, Ok tt) -> let c := run zero c1 h in
  exists p c', pixels_strided (c_pix c) loc (c_pstr c) = Ok p /\ global_clone zero c nd (px_loc p) = Ok c' /\ same_grid c c' /\ c_init c' = true /\ c_order c' = c_order c /\ c_glob c' = true /\
    (forall t, tag_number c' t = tag_number c t) /\ list_fields c' = [].
Proof.
  intros R0 Oc Oo E. cbn zeta. set (c := run zero c1 h).
  assert (Rc : reachable zero c).
  { destruct R0 as (g & od & t & b & h0 & N & ->). exists g, od, t, b, (h0 ++ OInitGlobalOrder nd nsd loc o :: h). split; [exact N|].
    unfold c, run. rewrite fold_left_app. cbn [fold_left]. fold (run zero b h0). now rewrite E. }
  pose proof (reachable_inv zero c0 R0) as I0. cbn [step] in E. destruct (c_glob c0) eqn:Gl; [|discriminate]. unfold init_global_order in E.
  set (n := if (length nsd =? 0)%nat then nd else nsd) in *. assert (Eo : match o with Automatic => c_order c0 | _ => o end = ColMajor) by (destruct Oo as [-> | ->]; auto).
  rewrite Eo in E. destruct (pixel_strides_for ColMajor n) as [s|e|] eqn:Es; try discriminate.
  assert (Os : snd (init_global zero c0 nd n loc s) = Ok tt) by now rewrite E.
  destruct (init_global_facts zero c0 nd n loc s I0 Os) as (F1 & F2 & F3 & F4 & F5 & F6 & F7 & p & Ep). cbn zeta in *. pose proof (same_domain nd nsd) as En. cbn zeta in En. fold n in En.
  rewrite En in *. rewrite E in *. cbn [fst] in *.
  destruct (init_forever zero h c1 F1) as (P1 & P2 & P3 & P4 & P5 & P6). fold c in P1, P2, P3, P4, P5, P6.
  destruct (run_kind zero h c1) as [K1 K2]. fold c in K1, K2.
  destruct (clone_numbers c true Rc) as (b & N & T & Fb & Gb & Ob & Ib & Xb & Vb).
  destruct (relocated _ _ _ _ Ep) as (p' & Ep'). exists p. rewrite P4, F2, P5, F3.
  assert (X : exists c', global_clone zero c nd (px_loc p) = Ok c' /\ same_grid c c' /\ c_init c' = true /\ c_order c' = c_order c /\ c_glob c' = true /\
    (forall t, tag_number c' t = tag_number c t) /\ list_fields c' = []); [|destruct X as (c' & X); exists c'; split; [exact Ep|exact X]].
  unfold global_clone. rewrite N. cbn [bind]. unfold init_global_order. rewrite P4, F2, En, Ob, Es. unfold init_global in *. rewrite En in *.
  destruct (_ <=? 0); [discriminate|]. destruct (_ <? 0); [discriminate|]. rewrite Ib, Ep', F5.
  unfold finish_init, with_pixels, sync. cbn [c_fields with_fields]. rewrite Fb. cbn [map_fields map allocate_fields c_glob c_order c_tags c_init c_npix c_nbuf c_pix c_pstr c_index c_fields with_fields].
  eexists. split; [reflexivity|]. unfold same_grid. cbn [map_fields map allocate_fields c_glob c_order c_tags c_init c_npix c_nbuf c_pix c_pstr c_index c_fields with_fields list_fields keys].
  rewrite P2, P3, P4, P5, P6, F2, F3, F4, F7, K1, F6, Oc. split; [auto 10|]. split; [reflexivity|]. split; [exact Ob|]. split; [exact Gb|]. split; [exact T|reflexivity].
Qed.
End Empty.

(** ** Statically sized maps of state fields *)
Section StaticState.
Context {A : Type} (zero : A).
Lemma make_static_nth (fs : list (field A)) u t : forall ms, make_static_maps fs u t = Ok ms -> length ms = length fs /\
  forall j f, nth_error fs j = Some f -> exists m, nth_error ms j = Some m /\ new_static f u t = Ok m.
Proof.
  induction fs as [|f fs IH]; intros ms H; cbn in H; [apply Ok_inj in H; subst; split; [reflexivity|intros [|j] f; discriminate]|].
  destruct (new_static f u t) as [m| |] eqn:E; cbn [bind] in H; try discriminate. destruct (make_static_maps fs u t) as [ms'| |]; cbn [bind] in H; try discriminate.
  apply Ok_inj in H; subst ms. destruct (IH _ eq_refl) as [L N]. split; [cbn; lia|]. intros [|j] g G; cbn in *; [injection G as <-; eauto|auto].
Qed.

Lemma static_smap_facts (y : sys A) p u t mem sm : new_static_smap y p u t mem = Ok sm -> 0 < it_rows t -> sm_prefix sm = p /\ sm_unit sm = u /\ sm_rows sm = it_rows t /\
  exists s, get_state y p = Ok s /\ s_mem s = mem /\ length (sm_maps sm) = Z.to_nat (mem + 1) /\ forall j, (j < Z.to_nat (mem + 1))%nat ->
    exists r m, get_field (y_coll y) (sub_name p j) = Ok r /\ nth_error (sm_maps sm) j = Some m /\ new_static (rf_field r) u t = Ok m.
Proof.
  unfold new_static_smap. intros H P. destruct (new_smap y p u None) as [sm0| |]; cbn [bind] in H; try discriminate.
  destruct (get_state y p) as [s| |]; cbn [bind] in H; try discriminate. destruct (Z.eqb_spec (s_mem s) mem) as [<-|]; cbn [negb] in H; [|discriminate].
  destruct (sub_fields y p (s_mem s)) as [fs| |] eqn:E; cbn [bind] in H; try discriminate. destruct (make_static_maps fs u t) as [ms| |] eqn:M; cbn [bind] in H; try discriminate.
  apply Ok_inj in H. subst sm. cbn [sm_prefix sm_unit sm_rows sm_maps]. split; [reflexivity|]. split; [reflexivity|]. split; [reflexivity|]. exists s. split; [reflexivity|]. split; [reflexivity|].
  destruct (make_static_nth _ _ _ _ M) as [L N]. split.
  - rewrite L. clear -E. unfold sub_fields, sub_names in E. apply mapM_len in E. rewrite E, map_length, seq_length. reflexivity.
  - intros j Hj. destruct (sub_fields_nth y p _ fs E j Hj) as (r & G & Hn). destruct (N _ _ Hn) as (m & X1 & X2). eauto.
Qed.

Lemma static_smap_same (y y' : sys A) p u t mem sm k i : new_static_smap y p u t mem = Ok sm -> 0 < it_rows t ->
  static_smap_entry t y' sm k i = smap_entry y' sm k i.
Proof.
  intros H P. destruct (static_smap_facts y p u t mem sm H P) as (_ & _ & _ & s & _ & _ & L & X). unfold static_smap_entry, smap_entry.
  destruct (get_state y' (sm_prefix sm)) as [s'| |]; cbn [bind]; try reflexivity. destruct (nth_error (s_idx s') k) as [j|]; [|reflexivity].
  destruct (nth_error (sm_maps sm) (Z.to_nat j)) as [m|] eqn:E; [|reflexivity]. destruct (lookup _ _) as [r|]; [|reflexivity].
  assert (Hj : (Z.to_nat j < Z.to_nat (mem + 1))%nat) by (rewrite <- L; apply nth_error_Some; congruence).
  destruct (X _ Hj) as (r0 & m0 & _ & E0 & N0). rewrite E in E0. injection E0 as <-.
  destruct (new_static_inv _ _ _ _ P N0) as (_ & S1 & S2 & S3 & _). apply static_entry_same; [exact S1|]. rewrite S2, S3. reflexivity.
Qed.

Lemma static_smap_agrees y p mem u t sm h k i : sreachable zero y -> c_init (y_coll y) = true -> holds_state y p mem -> new_static_smap y p u t mem = Ok sm -> 0 < it_rows t ->
  Forall (leaves_alone p mem) h -> (k <= Z.to_nat mem)%nat ->
  static_smap_entry t (srun zero y h) sm k i = fresh_entry (srun zero y h) p k u (it_rows t) i.
Proof.
  intros R I H N P F K. rewrite (static_smap_same y _ p u t mem sm k i N P). destruct (static_smap_facts y p u t mem sm N P) as (E1 & E2 & E3 & s & G & Em & L & X).
  rewrite <- E3. apply (maps_agree zero y p mem u sm h k i s); auto. intros j Hj. rewrite Em in Hj. destruct (X j Hj) as (r & m & X1 & X2 & X3).
  exists r, m. split; [exact X1|]. split; [exact X2|]. rewrite E3. now apply (new_static_inv (rf_field r) u t m P).
Qed.

Lemma mapM_all {B C} (g : B -> res C) l : (forall x, In x l -> exists z, g x = Ok z) -> exists zs, mapM g l = Ok zs.
Proof.
  induction l as [|x l IH]; intros H; cbn; [eauto|]. destruct (H x (or_introl eq_refl)) as (z & ->). cbn [bind].
  destruct IH as (zs & ->); [intros; apply H; now right|]. cbn [bind]. eauto.
Qed.

Lemma make_maps_all (fs : list (field A)) u rows : (forall f, In f fs -> exists m, new_map f u (Some rows) = Ok m) -> exists ms, make_maps fs u rows = Ok ms.
Proof.
  induction fs as [|f fs IH]; intros H; cbn; [eauto|]. destruct (H f (or_introl eq_refl)) as (z & ->). cbn [bind].
  destruct IH as (zs & ->); [intros; apply H; now right|]. cbn [bind]. eauto.
Qed.
Lemma make_static_all (fs : list (field A)) u t : (forall f, In f fs -> exists m, new_static f u t = Ok m) -> exists ms, make_static_maps fs u t = Ok ms.
Proof.
  induction fs as [|f fs IH]; intros H; cbn; [eauto|]. destruct (H f (or_introl eq_refl)) as (z & ->). cbn [bind].
  destruct IH as (zs & ->); [intros; apply H; now right|]. cbn [bind]. eauto.
Qed.
Lemma default_map (f : field A) u d : has_nsub f = true -> l_order (f_lay f) = ColMajor -> scalars_per_entry f u = d -> 0 < d -> exists m, new_map f u (Some d) = Ok m.
Proof.
  intros H O E P. destruct (new_map_rows_iff f u d O (fun _ => H) ltac:(lia)) as [Y _]. destruct Y as (m & Y & _); [rewrite E; apply Z.divide_refl|eauto].
Qed.

Lemma alike_prepared y p s u d : sreachable zero y -> get_state y p = Ok s -> alike y p (s_mem s) u d -> 0 < d ->
  exists sm f fs, new_smap y p u None = Ok sm /\ sub_fields y p (s_mem s) = Ok (f :: fs) /\
    forall g, In g (f :: fs) -> has_nsub g = true /\ l_order (f_lay g) = ColMajor /\ scalars_per_entry g u = d.
Proof.
  intros R G Al P. pose proof (proj1 (get_found _ _ _) G) as L. destruct (proj2 (sreachable_ok zero y R) _ _ L) as (M & _).
  assert (E : exists fs, sub_fields y p (s_mem s) = Ok fs).
  { apply mapM_all. intros nm I. destruct (Al nm I) as (r & E & _). unfold get_field in E. destruct (lookup nm (c_fields (y_coll y))); [eauto|discriminate]. }
  destruct E as (fs & E). assert (Len : length fs = Z.to_nat (s_mem s + 1)).
  { unfold sub_fields, sub_names in E. apply mapM_len in E. rewrite E, map_length, seq_length. reflexivity. }
  assert (X : forall g, In g fs -> has_nsub g = true /\ l_order (f_lay g) = ColMajor /\ scalars_per_entry g u = d).
  { intros g I. apply In_nth_error in I. destruct I as (j & I). assert (Hj : (j < length fs)%nat) by (apply nth_error_Some; congruence). rewrite Len in Hj.
    destruct (sub_fields_nth y p _ fs E j Hj) as (r & Gr & Nr). rewrite I in Nr. injection Nr as ->.
    destruct (Al (sub_name p j)) as (r' & Gr' & Y); [apply in_sub_names; eauto|]. rewrite Gr in Gr'. apply Ok_inj in Gr'. subst r'. exact Y. }
  destruct (slots zero y p s 0 R G) as [S0 _]. destruct (S0 ltac:(lia)) as (j & Hj & Nm).
  destruct (Al (sub_name p j)) as (r & Gr & Y1 & Y2 & Y3); [apply in_sub_names; exists j; split; [lia|reflexivity]|].
  assert (Fa : field_at y p 0 = Ok r) by (unfold field_at; rewrite Nm; cbn [bind]; unfold get_field in Gr; destruct (lookup (sub_name p j) (c_fields (y_coll y))); [exact Gr|discriminate]).
  destruct (make_maps_all fs u d) as (ms & Em); [intros f I; destruct (X f I) as (X1 & X2 & X3); now apply default_map|].
  destruct fs as [|f fs]; [cbn in Len; lia|]. exists (mk_smap p u d ms), f, fs. split; [|split; [exact E|exact X]].
  unfold new_smap. rewrite G. cbn [bind]. rewrite Fa. cbn [bind]. rewrite E. cbn [bind].
  assert (Ed : match u with Pixel => l_nbc (f_lay (rf_field r)) * l_nsub (f_lay (rf_field r)) | SubPt => l_nbc (f_lay (rf_field r)) end = d).
  { rewrite <- Y3. unfold scalars_per_entry. destruct u; lia. }
  rewrite Ed, Em. reflexivity.
Qed.

Lemma static_smap_iff y p s u t mem d : sreachable zero y -> get_state y p = Ok s -> alike y p (s_mem s) u d -> 0 < d -> 0 < it_rows t -> 0 < it_cols t ->
  (s_mem s = mem -> it_rows t * it_cols t = d -> exists sm, new_static_smap y p u t mem = Ok sm) /\
  (s_mem s <> mem \/ it_rows t * it_cols t <> d -> new_static_smap y p u t mem = Err FieldMapError).
Proof.
  intros R G Al P Pr Pc. destruct (alike_prepared y p s u d R G Al P) as (sm & f & fs & E1 & E2 & X). unfold new_static_smap. rewrite E1. cbn [bind]. rewrite G. cbn [bind].
  assert (N : forall g, In g (f :: fs) -> (it_rows t * it_cols t = d -> exists m, new_static g u t = Ok m) /\ (it_rows t * it_cols t <> d -> new_static g u t = Err FieldMapError)).
  { intros g I. destruct (X g I) as (X1 & X2 & X3). destruct (new_static_iff g u t X2 (fun _ => X1) Pr Pc) as [Y1 Y2]. unfold it_stride in *. rewrite X3 in *. split; [|exact Y2].
    intros Ed. destruct (Y1 Ed) as (m & Y & _). eauto. }
  split.
  - intros <- Ed. rewrite Z.eqb_refl. cbn [negb]. rewrite E2. cbn [bind]. destruct (make_static_all (f :: fs) u t) as (ms & ->); [intros g I; now apply N|]. cbn [bind]. eauto.
  - destruct (Z.eqb_spec (s_mem s) mem) as [Em|Em]; cbn [negb]; [|reflexivity]. intros [Y|Y]; [contradiction|]. rewrite E2. cbn [bind make_static_maps].
    rewrite (proj2 (N f (or_introl eq_refl)) Y). reflexivity.
Qed.

Lemma mapM_ext_in' {B C} (g h : B -> res C) l : (forall x, In x l -> g x = h x) -> mapM g l = mapM h l.
Proof. induction l as [|x l IH]; intros H; cbn; [reflexivity|]. rewrite (H x (or_introl eq_refl)), IH; [reflexivity|]. intros; apply H; now right. Qed.

Lemma static_wrapper_same (y y' : sys A) p u t mem sm i s : new_static_smap y p u t mem = Ok sm -> 0 < it_rows t -> get_state y' p = Ok s -> s_mem s = mem ->
  static_wrapper t mem y' sm i = wrapper y' sm i.
Proof.
  intros H P G M. destruct (static_smap_facts y p u t mem sm H P) as (E & _). unfold static_wrapper, wrapper. rewrite E, G. cbn [bind].
  rewrite (static_smap_same y y' p u t mem sm _ _ H P). destruct (smap_entry y' sm 0 i); cbn [bind]; try reflexivity.
  rewrite M.
  assert (Q : forall n b, mapM (fun k => static_smap_entry t y' sm (k + 1) i) (seq b n) = mapM (fun k => smap_entry y' sm k i) (seq (b + 1) n)).
  { induction n as [|n IH]; intros b; [reflexivity|]. cbn [seq mapM]. rewrite (static_smap_same y y' p u t mem sm _ _ H P), IH. reflexivity. }
  rewrite Q. reflexivity.
Qed.
End StaticState.

Lemma static_smap_iterates {A} (y y' : sys A) p u t mem sm r ws : new_static_smap y p u t mem = Ok sm -> 0 < it_rows t -> 0 <= mem -> get_field (y_coll y') (sub_name p 0) = Ok r ->
  0 < l_nsub (f_lay (rf_field r)) -> 0 <= l_npix (f_lay (rf_field r)) -> f_cur (rf_field r) = entries_of (rf_field r) SubPt -> entries_of (rf_field r) SubPt < 2 ^ 64 ->
  static_smap_iterate t mem y' sm = Ok ws ->
  Z.of_nat (length ws) = entries_of (rf_field r) u /\ forall i, 0 <= i < entries_of (rf_field r) u -> static_wrapper t mem y' sm i = Ok (nth (Z.to_nat i) ws ([], [])).
Proof.
  intros H P M G Ns Np Fc B W. destruct (static_smap_facts y p u t mem sm H P) as (E & _ & _ & s & _ & _ & _ & N).
  destruct (N 0%nat ltac:(lia)) as (r0 & m & _ & Em & Es). unfold static_smap_iterate in W. rewrite Em, E in W.
  unfold get_field in G. destruct (lookup (sub_name p 0) (c_fields (y_coll y'))) as [r1|]; [|discriminate]. injection G as ->.
  assert (U : m_unit m = u).
  { unfold new_static, new_map in Es. destruct (map_rows (rf_field r0) u (Some (it_rows t))) as [[[a b] c]| |]; cbn [bind] in Es; try discriminate.
    destruct (negb (storder_eqb (l_order (f_lay (rf_field r0))) ColMajor)); [discriminate|]. destruct (negb (b * c =? a)); [discriminate|]. cbn [bind] in Es.
    match type of Es with context[if ?q then _ else _] => destruct q end; [discriminate|]. injection Es as <-. reflexivity. }
  assert (Sz : map_size m (rf_field r) = entries_of (rf_field r) u).
  { unfold map_size. rewrite U, Fc. unfold nb_entries, has_nsub, unknown, entries_of in *. destruct (Z.eqb_spec (l_nsub (f_lay (rf_field r))) (-1)); cbn [negb]; [lia|].
    destruct (Z.eqb_spec (l_nsub (f_lay (rf_field r)) * l_npix (f_lay (rf_field r))) 0) as [Z0|Z0]; destruct u; try reflexivity; nia. }
  assert (R : 0 <= map_size m (rf_field r) < 2 ^ 64).
  { rewrite Sz. unfold entries_of in *. destruct u; nia. }
  rewrite unsigned_size_ok, Sz in W by exact R. rewrite Sz in R.
  pose proof (mapM_len _ _ _ W) as L. unfold zrange in L. rewrite map_length, seq_length in L. split; [lia|]. intros i Hi.
  clear - W Hi. assert (X : forall l ws j, mapM (static_wrapper t mem y' sm) l = Ok ws -> (j < length l)%nat -> static_wrapper t mem y' sm (nth j l 0) = Ok (nth j ws ([], []))).
  { clear. induction l as [|x l IH]; intros ws j W Hj; cbn in Hj; [lia|]. cbn [mapM] in W. destruct (static_wrapper t mem y' sm x) as [w| |] eqn:E; try discriminate. cbn [bind] in W.
    destruct (mapM (static_wrapper t mem y' sm) l) as [ws'| |]; try discriminate. cbn [bind] in W. injection W as <-. destruct j as [|j]; [exact E|]. cbn [nth]. apply IH; [reflexivity|lia]. }
  specialize (X _ _ (Z.to_nat i) W). unfold zrange in X. rewrite map_length, seq_length in X. specialize (X ltac:(lia)).
  change 0 with (Z.of_nat 0) in X. rewrite map_nth, seq_nth in X by lia. rewrite Nat.add_0_l, Z2Nat.id in X by lia. exact X.
Qed.
