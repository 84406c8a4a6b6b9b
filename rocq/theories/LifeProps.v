(** Properties of the lifetimes of maps and fields (C125, C126). *)
From Coq Require Import String.
From Verif Require Import Base GridModel GridSpec StridedModel UnitsModel LayoutModel LayoutSpec LayoutProofs FieldModel FieldSpec FieldProofs FieldProofs2.
From Verif Require Import RegistryModel RegistrySpec RegistryProofs RegistryProofs2 RegistryProps MapModel LifeModel LifeSpec LifeProofs LifeProofs2 LifeProofs3 LifeProofs4.
Local Open Scope Z_scope.
Local Open Scope list_scope.

(** ** C125: maps and the initialisation of their collection *)

(** Before the initialisation every map refuses iteration, however it came into
    being. *)
Theorem C125_waiting {A} (zero : A) w i lm : lives zero tidy w -> c_init (w_coll w) = false -> nlookup i (w_maps w) = Some lm ->
  wd_iterate w i = Err FieldMapError.
Proof.
  intros Lw I L. destruct (lives_tinv zero tidy w (fun _ _ H => H) Lw) as (_ & _ & M & _). destruct (M i lm L) as (_ & Al & Mi & _).
  unfold wd_iterate. rewrite L. destruct (field_at w (lm_field lm)) as [f|]; [|contradiction]. unfold map_iterate. now rewrite Mi, I.
Qed.
Print Assumptions C125_waiting.

(** The initialisation succeeds exactly if it does without maps, whatever maps
    were created, refused, moved or ended before. *)
Theorem C125_initialise {A} (zero : A) w o : lives zero tidy w -> initialises o ->
  snd (wstep zero w (WColl o)) = snd (step zero (w_coll w) o) /\ w_coll (fst (wstep zero w (WColl o))) = fst (step zero (w_coll w) o).
Proof.
  intros Lw Io. pose proof (lives_tinv zero tidy w (fun _ _ H => H) Lw) as T. destruct (wstep_init zero w o T Io) as (H1 & _ & H2 & _). auto.
Qed.
Print Assumptions C125_initialise.

(** Afterwards every map of a field that was left alone is the map that would be
    created now, and shows all entries. *)
Theorem C125_ready {A} (zero : A) w i name m r : lives zero calm w -> maps_field w i name m -> get_field (w_coll w) name = Ok r ->
  exists rows, new_map (rf_field r) (m_unit m) rows = Ok m /\ wd_iterate w i = map_iterate m (rf_field r).
Proof.
  intros Lw Mf G. destruct (calm_fresh zero w Lw) as [T F]. unfold get_field in G. destruct (lookup name (c_fields (w_coll w))) as [r0|] eqn:L; [|discriminate]. apply Ok_inj in G. subst r0.
  destruct (F i name m r Mf L) as [rows N]. exists rows. split; [exact N|]. destruct Mf as (id & Li & Lm). unfold wd_iterate. rewrite Lm. cbn [lm_field lm_map].
  destruct T as (_ & Id & _). now rewrite (field_registered w name id r Id Li L).
Qed.
Print Assumptions C125_ready.

Theorem C125_entries {A} (zero : A) w i name m r : lives zero calm w -> c_init (w_coll w) = true -> good_pixels (w_coll w) -> c_nbuf (w_coll w) = c_npix (w_coll w) ->
  maps_field w i name m -> get_field (w_coll w) name = Ok r ->
  exists es, wd_iterate w i = Ok es /\ Z.of_nat (length es) = entries_of (rf_field r) (m_unit m) /\
    concat es = firstn (Z.to_nat (buffer_scalars (f_lay (rf_field r)))) (f_vals (rf_field r)).
Proof.
  intros Lw I Gp Un Mf G. destruct (C125_ready zero w i name m r Lw Mf G) as (rows & N & ->).
  pose proof (sensibly_ready zero (w_coll w) name r (calm_sensible zero w Lw) I Gp G) as R.
  assert (U : unpadded (rf_field r)). { destruct (calm_fresh zero w Lw) as [((_ & Iv) & _) _]. unfold get_field in G. destruct (lookup name (c_fields (w_coll w))) as [r0|] eqn:L; [|discriminate]. apply Ok_inj in G. subst r0.
    destruct (Iv _ _ L) as [(_ & _ & _ & S4 & S5 & _) _]. unfold unpadded. congruence. }
  destruct (map_partition (rf_field r) (m_unit m) rows m R U N) as (es & E & Ln & _ & _ & C). exists es. auto.
Qed.
Print Assumptions C125_entries.

(** A map has the rows its creator asked for, and keeps the shape of its entries
    as long as it lives. *)
Theorem C125_created {A} (zero : A) w id u k f : field_at w id = Some f -> snd (wstep zero w (WNewMap id u k)) = Ok tt ->
  exists m, nlookup (w_next w) (w_maps (fst (wstep zero w (WNewMap id u k)))) = Some (mk_lmap id m) /\ m_unit m = u /\ rows_asked f k m /\
    get_stride (f_lay f) (has_nsub f) u = Ok (m_stride m) /\ (k <> KDefault -> m_rows m * m_cols m = m_stride m).
Proof. exact (created zero w id u k f). Qed.
Print Assumptions C125_created.
Theorem C125_shape {A} (zero : A) w w' i lm lm' : lives zero tidy w -> later zero tidy w w' -> nlookup i (w_maps w) = Some lm -> nlookup i (w_maps w') = Some lm' -> same_entries lm lm'.
Proof. intros Lw. exact (entries_last zero w w' i lm lm' (lives_tinv zero tidy w (fun _ _ H => H) Lw)). Qed.
Print Assumptions C125_shape.

(** A moved map and the map it was moved from stay the same. *)
Theorem C125_moved {A} (zero : A) w i lm w' a b : lives zero tidy w -> nlookup i (w_maps w) = Some lm -> snd (wstep zero w (WMoveMap i)) = Ok tt ->
  later zero tidy (fst (wstep zero w (WMoveMap i))) w' -> nlookup i (w_maps w') = Some a -> nlookup (w_next w) (w_maps w') = Some b ->
  nlookup (w_next w) (w_maps (fst (wstep zero w (WMoveMap i)))) = Some lm /\ a = b /\ wd_iterate w' i = wd_iterate w' (w_next w).
Proof.
  intros Lw L S Lt La Lb. pose proof (lives_tinv zero tidy w (fun _ _ H => H) Lw) as T. destruct (moved zero w i lm T L S) as (M1 & _ & Tw). split; [exact M1|].
  assert (T1 : tinv (fst (wstep zero w (WMoveMap i)))) by (apply tinv_step; [exact T|exact I]). destruct (later_twins zero _ w' i (w_next w) T1 Lt Tw) as (_ & _ & E).
  pose proof (E a b La Lb) as Eab. split; [exact Eab|]. unfold wd_iterate. now rewrite La, Lb, Eab.
Qed.
Print Assumptions C125_moved.
Theorem C125_movable {A} (zero : A) w i name m : lives zero calm w -> maps_field w i name m -> snd (wstep zero w (WMoveMap i)) = Ok tt.
Proof. exact (move_succeeds zero w i name m). Qed.
Print Assumptions C125_movable.

(** Two pixels; the field is object 0.  Map 1 sees single values, a map with three
    rows is refused, map 3 is moved from map 1, which ends; then the collection is
    initialised and written to, and map 3 shows the values. *)
Definition early : list (wop Z) :=
  [WColl (OAddPixel 7); WColl (OAddPixel 4); WColl (reg "f" "quad" 1); WNewMap 0 SubPt KDefault; WNewMap 0 Pixel (KRows 3); WMoveMap 1; WDropMap 1].
Definition late : list (wop Z) := [WColl OInitLocal; WColl (OWrite "f" 0 10); WColl (OWrite "f" 3 40)].
Lemma unmapped_all (w : world Z) id : Forall (fun p => lm_field (snd p) <> id) (w_maps w) -> unmapped w id.
Proof.
  unfold unmapped. intros H i lm. induction (w_maps w) as [|[k v] l IH]; cbn [nlookup]; [discriminate|]. apply Forall_cons_iff in H. destruct H as [H1 H2].
  destruct (i =? k)%nat; [intros E; injection E as <-; exact H1|now apply IH].
Qed.
Fixpoint all_calm (w : world Z) (h : list (wop Z)) : Prop := match h with [] => True | o :: r => calm w o /\ all_calm (fst (wstep 0 w o)) r end.
Fixpoint all_tidy (w : world Z) (h : list (wop Z)) : Prop := match h with [] => True | o :: r => tidy w o /\ all_tidy (fst (wstep 0 w o)) r end.
Lemma all_calm_lives h : forall w, lives 0 calm w -> all_calm w h -> lives 0 calm (wrun 0 w h).
Proof. unfold wrun. induction h as [|o h IH]; intros w L; cbn [fold_left all_calm]; [auto|]. intros [C H]. apply IH; [now apply lives_step|exact H]. Qed.
Lemma all_tidy_lives h : forall w, lives 0 tidy w -> all_tidy w h -> lives 0 tidy (wrun 0 w h).
Proof. unfold wrun. induction h as [|o h IH]; intros w L; cbn [fold_left all_tidy]; [auto|]. intros [C H]. apply IH; [now apply lives_step|exact H]. Qed.
Lemma local_lives P : lives 0 P (start fresh_local).
Proof. apply (lives_start 0 P false ColMajor [("quad"%string, 2)]); [vm_compute; reflexivity|repeat constructor]. Qed.
Lemma wrun_app (w : world Z) h1 h2 : wrun 0 w (h1 ++ h2) = wrun 0 (wrun 0 w h1) h2.
Proof. unfold wrun. apply fold_left_app. Qed.
Lemma early_late_calm : all_calm (start fresh_local) (early ++ late).
Proof.
  unfold early, late, reg. cbn [app all_calm]. repeat match goal with |- _ /\ _ => split | |- calm _ _ => split; [exact I|] | |- True => exact I end; try exact I; cbn [sensible positive]; split; reflexivity.
Qed.

Example C125_case : let w0 := start fresh_local in let w1 := wrun 0 w0 early in let w2 := wrun 0 w1 late in
  lives 0 calm w2 /\ (exists m, maps_field w2 3 "f" m) /\ nlookup 1 (w_maps w1) = None /\ w_calls w1 = [1; 2; 3]%nat /\
  wd_iterate w1 3 = Err FieldMapError /\ wd_iterate w2 3 = Ok [[10]; [0]; [0]; [40]] /\
  snd (wstep 0 (wrun 0 w0 (firstn 4 early)) (WNewMap 0 Pixel (KRows 3))) = Err FieldMapError.
Proof.
  cbn zeta. split. { rewrite <- wrun_app. exact (all_calm_lives _ _ (local_lives calm) early_late_calm). }
  split; [eexists; exists 0%nat; split; vm_compute; reflexivity|]. repeat (split; [vm_compute; reflexivity|]). vm_compute; reflexivity.
Qed.

(** ** C126: fields that end before their maps *)

(** As long as fields end after their maps, no callback ever touches a field that
    is gone. *)
Theorem C126_outlived_partial {A} (zero : A) w i lm : lives zero tidy w -> nlookup i (w_maps w) = Some lm ->
  exists f, field_at w (lm_field lm) = Some f /\ m_init (lm_map lm) = c_init (w_coll w).
Proof.
  intros Lw L. destruct (lives_tinv zero tidy w (fun _ _ H => H) Lw) as (_ & _ & M & _). destruct (M i lm L) as (_ & Al & Mi & _).
  destruct (field_at w (lm_field lm)) as [f|]; [|contradiction]. exists f. auto.
Qed.
Print Assumptions C126_outlived_partial.

(** Refuted otherwise: the initialisation follows a dangling reference. *)
Theorem C126_dangling_refuted : exists h, let w := wrun 0 (start fresh_local) h in
  snd (step 0 (w_coll w) OInitLocal) = Ok tt /\ snd (wstep 0 w (WColl OInitLocal)) = UB.
Proof.
  exists [WColl (OAddPixel 7); WColl (reg "f" "quad" 1); WNewMap 0 SubPt KDefault; WColl (OPop "f"); WDropField 0].
  cbn zeta. split; vm_compute; reflexivity.
Qed.
Print Assumptions C126_dangling_refuted.

(** Refuted also for a removed field that is kept: its map becomes usable and
    leads nowhere. *)
Theorem C126_removed_refuted : exists h i, let w := wrun 0 (start fresh_local) h in
  lives 0 tidy w /\ c_init (w_coll w) = true /\ wd_iterate w i = UB /\
  exists lm f, nlookup i (w_maps w) = Some lm /\ m_init (lm_map lm) = true /\ field_at w (lm_field lm) = Some f /\ f_vals f = [].
Proof.
  exists [WColl (OAddPixel 7); WColl (reg "f" "quad" 1); WNewMap 0 Pixel KDefault; WColl (OPop "f"); WColl OInitLocal], 1%nat.
  cbn zeta. split; [apply all_tidy_lives; [apply local_lives|cbn; auto 10]|]. split; [vm_compute; reflexivity|]. split; [vm_compute; reflexivity|].
  eexists; eexists. split; [vm_compute; reflexivity|]. split; [vm_compute; reflexivity|]. split; vm_compute; reflexivity.
Qed.
Print Assumptions C126_removed_refuted.
