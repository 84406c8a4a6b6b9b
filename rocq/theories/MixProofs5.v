(** What programs with arrays on global and local collections rely on. *)
From Coq Require Import String Sorting.Sorted.
From Verif Require Import Base CIntModel GridModel GridSpec StridedModel UnitsModel LayoutModel LayoutSpec LayoutProofs FieldModel FieldSpec.
From Verif Require Import RegistryModel RegistrySpec RegistryProofs RegistryProofs2 NumpyModel NumpySpec PyArrayModel PyArraySpec PyArrayProofs.
From Verif Require Import FrameModel CommModel NetCDFModel NetCDFSpec NetCDFProofs4 NetCDFProofs5 NetCDFProofs10.
From Verif Require Import SessionModel SessionSpec SessionProofs SessionProofs2 SessionProofs3 SessionProofs5 StackModel StackSpec StackProofs StackProofs2 StackProofs3 MixModel MixSpec MixProofs MixProofs2 MixProofs3 MixProofs4.
Local Open Scope Z_scope.
Local Open Scope list_scope.

Section P.
Context {A : Type} (zero junk : A).
Implicit Types (m : member A) (y : player A) (ys : list (player A)) (s : ystate A) (f g : SessionModel.session A).
Variable D : design.
Hypothesis wk : workable D.
Notation sound := (StackProofs.sound junk).
Notation B := (d_base D).
Notation P := (plan_mix D).
Notation able := (able junk D).
Notation troupe := (troupe junk D).
Notation pcalm := (pcalm junk D).
Notation tied := (tied_mix junk D).
Notation bound := (bound_mix junk D).

Lemma troupe_at ys i y : troupe ys -> nth_error ys i = Some y -> able y.
Proof. intros (_ & F & _) N. rewrite Forall_forall in F. exact (F _ (nth_error_In _ _ N)). Qed.
Lemma able_ids y l : able y -> In l (map o_name (d_lots D)) -> NoDup (ids_of y l).
Proof. intros (_ & L) Il. apply in_map_iff in Il. destruct Il as (t & <- & It). destruct (L t It) as (m & E & _ & _ & S & _). unfold ids_of. rewrite E. now apply NetCDFProofs10.sorted_nodup. Qed.
Lemma nodup_at (l : list Z) i j x : NoDup l -> nth_error l i = Some x -> nth_error l j = Some x -> i = j.
Proof. intros N E1 E2. rewrite NoDup_nth_error in N. apply N; [apply nth_error_Some; congruence|congruence]. Qed.
Lemma index_inside y p q m x idx : able y -> In (p, q) (holdings D) -> slot y p = Some m -> indexed y p x idx -> in_shape (box m) idx.
Proof.
  intros Ab I E (Hx & H). destruct p as [l|]; cbn [slot] in E.
  - destruct H as (j & J & ->). pose proof Ab as (_ & L). apply in_lot in I. destruct I as (t & It & <- & Iq). destruct (L t It) as (m' & E' & K & C & _). rewrite E in E'. injection E' as <-.
    destruct (lot_limit D wk t q It Iq) as (_ & _ & _ & _ & Lim). destruct (local_item junk m q K (C q Iq) Lim) as (_ & _ & _ & -> & _). unfold ids_of in J. rewrite E in J.
    apply in_shape_cons. exists (Z.of_nat j), []. split; [reflexivity|]. split; [|now apply in_shape_nil]. assert (j < length (pixel_ids m))%nat by (apply nth_error_Some; congruence). lia.
  - injection E as <-. subst idx. destruct Ab as ((_ & Pl & _) & _). change (box (y_base y)) with (l_pix (nf_lay (mk_nfield (i_name q) (i_tag q) (mk_layout [] 0 0 ColMajor (box (y_base y)) [] 0 0) (sc_dom B) (m_loc (y_base y))))).
    apply (NetCDFProofs5.owns_shift (mk_nfield (i_name q) (i_tag q) (mk_layout [] 0 0 ColMajor (box (y_base y)) [] 0 0) (sc_dom B) (m_loc (y_base y)))); [|exact Hx].
    cbn. destruct Pl as (_ & L1 & L2 & _). congruence.
Qed.

(** ** Fields in the file *)
Lemma part_of_bound f g ys i y : bound f ys -> se_setup g = se_setup f -> nth_error ys i = Some y -> exists y0, able y0 /\ pcalm y0 y /\ nth_error (su_parts (se_setup g)) i = Some (player_part (vars_of f) y0).
Proof.
  intros (ys0 & T0 & F & E & _) Eg N. destruct (calm_nth junk D _ _ _ _ F N) as (y0 & N0 & Pc). exists y0. split; [exact (troupe_at _ _ _ T0 N0)|]. split; [exact Pc|]. rewrite Eg, E. now apply map_nth_error.
Qed.
Lemma part_field f ys y0 y p q m : bound f ys -> able y0 -> pcalm y0 y -> In (p, q) (holdings D) -> slot y p = Some m -> pt_field (player_part (vars_of f) y0) (i_name q) = nfield_of m (i_name q).
Proof.
  intros (_ & _ & _ & _ & Wh & _) A0 Pc I E. pose proof (held_design D p q I) as Dp. destruct (slot_able junk D y0 p A0 Dp) as (m0 & E0 & _). destruct (pcalm_slot junk D y0 y p m0 Pc Dp E0) as (m' & E' & C & _). rewrite E in E'. injection E' as <-.
  cbn [player_part pt_field]. destruct (field_found _ y0 p q m0 (Wh _ _ I) E0) as (-> & _). symmetry. exact (calm_field m0 m q C (slot_carries junk D y0 p q m0 A0 I E0)).
Qed.
Lemma pixel_mix f g ys i y p q m x idx : bound f ys -> se_setup g = se_setup f -> troupe ys -> nth_error ys i = Some y -> In (p, q) (holdings D) -> slot y p = Some m -> indexed y p x idx -> has_pixel g i (quantity_at (p, q)) x.
Proof.
  intros Bd Eg T N I E (Hx & H). destruct (part_of_bound f g ys i y Bd Eg N) as (y0 & A0 & Pc & Np). exists (player_part (vars_of f) y0). split; [exact Np|]. cbn [quantity_at q_local q_name fst snd]. pose proof (troupe_at _ _ _ T N) as Ay. destruct p as [l|].
  - destruct H as (j & J & _). cbn [player_part pt_sub pt_ids]. split; [apply part_owns; now apply (pcalm_has junk D y0 y)|]. rewrite number_id, <- (pcalm_number junk D y0 y x Pc).
    apply in_lot in I. destruct I as (t & It & <- & _). rewrite <- (pcalm_ids junk D y0 y t A0 Pc It). exact (nth_error_In _ _ J).
  - rewrite (part_field f ys y0 y None q m Bd A0 Pc I E). cbn [slot] in E. injection E as <-. apply in_base in I. destruct Ay as ((So & Pl & W) & _). now apply (item_field junk B (y_base y) q So Pl W I).
Qed.
Lemma value_mix f g ys i y p q m c b x idx a : bound f ys -> se_setup g = se_setup f -> troupe ys -> nth_error ys i = Some y -> In (p, q) (holdings D) -> slot y p = Some m -> indexed y p x idx ->
  (has_value g i (quantity_at (p, q)) 0 c b x a <-> exists mm, nth_error (se_mem g (i_name q) 0) i = Some mm /\ holds (nf_lay (nfield_of m (i_name q))) mm c b idx a).
Proof.
  intros Bd Eg T N I E (Hx & H). destruct (part_of_bound f g ys i y Bd Eg N) as (y0 & A0 & Pc & Np). pose proof (part_field f ys y0 y p q m Bd A0 Pc I E) as Ef. pose proof (troupe_at _ _ _ T N) as Ay.
  unfold has_value. cbn [quantity_at q_local q_name fst snd]. destruct p as [l|].
  - destruct H as (j & J & ->). pose proof (held_design D (Some l) q I) as Dl. cbn [of_design] in Dl. apply in_lot in I. destruct I as (t & It & <- & _).
    pose proof (pcalm_ids junk D y0 y t A0 Pc It) as Ei. pose proof (able_ids y (o_name t) Ay Dl) as Nd. pose proof (pcalm_number junk D y0 y x Pc) as En. split.
    + intros (pt & mm & Np' & Nm & (j' & _ & J' & Hh)). rewrite Np in Np'. injection Np' as <-. rewrite Ef in Hh. cbn [player_part pt_sub pt_ids] in J'. rewrite number_id, <- En, <- Ei in J'. rewrite (nodup_at _ _ _ _ Nd J' J) in Hh. exists mm. auto.
    + intros (mm & Nm & Hh). exists (player_part (vars_of f) y0), mm. split; [exact Np|]. split; [exact Nm|]. rewrite Ef. exists j. cbn [player_part pt_sub pt_ids]. split; [apply part_owns; now apply (pcalm_has junk D y0 y)|]. rewrite number_id, <- En, <- Ei. auto.
  - subst idx. cbn [slot] in E. injection E as <-. apply in_base in I. destruct Ay as ((So & Pl & W) & _). destruct (item_field junk B (y_base y) q So Pl W I) as (_ & _ & _ & _ & _ & El & _ & _ & O). split.
    + intros (pt & mm & Np' & Nm & Hh). rewrite Np in Np'. injection Np' as <-. rewrite Ef, El in Hh. exists mm. split; [exact Nm|apply Hh].
    + intros (mm & Nm & Hh). exists (player_part (vars_of f) y0), mm. split; [exact Np|]. split; [exact Nm|]. rewrite Ef, El. split; [now apply O|exact Hh].
Qed.

(** ** Opening *)
Lemma create_mix s gnames ls c : tied s -> all_names B gnames -> all_local_names D ls -> exists s', ystep zero junk s (YCreate gnames ls c) = (s', Ok tt) /\ z_players s' = z_players s /\ writable_mix s' /\ in_mode s' Creating /\ nb_frames s' = 0.
Proof.
  intros (T & _) AG AL. cbn [ystep]. unfold opening. destruct (start_mix junk D wk Creating (z_players s) gnames ls (mk_ncfile 0 (fun _ _ => 0)) (mk_ncfile 0 c) T AG AL) as (u & g & -> & _ & _ & E & _ & Nb & Md).
  cbn [bind]. rewrite E. cbn [MixModel.opened]. eexists. split; [reflexivity|]. split; [reflexivity|]. split; [split; [reflexivity|exists g; split; [reflexivity|congruence]]|]. split; [split; [reflexivity|exists g; auto]|exact Nb].
Qed.
Lemma open_mix s append gnames ls : tied s -> z_file s <> None -> all_names B gnames -> all_local_names D ls ->
  exists s', ystep zero junk s (YOpen append gnames ls) = (s', Ok tt) /\ z_players s' = z_players s /\ z_open s' = true /\ (append = true -> writable_mix s').
Proof.
  intros (T & _) NE AG AL. cbn [ystep]. destruct (z_file s) as [f|]; [|congruence]. unfold opening.
  destruct (start_mix junk D wk (if append then Appending else Reading) (z_players s) gnames ls (se_hfile f) (se_file f) T AG AL) as (u & g & -> & _ & _ & E & _ & Nb & Md).
  cbn [bind]. rewrite E. cbn [MixModel.opened]. eexists. split; [reflexivity|]. split; [reflexivity|]. split; [reflexivity|]. intros ->. split; [reflexivity|]. exists g. split; [reflexivity|congruence].
Qed.
Lemma append_mix s : tied s -> z_open s = true -> exists s', ystep zero junk s YAppendFrame = (s', Ok tt) /\ z_players s' = z_players s /\ z_open s' = true /\ nb_frames s' = nb_frames s + 1 /\ (writable_mix s -> writable_mix s').
Proof.
  intros (_ & Bd) O. cbn [ystep]. unfold MixModel.on_file, nb_frames, writable_mix. destruct (z_file s) as [f|]; [|congruence]. rewrite O. cbn [SessionModel.step].
  eexists. split; [reflexivity|]. split; [reflexivity|]. split; [reflexivity|]. split; [reflexivity|]. intros (_ & f0 & Ef & Md). split; [reflexivity|]. injection Ef as <-. eexists. split; [reflexivity|exact Md].
Qed.

(** ** The last write *)
Theorem mix_last_write ys l s1 known1 p q k names fr : assembled zero junk D ys -> plays zero junk D any_ycall (mk_ystate ys None false) [] l s1 known1 ->
  writable_mix s1 -> In (p, q) (holdings D) -> In (i_name q) names -> proper_mix zero junk D known1 s1 (YWrite k names) -> accessed k (nb_frames s1) = Ok fr ->
  exists s2, ystep zero junk s1 (YWrite k names) = (s2, Ok tt) /\ z_players s2 = z_players s1 /\
  forall l' s3 known3 k' names', plays zero junk D (leaves_mix (i_name q) fr) s2 (learns zero junk D known1 s1 (YWrite k names)) l' s3 known3 ->
    accessed fr (nb_frames s3) = Ok fr /\
    (z_open s3 = true -> In (i_name q) names' -> proper_mix zero junk D known3 s3 (YRead k' names') -> accessed k' (nb_frames s3) = Ok fr ->
     exists s4, ystep zero junk s3 (YRead k' names') = (s4, Ok tt) /\
     forall i v y m c b x idx a, array_at s1 i p v (i_name q) y m -> indexed y p x idx -> in_shape (i_comp q) c -> 0 <= b < i_nsub q -> view_get (m_py m) v (c ++ b :: idx) = Ok a ->
     forall j w y3 m3 idx3, array_at s3 j p w (i_name q) y3 m3 -> indexed y3 p x idx3 ->
     exists y4 m4, array_at s4 j p w (i_name q) y4 m4 /\ indexed y4 p x idx3 /\ view_get (m_py m4) w (c ++ b :: idx3) = Ok a).
Proof.
  intros As R1 (O1 & f1 & Ef1 & Md1) Iq Inq Pr Ac. pose proof (begin_tied_mix zero junk D ys As) as T0. pose proof (plays_tied zero junk D wk _ _ _ _ _ _ R1 T0) as T1.
  destruct (plays_created zero junk D wk _ _ _ _ _ f1 R1 T0 eq_refl Ef1) as (s0 & known0 & u0 & mem0 & hc0 & c0 & ops & RR).
  pose proof T1 as (Tm1 & B1). rewrite Ef1 in B1. specialize (B1 O1). set (mem1 := memory_mix (vars_of f1) (z_players s1)) in *. set (g1 := with_mem f1 mem1) in *.
  assert (RA : SessionSpec.run P anything f1 known1 [Assign mem1] g1 known1).
  { econstructor; [exact (bound_fit junk D wk f1 _ B1)|exact Logic.I|reflexivity|constructor]. }
  pose proof (run_follows D _ _ _ _ _ _ _ _ _ RR RA) as RR1. cbn [app] in RR1.
  destruct (SessionModel.step g1 (Write k names)) as [f2 r2] eqn:E2.
  set (qq := quantity_at (p, q)). assert (Iqq : In qq (pl_quantities P)) by (unfold qq; now apply in_map).
  assert (Al1 : allowed P known1 g1 (Write k names)).
  { destruct Pr as (Inc & Pk). split; [now apply named_mix|]. intros Md. apply positioned_mix, Pk. split; [exact O1|]. exists f1. auto. }
  destruct (last_write P s0 known0 u0 mem0 hc0 c0 _ g1 known1 qq k names fr f2 r2 RR1 Iqq Inq Al1) as (-> & LW);
    [exact Md1|unfold nb_frames in Ac; rewrite Ef1 in Ac; exact Ac|exact E2|].
  assert (Es2 : ystep zero junk s1 (YWrite k names) = (mk_ystate (z_players s1) (Some f2) true, Ok tt)) by (cbn [ystep]; unfold MixModel.on_file; rewrite Ef1, O1; fold mem1 g1; rewrite E2; reflexivity).
  exists (mk_ystate (z_players s1) (Some f2) true). split; [exact Es2|]. split; [reflexivity|].
  intros l' s3 known3 k' names' R3.
  assert (Lk : learn P known1 g1 (Write k names) (Ok tt) = learns zero junk D known1 s1 (YWrite k names)) by (apply learn_write; [exact Ef1|exact O1|now rewrite Es2]).
  rewrite Lk in LW.
  assert (T2 : tied (mk_ystate (z_players s1) (Some f2) true)).
  { pose proof (step_tied_mix zero junk D wk s1 known1 (YWrite k names) T1 Pr) as T2. rewrite Es2 in T2. exact T2. }
  pose proof (plays_tied zero junk D wk _ _ _ _ _ _ R3 T2) as T3.
  destruct (plays_file zero junk D wk _ _ _ _ _ _ _ (mirrors_leaves_mix (i_name q) fr) R3 f2 T2 eq_refl) as (f3 & ops3 & Ef3 & RR3).
  split.
  { destruct (LW ops3 f3 known3 0 [] f3 (Ok tt) RR3) as (LA & _); [exists 0; reflexivity|]. unfold nb_frames. rewrite Ef3. exact LA. }
  intros O3 Inq' Pr' Ac'. pose proof T3 as (Tm3 & B3). rewrite Ef3 in B3. specialize (B3 O3). set (mem3 := memory_mix (vars_of f3) (z_players s3)) in *. set (g3 := with_mem f3 mem3) in *.
  assert (RA3 : SessionSpec.run P (spares (i_name q) fr) f3 known3 [Assign mem3] g3 known3).
  { econstructor; [exact (bound_fit junk D wk f3 _ B3)|exact Logic.I|reflexivity|constructor]. }
  pose proof (run_follows D _ _ _ _ _ _ _ _ _ RR3 RA3) as RR4.
  destruct (SessionModel.step g3 (Read k' names')) as [f4 r4] eqn:E4.
  destruct (LW _ g3 known3 k' names' f4 r4 RR4) as (_ & LR); [exists 0; reflexivity|].
  destruct LR as (-> & LV); [destruct Pr' as (Inc' & Pk'); split; [now apply named_mix|now apply positioned_mix]|exact Inq'|unfold nb_frames in Ac'; rewrite Ef3 in Ac'; exact Ac'|exact E4|].
  assert (PR : positions_ranked g3).
  { destruct (run_created P anything _ _ _ _ _ _ _ _ _ RR1) as (pos & I1). destruct (step_inv P pos g1 known1 (Write k names) f2 (Ok tt) I1 Al1 eq_refl E2) as (I2 & _). rewrite Lk in I2.
    destruct (run_inv P _ _ _ _ _ _ RR4 (ex_intro _ pos I2)) as (pos' & I3). intros v0 l0 Iv0 El0. destruct B3 as (_ & _ & _ & _ & _ & LL). destruct (inv_shape _ _ _ _ I3 l0 (LL v0 l0 Iv0 El0)) as (Ln & _). exact Ln. }
  destruct (read_keeps k' names' g3 PR (bound_full junk D f3 _ B3)) as (SL & ES & _). rewrite E4 in SL, ES. cbn [fst] in SL, ES.
  assert (Ev : vars_of f4 = vars_of f3) by (unfold vars_of; rewrite ES; reflexivity).
  exists (mk_ystate (fetch_players (vars_of f4) 0 (se_mem f4) names' (z_players s3)) (Some f4) true). cbn [ystep]. unfold MixModel.on_file. rewrite Ef3, O3. fold mem3 g3. rewrite E4. split; [reflexivity|].
  intros i v y m c b x idx a (N1 & Sl1 & w1 & Nw & Vn & Vu) Hx Hc Hb Sh j w y3 m3 idx3 (N3 & Sl3 & w3 & Nw3 & Vn3 & Vu3) Hx3.
  pose proof (troupe_at _ _ _ Tm1 N1) as A1. pose proof (troupe_at _ _ _ Tm3 N3) as A3. pose proof (held_design D p q Iq) as Dp.
  assert (So1 : sound m) by (destruct (slot_able junk D y p A1 Dp) as (m' & E' & So); congruence). assert (So3 : sound m3) by (destruct (slot_able junk D y3 p A3 Dp) as (m' & E' & So); congruence).
  pose proof (slot_carries junk D y p q m A1 Iq Sl1) as C1. pose proof (slot_carries junk D y3 p q m3 A3 Iq Sl3) as C3.
  apply (view_holds junk m v w1 q c b idx a So1 C1 Nw Vn Vu Hc Hb (index_inside y p q m x idx A1 Iq Sl1 Hx)) in Sh.
  pose proof B1 as (_ & _ & _ & _ & Wh1 & _). pose proof B3 as (_ & _ & _ & _ & Wh3 & _).
  assert (HV : has_value g1 i qq 0 c b x a).
  { apply (value_mix f1 g1 (z_players s1) i y p q m c b x idx a B1 eq_refl Tm1 N1 Iq Sl1 Hx). exists (values m (i_name q)). split; [|exact Sh]. cbn [g1 with_mem se_mem]. unfold mem1, memory_mix.
    rewrite (map_nth_error _ _ _ N1). f_equal. now apply (field_found _ y p q m (Wh1 _ _ Iq)). }
  assert (HP : has_pixel g3 j qq x) by exact (pixel_mix f3 g3 (z_players s3) j y3 p q m3 x idx3 B3 eq_refl Tm3 N3 Iq Sl3 Hx3).
  specialize (LV 0 i j c b x a eq_refl Hc Hb HV HP).
  apply (value_mix f3 f4 (z_players s3) j y3 p q m3 c b x idx3 a B3 ES Tm3 N3 Iq Sl3 Hx3) in LV. destruct LV as (mm & Nm & Hh).
  assert (Ln : nth j (se_mem f4 (i_name q) 0) [] = mm) by now apply nth_error_nth.
  destruct C3 as (r & Lr & C3').
  assert (Lm : length mm = length (f_vals (rf_field r))).
  { specialize (SL (i_name q) 0). apply (map_nth_error (@length A)) in Nm. rewrite SL in Nm. unfold g3 in Nm. cbn [with_mem se_mem] in Nm. unfold mem3, memory_mix in Nm. rewrite map_map in Nm.
    rewrite (map_nth_error (fun y => length (values_at (vars_of f3) y (i_name q))) _ _ N3) in Nm. injection Nm as Nm. destruct (field_found _ y3 p q m3 (Wh3 _ _ Iq) Sl3) as (_ & Ef). rewrite Ef in Nm. unfold values in Nm. rewrite Lr in Nm. congruence. }
  set (ns := filter (here (vars_of f4) p) names'). set (m4 := fetch j (se_mem f4) ns m3). destruct (fetch_calm junk j (se_mem f4) ns m3 So3) as (So4 & Ca4). fold m4 in So4, Ca4.
  assert (C4 : carries m4 q) by (apply (calm_carries m3 m4 q Ca4); exists r; auto).
  assert (Hin : In (i_name q) ns).
  { apply filter_In. split; [exact Inq'|]. unfold here. rewrite Ev, (Wh3 _ _ Iq). destruct p; [apply String.eqb_refl|reflexivity]. }
  assert (V4 : values m4 (i_name q) = mm).
  { unfold m4. rewrite <- Ln. apply (fetch_value junk j (se_mem f4) ns (i_name q) m3 r So3 Lr); [now rewrite Ln|now left]. }
  pose proof Ca4 as ((_ & _ & Eb4 & _ & Ev4) & _).
  set (y4 := fetch_player (vars_of f4) j (se_mem f4) names' y3).
  pose proof (fetch_player_calm junk D (vars_of f4) j (se_mem f4) names' y3 A3) as Pc4. fold y4 in Pc4.
  assert (Sl4 : slot y4 p = Some m4) by (unfold y4, m4, ns; now apply fetch_slot).
  assert (Hx4 : indexed y4 p x idx3).
  { destruct Hx3 as (Hx3 & H3). split; [now apply (pcalm_has junk D y3 y4)|]. destruct p as [l0|].
    - destruct H3 as (j0 & J0 & ->). exists j0. split; [|reflexivity]. pose proof Iq as I0. apply in_lot in I0. destruct I0 as (t & It & <- & _). rewrite (pcalm_ids junk D y3 y4 t A3 Pc4 It), (pcalm_number junk D y3 y4 x Pc4). exact J0.
    - destruct Pc4 as (((_ & El & _) & _) & _). now rewrite El. }
  exists y4, m4. split; [|split; [exact Hx4|]].
  - split; [cbn [z_players]; rewrite fetch_players_nth, N3; reflexivity|]. split; [exact Sl4|]. exists w3. auto.
  - apply (view_holds junk m4 w w3 q c b idx3 a So4 C4 (Ev4 _ _ Nw3) Vn3 Vu3 Hc Hb); [rewrite Eb4; exact (index_inside y3 p q m3 x idx3 A3 Iq Sl3 Hx3)|].
    rewrite V4, (calm_field m3 m4 q Ca4) by (exists r; auto). exact Hh.
Qed.

(** ** Other fields *)
Lemma mix_others ys l s known k names : assembled zero junk D ys -> plays zero junk D any_ycall (mk_ystate ys None false) [] l s known -> incl names (field_names D) ->
  let s' := fst (ystep zero junk s (YRead k names)) in
  forall j p v y m w, nth_error (z_players s) j = Some y -> slot y p = Some m -> nth_error (p_views (m_py m)) v = Some w ->
  (forall q, In (p, q) (holdings D) -> In (i_name q) names -> PyArrayModel.v_name w <> i_name q) ->
  exists y' m', nth_error (z_players s') j = Some y' /\ slot y' p = Some m' /\ nth_error (p_views (m_py m')) v = Some w /\ pixel_ids m' = pixel_ids m /\
    forall idx, view_get (m_py m') v idx = view_get (m_py m) v idx.
Proof.
  intros As R Inc s' j p v y m w N E Nw Nn. pose proof (plays_tied zero junk D wk _ _ _ _ _ _ R (begin_tied_mix zero junk D ys As)) as (T & Bd).
  assert (Triv : z_players s' = z_players s -> exists y' m', nth_error (z_players s') j = Some y' /\ slot y' p = Some m' /\ nth_error (p_views (m_py m')) v = Some w /\ pixel_ids m' = pixel_ids m /\
    forall idx, view_get (m_py m') v idx = view_get (m_py m) v idx) by (intros ->; exists y, m; auto 10).
  unfold s' in *. cbn [ystep] in *. unfold MixModel.on_file in *. destruct (z_file s) as [f|] eqn:Ef; [|now apply Triv]. destruct (z_open s) eqn:Eo; [|now apply Triv]. specialize (Bd eq_refl). destruct Bd as (_ & _ & _ & _ & Wh & _).
  pose proof (read_setup k names (with_mem f (memory_mix (vars_of f) (z_players s)))) as RS. destruct (SessionModel.step _ (Read k names)) as [f' r]. cbn [fst] in RS. cbn [fst z_players].
  assert (Ev : vars_of f' = vars_of f) by (unfold vars_of; rewrite RS; reflexivity). rewrite fetch_players_nth, N. cbn [option_map]. rewrite Nat.add_0_l.
  set (ns := filter (here (vars_of f') p) names). set (m' := fetch j (se_mem f') ns m). exists (fetch_player (vars_of f') j (se_mem f') names y), m'. split; [reflexivity|]. split; [now apply fetch_slot|].
  assert (HN : forall n, In n ns -> exists q, In (p, q) (holdings D) /\ i_name q = n).
  { intros n Hn. apply filter_In in Hn. destruct Hn as (Hn & Hh). apply Inc in Hn. unfold field_names in Hn. apply in_map_iff in Hn. destruct Hn as ([p' q] & <- & I). cbn [snd] in *. exists q. split; [|reflexivity].
    unfold here in Hh. rewrite Ev, (Wh _ _ I) in Hh. destruct p' as [a|], p as [b|]; try discriminate Hh; [|exact I]. apply String.eqb_eq in Hh. now subst b. }
  assert (Nv : ~ In (PyArrayModel.v_name w) ns).
  { intros Hw. destruct (HN _ Hw) as (q & Iq & Eq). apply (Nn q Iq); [|now symmetry]. rewrite Eq. unfold ns in Hw. apply filter_In in Hw. apply Hw. }
  assert (Hd : ns = [] \/ exists n0, In n0 ns) by (clearbody ns; destruct ns as [|n0 ns0]; [now left|right; exists n0; now left]).
  destruct Hd as [En|(n0 & In0)]; [unfold m'; rewrite En; cbn [fetch fold_left]; auto|].
  assert (Dp : of_design D p) by (destruct (HN n0 In0) as (q & Iq & _); exact (held_design D p q Iq)).
  destruct (slot_able junk D y p (troupe_at _ _ _ T N) Dp) as (m0 & E0 & So). rewrite E in E0. injection E0 as <-.
  destruct (fetch_calm junk j (se_mem f') ns m So) as (So' & Ca). pose proof (fetch_other j (se_mem f') ns _ m Nv) as Evl. fold m' in So', Ca, Evl.
  split; [now apply Ca|]. split; [now apply calm_ids|]. intros idx. destruct Ca as ((_ & _ & _ & F & V) & _).
  destruct So as (_ & _ & _ & Vm). destruct (Vm _ _ Nw) as (r1 & M1). destruct So' as (_ & _ & _ & Vm'). destruct (Vm' _ _ (V _ _ Nw)) as (r2 & M2).
  pose proof M1 as (_ & L1 & _ & G1). pose proof M2 as (_ & L2 & _ & G2). unfold values in Evl. rewrite L1, L2 in Evl.
  rewrite (on_memory_get junk _ _ _ _ _ M1), (on_memory_get junk _ _ _ _ _ M2). now rewrite Evl.
Qed.
End P.
