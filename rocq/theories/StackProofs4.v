(** What programs with arrays and files rely on. *)
From Coq Require Import String Sorting.Sorted.
From Verif Require Import Base CIntModel GridModel GridSpec StridedModel UnitsModel LayoutModel LayoutSpec LayoutProofs FieldModel FieldSpec.
From Verif Require Import RegistryModel RegistrySpec RegistryProofs RegistryProofs2 NumpyModel NumpySpec PyArrayModel PyArraySpec PyArrayProofs.
From Verif Require Import FrameModel CommModel NetCDFModel NetCDFSpec NetCDFProofs4 NetCDFProofs5 SessionModel SessionSpec SessionProofs SessionProofs5 StackModel StackSpec StackProofs StackProofs2 StackProofs3.
Local Open Scope Z_scope.
Local Open Scope list_scope.

Section P.
Context {A : Type} (zero junk : A).
Variable S : scheme.
Hypothesis acc : acceptable S.
Implicit Types (m : member A) (ms : list (member A)) (s : state A) (f g : SessionModel.session A).
Notation team := (team junk S).
Notation sound := (@sound A junk).
Notation P := (plan_of S).
Notation tied := (tied junk S).
Notation bound := (bound junk S).

Lemma team_fine ms i m : team ms -> nth_error ms i = Some m -> fine junk S m.
Proof. intros (_ & F & _) N. rewrite Forall_forall in F. exact (F _ (nth_error_In _ _ N)). Qed.
Lemma file_pixel f g ms i m q x : bound f ms -> se_setup g = se_setup f -> team ms -> nth_error ms i = Some m -> In q (sc_items S) -> has m x -> has_pixel g i (quantity_of q) x.
Proof.
  intros (ms0 & T0 & F & E & _) Eg T N Iq Hx. destruct (steady_nth _ _ _ _ F N) as (m0 & N0 & St). pose proof (team_fine _ _ _ T0 N0) as F0.
  exists (part_of m0). split; [rewrite Eg, E; now apply map_nth_error|]. cbn [quantity_of q_local q_name part_of pt_field].
  rewrite <- (same_field junk S m0 m q St F0 Iq). pose proof (team_fine _ _ _ T N) as (So & Pl & W). now apply (item_field junk S m q So Pl W Iq).
Qed.
Lemma file_value f g ms i m q c b x a : bound f ms -> se_setup g = se_setup f -> team ms -> nth_error ms i = Some m -> In q (sc_items S) -> has m x ->
  (has_value g i (quantity_of q) 0 c b x a <-> exists mm, nth_error (se_mem g (i_name q) 0) i = Some mm /\ holds (nf_lay (nfield_of m (i_name q))) mm c b (shift (m_loc m) x) a).
Proof.
  intros (ms0 & T0 & F & E & _) Eg T N Iq Hx. destruct (steady_nth _ _ _ _ F N) as (m0 & N0 & St). pose proof (team_fine _ _ _ T0 N0) as F0.
  pose proof (same_field junk S m0 m q St F0 Iq) as Es. pose proof (team_fine _ _ _ T N) as (So & Pl & W).
  destruct (item_field junk S m q So Pl W Iq) as (_ & _ & _ & _ & _ & El & _ & _ & O).
  assert (Np : nth_error (su_parts (se_setup g)) i = Some (part_of m0)) by (rewrite Eg, E; now apply map_nth_error).
  unfold has_value. cbn [quantity_of q_local q_name]. split.
  - intros (p & mm & Np' & Nm & Hh). rewrite Np in Np'. injection Np' as <-. cbn [part_of pt_field] in Hh. rewrite <- Es, El in Hh. exists mm. split; [exact Nm|apply Hh].
  - intros (mm & Nm & Hh). exists (part_of m0), mm. split; [exact Np|]. split; [exact Nm|]. cbn [part_of pt_field]. rewrite <- Es, El. split; [now apply O|exact Hh].
Qed.

(** ** Opening *)
Lemma tied_create s names c : tied s -> all_names S names -> exists s', tstep zero junk s (TCreate names c) = (s', Ok tt) /\ t_members s' = t_members s /\ writable s' /\ frames s' = 0.
Proof.
  intros (T & _) AN. cbn [tstep]. destruct (start_ok junk S acc Creating (t_members s) names (mk_ncfile 0 (fun _ _ => 0)) (mk_ncfile 0 c) T AN) as (u & g & -> & _ & _ & E & _ & Nb & Md).
  cbn [bind]. rewrite E. cbn [opened]. eexists. split; [reflexivity|]. split; [reflexivity|]. split; [split; [reflexivity|exists g; split; [reflexivity|congruence]]|exact Nb].
Qed.
Lemma tied_open s append names : tied s -> t_file s <> None -> all_names S names ->
  exists s', tstep zero junk s (TOpen append names) = (s', Ok tt) /\ t_members s' = t_members s /\ t_open s' = true /\ (append = true -> writable s').
Proof.
  intros (T & _) NE AN. cbn [tstep]. destruct (t_file s) as [f|]; [|congruence].
  destruct (start_ok junk S acc (if append then Appending else Reading) (t_members s) names (se_hfile f) (se_file f) T AN) as (u & g & -> & _ & _ & E & _ & Nb & Md).
  cbn [bind]. rewrite E. cbn [opened]. eexists. split; [reflexivity|]. split; [reflexivity|]. split; [reflexivity|]. intros ->. split; [reflexivity|]. exists g. split; [reflexivity|congruence].
Qed.
Lemma tied_append s : tied s -> t_open s = true -> exists s', tstep zero junk s TAppendFrame = (s', Ok tt) /\ t_members s' = t_members s /\ t_open s' = true /\ frames s' = frames s + 1 /\ (writable s -> writable s').
Proof.
  intros (_ & B) O. cbn [tstep]. unfold on_file, frames, writable. destruct (t_file s) as [f|]; [|congruence]. rewrite O. cbn [SessionModel.step].
  eexists. split; [reflexivity|]. split; [reflexivity|]. split; [reflexivity|]. split; [reflexivity|]. intros (_ & f0 & Ef & Md). split; [reflexivity|]. injection Ef as <-. eexists. split; [reflexivity|exact Md].
Qed.

(** ** The last write *)
Theorem stack_last_write ms l s1 q k names fr : together zero junk S ms -> runs zero junk S any_call (mk_state ms None false) l s1 ->
  writable s1 -> In q (sc_items S) -> In (i_name q) names -> incl names (map i_name (sc_items S)) -> accessed k (frames s1) = Ok fr ->
  exists s2, tstep zero junk s1 (TWrite k names) = (s2, Ok tt) /\ t_members s2 = t_members s1 /\
  forall l' s3 k' names', runs zero junk S (leaves (i_name q) fr) s2 l' s3 ->
    accessed fr (frames s3) = Ok fr /\
    (t_open s3 = true -> In (i_name q) names' -> incl names' (map i_name (sc_items S)) -> accessed k' (frames s3) = Ok fr ->
     exists s4, tstep zero junk s3 (TRead k' names') = (s4, Ok tt) /\
     forall i v m c b x a, array_of s1 i v (i_name q) m -> has m x -> in_shape (i_comp q) c -> 0 <= b < i_nsub q -> shows m v c b x a ->
     forall j w m3, array_of s3 j w (i_name q) m3 -> has m3 x -> exists m4, array_of s4 j w (i_name q) m4 /\ shows m4 w c b x a).
Proof.
  intros Tg R1 (O1 & f1 & Ef1 & Md1) Iq Inq Inc Ac. pose proof (begin_tied zero junk S ms Tg) as T0. pose proof (runs_tied zero junk S acc _ _ _ _ R1 T0) as T1.
  destruct (runs_created zero junk S acc _ _ _ f1 R1 T0 eq_refl Ef1) as (s0 & known0 & u0 & mem0 & hc0 & c0 & ops & known1 & RR).
  pose proof T1 as (Tm1 & B1). rewrite Ef1 in B1. specialize (B1 O1). set (mem1 := memory (t_members s1)) in *. set (g1 := with_mem f1 mem1) in *.
  assert (RA : SessionSpec.run P anything f1 known1 [Assign mem1] g1 (learn P known1 f1 (Assign mem1) (Ok tt))).
  { econstructor; [exact (bound_sized junk S f1 _ B1 Tm1)|exact Logic.I|reflexivity|constructor]. }
  pose proof (run_app S _ _ _ _ _ _ _ _ _ RR RA) as RR1. cbn [app] in RR1. set (kn := learn P known1 f1 (Assign mem1) (Ok tt)) in *.
  destruct (SessionModel.step g1 (Write k names)) as [f2 r2] eqn:E2.
  assert (Iqq : In (quantity_of q) (pl_quantities P)) by now apply in_map.
  destruct (last_write P s0 known0 u0 mem0 hc0 c0 _ g1 kn (quantity_of q) k names fr f2 r2 RR1 Iqq Inq) as (-> & LW);
    [split; [now apply named_of|intros _; apply positioned_of]|exact Md1|unfold frames in Ac; rewrite Ef1 in Ac; exact Ac|exact E2|].
  exists (mk_state (t_members s1) (Some f2) true). cbn [tstep]. unfold on_file. rewrite Ef1, O1. fold mem1 g1. rewrite E2. split; [reflexivity|]. split; [reflexivity|].
  intros l' s3 k' names' R3.
  assert (T2 : tied (mk_state (t_members s1) (Some f2) true)).
  { pose proof (step_tied zero junk S acc s1 (TWrite k names) T1 Inc) as T2. cbn [tstep] in T2. unfold on_file in T2. rewrite Ef1, O1 in T2. fold mem1 g1 in T2. rewrite E2 in T2. exact T2. }
  pose proof (runs_tied zero junk S acc _ _ _ _ R3 T2) as T3.
  destruct (runs_file zero junk S acc _ _ _ _ _ (mirrors_leaves (i_name q) fr) R3 f2 (learn P kn g1 (Write k names) (Ok tt)) T2 eq_refl) as (f3 & ops3 & known3 & Ef3 & RR3).
  split.
  { destruct (LW ops3 f3 known3 0 [] f3 (Ok tt) RR3) as (LA & _); [exists 0; reflexivity|]. unfold frames. rewrite Ef3. exact LA. }
  intros O3 Inq' Inc' Ac'. pose proof T3 as (Tm3 & B3). rewrite Ef3 in B3. specialize (B3 O3). set (mem3 := memory (t_members s3)) in *. set (g3 := with_mem f3 mem3) in *.
  assert (RA3 : SessionSpec.run P (spares (i_name q) fr) f3 known3 [Assign mem3] g3 (learn P known3 f3 (Assign mem3) (Ok tt))).
  { econstructor; [exact (bound_sized junk S f3 _ B3 Tm3)|exact Logic.I|reflexivity|constructor]. }
  pose proof (run_app S _ _ _ _ _ _ _ _ _ RR3 RA3) as RR4. set (kn3 := learn P known3 f3 (Assign mem3) (Ok tt)) in *.
  destruct (SessionModel.step g3 (Read k' names')) as [f4 r4] eqn:E4.
  destruct (LW _ g3 kn3 k' names' f4 r4 RR4) as (_ & LR); [exists 0; reflexivity|].
  destruct LR as (-> & LV); [split; [now apply named_of|apply positioned_of]|exact Inq'|unfold frames in Ac'; rewrite Ef3 in Ac'; exact Ac'|exact E4|].
  destruct (read_lengths k' names' g3) as (SL & ES & _); [destruct B3 as (mm0 & _ & _ & _ & Lf); exact Lf|exact (bound_ranked junk S f3 _ B3)|].
  rewrite E4 in SL, ES. cbn [fst] in SL, ES.
  exists (mk_state (fetch_from 0 (se_mem f4) names' (t_members s3)) (Some f4) true). cbn [tstep]. unfold on_file. rewrite Ef3, O3. fold mem3 g3. rewrite E4. split; [reflexivity|].
  intros i v m c b x a (N1 & w1 & Nw & Vn & Vu) Hx Hc Hb Sh j w m3 (N3 & w3 & Nw3 & Vn3 & Vu3) Hx3.
  pose proof (team_fine _ _ _ Tm1 N1) as (So1 & Pl1 & W1). pose proof (team_fine _ _ _ Tm3 N3) as F3. pose proof F3 as (So3 & Pl3 & W3).
  apply (array_holds junk S m v w1 q c b x a So1 Pl1 W1 Iq Nw Vn Vu Hx Hc Hb) in Sh.
  assert (HV : has_value g1 i (quantity_of q) 0 c b x a).
  { apply (file_value f1 g1 (t_members s1) i m q); auto. exists (values m (i_name q)). split; [|exact Sh]. cbn [g1 with_mem se_mem]. unfold mem1, memory. now apply map_nth_error with (f := fun m => values m (i_name q)). }
  assert (HP : has_pixel g3 j (quantity_of q) x) by (apply (file_pixel f3 g3 (t_members s3) j m3 q); auto).
  specialize (LV 0 i j c b x a eq_refl Hc Hb HV HP).
  apply (file_value f3 f4 (t_members s3) j m3 q) in LV; auto. destruct LV as (mm & Nm & Hh).
  assert (Ln : nth j (se_mem f4 (i_name q) 0) [] = mm) by now apply nth_error_nth.
  destruct (W3 q Iq) as (r & Lr & _).
  assert (Lm : length mm = length (f_vals (rf_field r))).
  { specialize (SL (i_name q) 0). apply (map_nth_error (@length A)) in Nm. rewrite SL in Nm. unfold g3 in Nm. cbn [with_mem se_mem] in Nm. unfold mem3, memory in Nm. rewrite map_map in Nm.
    rewrite (map_nth_error (fun m => length (values m (i_name q))) _ _ N3) in Nm. injection Nm as Nm. unfold values in Nm. rewrite Lr in Nm. congruence. }
  set (m4 := fetch j (se_mem f4) names' m3). destruct (fetch_steady junk j (se_mem f4) names' m3 So3) as (So4 & St4). fold m4 in So4, St4.
  assert (F4 : fine junk S m4) by exact (steady_fine junk S m3 m4 St4 So4 F3). pose proof F4 as (_ & Pl4 & W4).
  assert (V4 : values m4 (i_name q) = mm).
  { unfold m4. rewrite <- Ln. apply (fetch_value junk j (se_mem f4) names' (i_name q) m3 r So3 Lr); [now rewrite Ln|now left]. }
  pose proof St4 as (_ & El4 & Eb4 & _ & Ev4).
  exists m4. split.
  - split; [cbn [t_members]; rewrite fetch_nth, N3; reflexivity|]. exists w3. auto.
  - apply (array_holds junk S m4 w w3 q c b x a So4 Pl4 W4 Iq (Ev4 _ _ Nw3) Vn3 Vu3); auto; [unfold has; rewrite Eb4, El4; exact Hx3|].
    rewrite V4, (same_field junk S m3 m4 q St4 F3 Iq), El4. exact Hh.
Qed.

(** ** Other fields *)
Lemma stack_others ms l s k names : together zero junk S ms -> runs zero junk S any_call (mk_state ms None false) l s ->
  let s' := fst (tstep zero junk s (TRead k names)) in
  forall j v m w, nth_error (t_members s) j = Some m -> nth_error (p_views (m_py m)) v = Some w -> ~ In (PyArrayModel.v_name w) names ->
  exists m', nth_error (t_members s') j = Some m' /\ nth_error (p_views (m_py m')) v = Some w /\ forall idx, view_get (m_py m') v idx = view_get (m_py m) v idx.
Proof.
  intros Tg R s' j v m w N Nw Nn. pose proof (runs_tied zero junk S acc _ _ _ _ R (begin_tied zero junk S ms Tg)) as (T & _).
  assert (Triv : s' = s -> exists m', nth_error (t_members s') j = Some m' /\ nth_error (p_views (m_py m')) v = Some w /\ forall idx, view_get (m_py m') v idx = view_get (m_py m) v idx) by (intros ->; exists m; auto).
  unfold s' in *. cbn [tstep] in *. unfold on_file in *. destruct (t_file s) as [f|]; [|now apply Triv]. destruct (t_open s); [|now apply Triv].
  destruct (SessionModel.step _ _) as [f' r]. cbn [fst t_members]. rewrite fetch_nth, N. cbn [option_map]. rewrite Nat.add_0_l.
  pose proof (team_fine _ _ _ T N) as (So & _). destruct (fetch_steady junk j (se_mem f') names m So) as (So' & (_ & _ & _ & F & V)). pose proof (fetch_other j (se_mem f') names _ m Nn) as Ev.
  set (m' := fetch j (se_mem f') names m) in *. exists m'. split; [reflexivity|]. split; [now apply V|]. intros idx.
  destruct So as (_ & _ & _ & Vm). destruct (Vm _ _ Nw) as (r1 & M1). destruct So' as (_ & _ & _ & Vm'). destruct (Vm' _ _ (V _ _ Nw)) as (r2 & M2).
  pose proof M1 as (_ & L1 & _ & G1). pose proof M2 as (_ & L2 & _ & G2). unfold values in Ev. rewrite L1, L2 in Ev.
  rewrite (on_memory_get junk _ _ _ _ _ M1), (on_memory_get junk _ _ _ _ _ M2). now rewrite Ev.
Qed.
End P.
