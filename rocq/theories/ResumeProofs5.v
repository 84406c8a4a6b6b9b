(** What arrays show in programs with state fields and files; the last write. *)
From Coq Require Import String Sorting.Sorted.
From Verif Require Import Base CIntModel GridModel GridSpec StridedModel StridedProofs UnitsModel LayoutModel LayoutSpec LayoutProofs FieldModel FieldSpec.
From Verif Require Import RegistryModel RegistrySpec RegistryProofs RegistryProofs2 StateModel StateSpec StateProofs StateProofs2 NumpyModel NumpySpec NumpyProofs6 PyArrayModel PyArraySpec PyArrayProofs.
From Verif Require Import FrameModel CommModel NetCDFModel NetCDFSpec NetCDFProofs4 NetCDFProofs5 SessionModel SessionSpec SessionProofs SessionProofs5 StackModel StackSpec StackProofs StackProofs2 StackProofs3.
From Verif Require Import ResumeModel ResumeSpec ResumeProofs ResumeProofs2 ResumeProofs3 ResumeProofs4.
Local Open Scope Z_scope.
Local Open Scope list_scope.

Section P.
Context {A : Type} (zero junk : A).
Implicit Types (p : proc A) (ps : list (proc A)) (s : rstate A) (m : member A) (f : SessionModel.session A).
Variable D : design.
Hypothesis suit : suitable D.
Notation S := (phys D).
Notation able := (able junk D).
Notation kept := (kept junk D).
Notation firm := (firm junk).
Notation P := (plan_for D).
Notation tied := (tied junk D).
Notation bound := (bound junk D).
Notation sees := (ResumeSpec.sees zero junk).
Notation shown := (shown zero junk).

(** ** Values of a process *)
Definition stored_at p (n : string) (c : list Z) (b : Z) (x : list Z) (a : A) : Prop :=
  holds (nf_lay (nfield_of (r_m p) n)) (values (r_m p) n) c b (shift (m_loc (r_m p)) x) a.
Lemma array_taken m n r : sound junk m -> lookup n (c_fields (p_coll (m_py m))) = Some r -> sane (f_lay (rf_field r)) -> Forall (fun k => 0 <= k) (l_pix (f_lay (rf_field r))) ->
  exists v, member_step zero junk m (PArray n SubPt) = (mk_member (PyArrayModel.mk_session (p_coll (m_py m)) (p_views (m_py m) ++ [v])) (m_dom m) (m_loc m), Ok tt) /\
    PyArrayModel.v_name v = n /\ v_unit v = SubPt.
Proof.
  intros So L Sn Px. destruct (array_given zero junk (m_py m) n SubPt r) as (s1 & E); [unfold get_field; now rewrite L|split; [exact Sn|exact Logic.I]|exact Px|].
  unfold member_step. cbn [pystep] in *. destruct (get_array junk (p_coll (m_py m)) n SubPt) as [v| |] eqn:G; [|discriminate E..].
  exists v. destruct (get_array_fields _ _ _ _ _ G) as (Vn & Vu & _). auto.
Qed.
Lemma box_nonneg p : kept p -> Forall (fun k => 0 <= k) (box (r_m p)).
Proof.
  intros (_ & (_ & _ & L & R) & _). apply Forall_forall. intros k Ik. destruct (In_nth _ _ 0 Ik) as (i & Hi & E). rewrite L in Hi. specialize (R i Hi). unfold zn in R. lia.
Qed.
Lemma take_array p g n : kept p -> In g (ds_things D) -> In (item_at g n) (items_of g) ->
  exists v, member_step zero junk (r_m p) (PArray n SubPt) = (mk_member (PyArrayModel.mk_session (p_coll (m_py (r_m p))) (p_views (m_py (r_m p)) ++ [v])) (m_dom (r_m p)) (m_loc (r_m p)), Ok tt) /\
    PyArrayModel.v_name v = n /\ v_unit v = SubPt.
Proof.
  intros K Ig I. destruct (entry_lookup junk D p g n K Ig I) as (r & L & _ & E). destruct (entry_item junk D p g n K Ig I) as (Sn & _ & _ & _ & _ & _ & Ep & _).
  rewrite E in Sn, Ep. cbn [field_for nf_lay] in Sn, Ep. apply (array_taken _ _ r); auto; [apply K|]. rewrite Ep. now apply box_nonneg.
Qed.
Lemma view_holds p g n v w c b x a : kept p -> In g (ds_things D) -> In (item_at g n) (items_of g) -> nth_error (p_views (m_py (r_m p))) v = Some w -> PyArrayModel.v_name w = n -> v_unit w = SubPt ->
  has (r_m p) x -> in_shape (i_comp (g_item g)) c -> 0 <= b < i_nsub (g_item g) -> (shows (r_m p) v c b x a <-> stored_at p n c b x a).
Proof.
  intros K Ig I N Vn Vu Hx Hc Hb. destruct (kept_fine junk D p K) as (So & Pl & W). exact (array_holds junk S (r_m p) v w (item_at g n) c b x a So Pl W (item_in D g n Ig I) N Vn Vu Hx Hc Hb).
Qed.
Lemma sees_stored p g h n c b x a : kept p -> In g (ds_things D) -> state_of g h -> field_of p g h = Ok n -> has (r_m p) x -> in_shape (i_comp (g_item g)) c -> 0 <= b < i_nsub (g_item g) ->
  (sees p g h c b x a <-> stored_at p n c b x a).
Proof.
  intros K Ig Hh E Hx Hc Hb. assert (I : In (item_at g n) (items_of g)) by (destruct (field_found junk D p g h K Ig Hh) as (n' & E' & I); congruence).
  destruct (take_array p g n K Ig I) as (v & Em & Vn & Vu). set (m1 := mk_member _ _ _) in Em.
  destruct K as ((So & St) & K2). pose proof (member_steady zero junk (r_m p) (PArray n SubPt) So Logic.I) as (S1 & T1). rewrite Em in S1, T1. cbn [fst] in S1, T1.
  assert (K1 : kept (mk_proc m1 (r_states p))) by (apply (follows_kept junk D p); [split; [exact T1|eauto]|split; [exact S1|exact St]|split; [split; assumption|exact K2]]).
  assert (N : nth_error (p_views (m_py m1)) (length (p_views (m_py (r_m p)))) = Some v) by (cbn [m1 m_py p_views]; rewrite nth_error_app2, Nat.sub_diag by lia; reflexivity).
  assert (Hx1 : has m1 x) by exact Hx. pose proof (view_holds (mk_proc m1 (r_states p)) g n _ v c b x a K1 Ig I N Vn Vu Hx1 Hc Hb) as VH. cbn [r_m] in VH.
  change (stored_at (mk_proc m1 (r_states p)) n c b x a) with (stored_at p n c b x a) in VH. split.
  - intros (n' & m' & E' & Em' & Sh). rewrite E in E'. apply Ok_inj in E'. subst n'. rewrite Em in Em'. injection Em' as <-. now apply VH.
  - intros H. exists n, m1. split; [exact E|]. split; [exact Em|]. now apply VH.
Qed.
Lemma stored_fun p n c b x a a' : stored_at p n c b x a -> stored_at p n c b x a' -> a = a'.
Proof. intros (s & E & R) (s' & E' & R'). rewrite E in E'. apply Ok_inj in E'. subst s'. rewrite R in R'. now apply Ok_inj in R'. Qed.
Lemma entry_index p g n c b x : kept p -> In g (ds_things D) -> In (item_at g n) (items_of g) -> has (r_m p) x -> in_shape (i_comp (g_item g)) c -> 0 <= b < i_nsub (g_item g) ->
  let f := nfield_of (r_m p) n in exists st, get_strides (nf_lay f) SubPt 1 = Ok st /\ in_shape (get_shape (nf_lay f) SubPt) (c ++ b :: shift (m_loc (r_m p)) x) /\
    embeds (get_shape (nf_lay f) SubPt) st (Z.of_nat (length (values (r_m p) n))).
Proof.
  intros K Ig I Hx Hc Hb f. destruct (entry_item junk D p g n K Ig I) as (Sn & Ec & Es & _ & _ & El & Ep & Ds & Ow). fold f in Sn, Ec, Es, El, Ep, Ds, Ow.
  destruct (viewable_embeds (nf_lay f) SubPt) as (st & E & Em); [split; [exact Sn|exact Logic.I]|]. exists st. split; [exact E|]. split.
  - unfold get_shape, get_sub_pt_shape. rewrite Ec, Es, <- app_assoc. apply in_shape_app. exists c, (b :: shift (m_loc (r_m p)) x). split; [reflexivity|]. split; [exact Hc|].
    apply in_shape_cons. exists b, (shift (m_loc (r_m p)) x). split; [reflexivity|]. split; [exact Hb|]. rewrite <- El. apply owns_shift; [|now apply Ow].
    rewrite El, Ep. destruct K as (_ & (_ & L1 & L2 & _) & _). congruence.
  - destruct (entry_lookup junk D p g n K Ig I) as (r & L & _ & Ef). fold f in Ef. unfold values. rewrite L. rewrite Ef in *. cbn [field_for nf_lay] in *.
    destruct K as ((((_ & _ & _ & H) & Ini & _) & _) & _). destruct (H _ _ L) as (At & St). destruct (St Ini) as (_ & _ & Ln & _). unfold len in Ln. rewrite Ln.
    destruct Em as (E1 & E2 & E3). split; [exact E1|]. split; [|exact E3]. intros i Hi. specialize (E2 i Hi). unfold buffer_scalars in E2. destruct At as (Pd & _). lia.
Qed.
Lemma stored_some p g n c b x : kept p -> In g (ds_things D) -> In (item_at g n) (items_of g) -> has (r_m p) x -> in_shape (i_comp (g_item g)) c -> 0 <= b < i_nsub (g_item g) -> exists a, stored_at p n c b x a.
Proof.
  intros K Ig I Hx Hc Hb. destruct (entry_index p g n c b x K Ig I Hx Hc Hb) as (st & E & Hi & (_ & W & _)). specialize (W _ Hi).
  eexists. exists st. split; [exact E|]. apply (rd_ok _ _ zero W).
Qed.

(** ** Values of a program *)
Lemma same_proc ps i j p q x : able ps -> nth_error ps i = Some p -> nth_error ps j = Some q -> has (r_m p) x -> has (r_m q) x -> i = j.
Proof.
  intros (_ & _ & F & _). revert i j. induction F as [|a l H F IH]; intros [|i] [|j] N N' X X'; cbn in *; try discriminate; auto.
  - injection N as ->. rewrite Forall_forall in H. destruct (H q (nth_error_In _ _ N') x X X').
  - injection N' as ->. rewrite Forall_forall in H. destruct (H p (nth_error_In _ _ N) x X' X).
Qed.
Lemma home ps x : able ps -> in_shape (ds_dom D) x -> exists i p, nth_error ps i = Some p /\ kept p /\ has (r_m p) x.
Proof.
  intros T Hx. pose proof T as (_ & _ & _ & C). destruct (C x Hx) as (p & I & H). destruct (In_nth_error _ _ I) as (i & N). exists i, p. split; [exact N|]. split; [exact (able_kept junk D _ _ _ T N)|exact H].
Qed.
Lemma shown_stored s g h c b x a i p n : able (r_procs s) -> place D g h c b x -> nth_error (r_procs s) i = Some p -> has (r_m p) x -> field_of p g h = Ok n -> (shown s g h c b x a <-> stored_at p n c b x a).
Proof.
  intros T (Ig & Hh & Hc & Hb & _) N Hx E. pose proof (able_kept junk D _ _ _ T N) as K. split.
  - intros (j & q & N' & Hx' & Se). assert (j = i) by exact (same_proc _ _ _ _ _ _ T N' N Hx' Hx). subst j. assert (q = p) by congruence. subst q. now apply (sees_stored p g h n).
  - intros H. exists i, p. split; [exact N|]. split; [exact Hx|]. now apply (sees_stored p g h n).
Qed.
Lemma shown_once s g h c b x : able (r_procs s) -> place D g h c b x -> exists a, shown s g h c b x a /\ forall a', shown s g h c b x a' -> a' = a.
Proof.
  intros T Pl. pose proof Pl as (Ig & Hh & Hc & Hb & Hx). destruct (home _ x T Hx) as (i & p & N & K & Hp). destruct (field_found junk D p g h K Ig Hh) as (n & E & I).
  destruct (stored_some p g n c b x K Ig I Hp Hc Hb) as (a & Sa). exists a. split; [now apply (shown_stored s g h c b x a i p n)|].
  intros a' Sa'. apply (shown_stored s g h c b x a' i p n) in Sa'; auto. exact (stored_fun _ _ _ _ _ _ _ Sa' Sa).
Qed.
Lemma array_shown s i v g h p c b x a : able (r_procs s) -> array_on s i v g h p -> has (r_m p) x -> place D g h c b x -> (shows (r_m p) v c b x a <-> shown s g h c b x a).
Proof.
  intros T (N & n & w & E & Nw & Vn & Vu) Hx Pl. rewrite (shown_stored s g h c b x a i p n T Pl N Hx E). destruct Pl as (Ig & Hh & Hc & Hb & _). pose proof (able_kept junk D _ _ _ T N) as K.
  apply (view_holds p g n v w); auto. destruct (field_found junk D p g h K Ig Hh) as (n' & E' & I). congruence.
Qed.
(** Values that imply each other are the same. *)
Lemma alike_if s t g h c b x : able (r_procs s) -> able (r_procs t) -> place D g h c b x -> (forall a, shown s g h c b x a -> shown t g h c b x a) -> forall a, shown s g h c b x a <-> shown t g h c b x a.
Proof.
  intros Ts Tt Pl H a. split; [apply H|]. intros Ha. destruct (shown_once s g h c b x Ts Pl) as (a0 & S0 & _). destruct (shown_once t g h c b x Tt Pl) as (a1 & _ & U).
  rewrite (U a Ha), <- (U a0 (H a0 S0)). exact S0.
Qed.

(** ** Values and the file *)
Lemma file_part f pre ps i p g : bound f pre ps -> nth_error ps i = Some p -> In g (ds_things D) ->
  exists p0, nth_error (su_parts (se_setup f)) i = Some (part_at pre p0) /\ kept p0 /\ follows p0 p /\ pt_field (part_at pre p0) (g_name g) = nfield_of (r_m p0) (current p0 g).
Proof.
  intros (Kn & ps0 & T0 & F & E & _) N Ig. destruct (follow_nth _ _ _ _ F N) as (p0 & N0 & Fo). pose proof (able_kept junk D _ _ _ T0 N0) as K0. exists p0.
  split; [rewrite E; now apply map_nth_error|]. split; [exact K0|]. split; [exact Fo|]. now apply (part_field junk D suit).
Qed.
Lemma part_like p0 p g n : kept p0 -> follows p0 p -> kept p -> In g (ds_things D) -> In (item_at g n) (items_of g) -> like (nfield_of (r_m p0) (current p0 g)) (nfield_of (r_m p) n).
Proof. intros K0 Fo K Ig I. destruct (current_spec junk D suit p0 g K0 Ig) as (_ & I0). now apply (kept_like junk D p0 p g). Qed.
Lemma file_pixel f (f' : SessionModel.session A) pre ps i p g x : bound f pre ps -> se_setup f' = se_setup f -> able ps -> nth_error ps i = Some p -> In g (ds_things D) -> has (r_m p) x -> has_pixel f' i (wanted g) x.
Proof.
  intros B Ef T N Ig Hx. destruct (file_part f pre ps i p g B N Ig) as (p0 & Np & K0 & Fo & Epf). exists (part_at pre p0). rewrite Ef. split; [exact Np|]. cbn [wanted q_local q_name]. rewrite Epf.
  destruct (current_spec junk D suit p0 g K0 Ig) as (_ & I0). apply (entry_item junk D p0 g _ K0 Ig I0). now apply (steady_has (r_m p0) (r_m p) x (proj1 Fo)).
Qed.
Lemma file_value f (f' : SessionModel.session A) pre ps i p g h n c b x a : bound f pre ps -> se_setup f' = se_setup f -> able ps -> nth_error ps i = Some p -> In g (ds_things D) -> has (r_m p) x -> In (item_at g n) (items_of g) ->
  (has_value f' i (wanted g) h c b x a <-> exists mm, nth_error (se_mem f' (g_name g) h) i = Some mm /\ holds (nf_lay (nfield_of (r_m p) n)) mm c b (shift (m_loc (r_m p)) x) a).
Proof.
  intros B Ef T N Ig Hx I. pose proof (able_kept junk D _ _ _ T N) as K. destruct (file_part f pre ps i p g B N Ig) as (p0 & Np & K0 & Fo & Epf).
  pose proof (part_like p0 p g n K0 Fo K Ig I) as (Li & _ & _ & Ll). destruct (entry_item junk D p g n K Ig I) as (_ & _ & _ & _ & _ & El & _). rewrite El in Ll.
  unfold has_value. cbn [wanted q_local q_name]. rewrite Ef. split.
  - intros (q & mm & Nq & Nm & Hh). rewrite Np in Nq. injection Nq as <-. cbn zeta in Hh. rewrite Epf in Hh. destruct Hh as (_ & Hh). rewrite <- Ll in Hh. exists mm. split; [exact Nm|]. now rewrite Li.
  - intros (mm & Nm & Hh). exists (part_at pre p0), mm. split; [exact Np|]. split; [exact Nm|]. cbn zeta. rewrite Epf. split.
    + destruct (current_spec junk D suit p0 g K0 Ig) as (_ & I0). apply (entry_item junk D p0 g _ K0 Ig I0). now apply (steady_has (r_m p0) (r_m p) x (proj1 Fo)).
    + rewrite <- Ll. now rewrite <- Li.
Qed.

(** ** Transfers *)
Lemma zrange_in n k : In k (zrange n) <-> 0 <= k < Z.of_nat n.
Proof. unfold zrange. rewrite in_map_iff. split; [intros (i & <- & H); apply in_seq in H; lia|intros H; exists (Z.to_nat k); split; [lia|apply in_seq; lia]]. Qed.
Lemma depth_of pre p g : knows D pre -> kept p -> In g (ds_things D) -> forall h, In h (zrange (depth p (is_state pre (g_name g)) (g_name g))) <-> state_of g h.
Proof.
  intros Kn K Ig h. rewrite (Kn g Ig), zrange_in. unfold depth, stateful, state_of. destruct (g_mem g) as [mem|] eqn:Em; [|lia].
  destruct K as (_ & _ & _ & St). destruct (St g mem Ig Em) as (s & L & E). unfold get_state. cbn [sys_of y_states]. rewrite L, E.
  destruct suit as (_ & _ & Q). destruct (Q g Ig) as (_ & _ & _ & _ & M & _). specialize (M mem Em). lia.
Qed.
Lemma in_transfers i pre mem p names n v : knows D pre -> kept p -> incl names (map g_name (ds_things D)) ->
  (In (n, v) (transfers i pre mem p names) <-> exists g h, In g (ds_things D) /\ In (g_name g) names /\ state_of g h /\ field_of p g h = Ok n /\ v = nth i (mem (g_name g) h) []).
Proof.
  intros Kn K Inc. unfold transfers. rewrite in_flat_map. split.
  - intros (y & Iy & H). destruct (proj1 (in_map_iff _ _ _) (Inc y Iy)) as (g & <- & Ig). unfold entries_of in H. apply in_flat_map in H. destruct H as (h & Ih & H). apply (depth_of pre p g Kn K Ig) in Ih.
    rewrite (Kn g Ig), entry_field in H. destruct (field_of p g h) as [k| |] eqn:E; [|destruct H..]. destruct H as [H|[]]. injection H as -> <-. exists g, h. auto.
  - intros (g & h & Ig & Iy & Hh & E & ->). exists (g_name g). split; [exact Iy|]. unfold entries_of. apply in_flat_map. exists h. split; [now apply (depth_of pre p g Kn K Ig)|].
    rewrite (Kn g Ig), entry_field, E. now left.
Qed.

(** ** The last write *)
Theorem resume_last_write ps l s1 g k names fr : crew zero junk D ps -> executes zero junk D whatever (begin ps) l s1 ->
  writeable s1 -> In g (ds_things D) -> In (g_name g) names -> incl names (map g_name (ds_things D)) -> accessed k (nb_frames s1) = Ok fr ->
  exists s2, rstep zero junk s1 (QWrite k names) = (s2, Ok tt) /\ r_procs s2 = r_procs s1 /\
  forall l' s3 k' names' kept_names, In (g_name g) kept_names -> executes zero junk D (preserves kept_names fr) s2 l' s3 ->
    accessed fr (nb_frames s3) = Ok fr /\
    (r_open s3 = true -> In (g_name g) names' -> incl names' (map g_name (ds_things D)) -> accessed k' (nb_frames s3) = Ok fr ->
     exists s4, rstep zero junk s3 (QRead k' names') = (s4, Ok tt) /\
     forall h c b x a, place D g h c b x -> (shown s1 g h c b x a <-> shown s4 g h c b x a)).
Proof.
  intros Tg R1 (O1 & f1 & Ef1 & Md1) Ig Inq Inc Ac. pose proof (begin_tied zero junk D ps Tg) as T0. pose proof (runs_tied zero junk D suit _ _ _ _ R1 T0) as T1.
  destruct (runs_created zero junk D suit _ _ _ f1 R1 T0 eq_refl Ef1) as (s0 & known0 & u0 & mem0 & hc0 & c0 & ops & known1 & RR).
  pose proof T1 as (Tm1 & B1). rewrite Ef1 in B1. specialize (B1 O1). set (mem1 := memory_at (r_prefixes s1) (r_procs s1)) in *. set (g1 := with_mem f1 mem1) in *.
  assert (RA : SessionSpec.run P anything f1 known1 [Assign mem1] g1 (learn P known1 f1 (Assign mem1) (Ok tt))).
  { econstructor; [exact (bound_sized junk D suit f1 _ _ B1 Tm1)|exact Logic.I|reflexivity|constructor]. }
  pose proof (run_join D _ _ _ _ _ _ _ _ _ RR RA) as RR1. cbn [app] in RR1. set (kn := learn P known1 f1 (Assign mem1) (Ok tt)) in *.
  destruct (SessionModel.step g1 (Write k names)) as [f2 r2] eqn:E2.
  assert (Iqq : In (wanted g) (pl_quantities P)) by now apply in_map.
  destruct (last_write P s0 known0 u0 mem0 hc0 c0 _ g1 kn (wanted g) k names fr f2 r2 RR1 Iqq Inq) as (-> & LW);
    [split; [now apply named_of|intros _; apply positioned_of]|exact Md1|unfold nb_frames in Ac; rewrite Ef1 in Ac; exact Ac|exact E2|].
  exists (mk_rstate (r_procs s1) (Some f2) true (r_prefixes s1)). cbn [rstep]. unfold on_open. rewrite Ef1, O1. fold mem1 g1. rewrite E2. split; [reflexivity|]. split; [reflexivity|].
  intros l' s3 k' names' kn' Ikn R3.
  assert (T2 : tied (mk_rstate (r_procs s1) (Some f2) true (r_prefixes s1))).
  { pose proof (step_tied zero junk D suit s1 (QWrite k names) T1 Inc) as T2. cbn [rstep] in T2. unfold on_open in T2. rewrite Ef1, O1 in T2. fold mem1 g1 in T2. rewrite E2 in T2. exact T2. }
  pose proof (runs_tied zero junk D suit _ _ _ _ R3 T2) as T3. assert (E0 : exists h, SessionSpec.entry_of (wanted g) h) by (exists 0; apply wanted_entry; exact (state_zero D suit g Ig)).
  destruct (runs_file zero junk D suit _ _ _ _ _ (mirrors_preserves kn' (g_name g) fr Ikn) R3 f2 (learn P kn g1 (Write k names) (Ok tt)) T2 eq_refl) as (f3 & ops3 & known3 & Ef3 & RR3).
  split.
  { destruct (LW ops3 f3 known3 0 [] f3 (Ok tt) RR3 E0) as (LA & _). unfold nb_frames. rewrite Ef3. exact LA. }
  intros O3 Inq' Inc' Ac'. pose proof T3 as (Tm3 & B3). rewrite Ef3 in B3. specialize (B3 O3). set (mem3 := memory_at (r_prefixes s3) (r_procs s3)) in *. set (g3 := with_mem f3 mem3) in *.
  assert (RA3 : SessionSpec.run P (spares (g_name g) fr) f3 known3 [Assign mem3] g3 (learn P known3 f3 (Assign mem3) (Ok tt))).
  { econstructor; [exact (bound_sized junk D suit f3 _ _ B3 Tm3)|exact Logic.I|reflexivity|constructor]. }
  pose proof (run_join D _ _ _ _ _ _ _ _ _ RR3 RA3) as RR4. set (kn3 := learn P known3 f3 (Assign mem3) (Ok tt)) in *.
  destruct (SessionModel.step g3 (Read k' names')) as [f4 r4] eqn:E4.
  destruct (LW _ g3 kn3 k' names' f4 r4 RR4 E0) as (_ & LR).
  destruct LR as (-> & LV); [split; [now apply named_of|apply positioned_of]|exact Inq'|unfold nb_frames in Ac'; rewrite Ef3 in Ac'; exact Ac'|exact E4|].
  destruct (read_lengths k' names' g3) as (SL & ES & _); [destruct B3 as (_ & mm0 & _ & _ & _ & Lf); exact Lf|exact (bound_ranked junk D f3 _ _ B3)|].
  rewrite E4 in SL, ES. cbn [fst] in SL, ES. set (pre := r_prefixes s3) in *. pose proof B3 as (Kn3 & _).
  set (s4 := mk_rstate (fetch_at 0 pre (se_mem f4) names' (r_procs s3)) (Some f4) true pre).
  assert (Es4 : rstep zero junk s3 (QRead k' names') = (s4, Ok tt)) by (cbn [rstep]; unfold on_open; rewrite Ef3, O3; fold pre mem3 g3; rewrite E4; reflexivity).
  assert (T4 : tied s4) by (pose proof (step_tied zero junk D suit s3 (QRead k' names') T3 Inc') as T4; rewrite Es4 in T4; exact T4).
  exists s4. split; [exact Es4|]. intros h c b x a Pl. apply alike_if; [exact Tm1|apply T4|exact Pl|]. clear a. intros a Sh. pose proof Pl as (_ & Hh & Hc & Hb & Hx).
  destruct (home _ x Tm1 Hx) as (i & p1 & N1 & K1 & X1). destruct (home _ x Tm3 Hx) as (j & p3 & N3 & K3 & X3).
  destruct (field_found junk D p1 g h K1 Ig Hh) as (n1 & En1 & I1). destruct (field_found junk D p3 g h K3 Ig Hh) as (n3 & En3 & I3).
  apply (shown_stored s1 g h c b x a i p1 n1 Tm1 Pl N1 X1 En1) in Sh.
  (* the values of all states that share the field of this one are this *)
  assert (AL : forall h', state_of g h' -> field_of p3 g h' = Ok n3 -> exists mm, nth_error (se_mem f4 (g_name g) h') j = Some mm /\ holds (nf_lay (nfield_of (r_m p3) n3)) mm c b (shift (m_loc (r_m p3)) x) a).
  { intros h' Hh' En'. assert (Sm : field_of p1 g h' = Ok n1) by (rewrite <- En1; symmetry; apply (shared junk D p3 p1); auto; congruence).
    assert (HV : has_value g1 i (wanted g) h' c b x a).
    { apply (file_value f1 g1 (r_prefixes s1) (r_procs s1) i p1 g h' n1); auto. exists (values (r_m p1) n1). split; [|exact Sh]. cbn [g1 with_mem se_mem]. unfold mem1, memory_at.
      rewrite (map_nth_error _ _ _ N1). destruct B1 as (Kn1 & _). now rewrite (values_found D _ p1 g h' n1 Kn1 Ig Sm). }
    assert (HP : has_pixel g3 j (wanted g) x) by (apply (file_pixel f3 g3 pre (r_procs s3) j p3 g x); auto).
    specialize (LV h' i j c b x a (proj2 (wanted_entry g h') Hh') Hc Hb HV HP). apply (file_value f3 f4 pre (r_procs s3) j p3 g h' n3) in LV; auto. }
  set (p4 := fetched j pre (se_mem f4) names' p3). assert (N4 : nth_error (r_procs s4) j = Some p4) by (cbn [s4 r_procs]; rewrite fetched_nth, N3; reflexivity).
  assert (F3 : firm p3) by apply K3. destruct (fetched_firm junk j pre (se_mem f4) names' p3 F3) as (F4 & Fo4). fold p4 in F4, Fo4. pose proof (follows_kept junk D p3 p4 Fo4 F4 K3) as K4.
  assert (En4 : field_of p4 g h = Ok n3) by (rewrite <- entry_field, (entry_states p3 p4) by reflexivity; rewrite entry_field; exact En3).
  apply (shown_stored s4 g h c b x a j p4 n3); [apply T4|exact Pl|exact N4|now apply (steady_has (r_m p3) (r_m p4) x (proj1 Fo4))|exact En4|].
  destruct (entry_lookup junk D p3 g n3 K3 Ig I3) as (r & Lr & _ & _).
  destruct (puts_value junk (transfers j pre (se_mem f4) p3 names') n3 (r_m p3) r (proj1 F3) Lr) as (v & Iv & Ev).
  - intros v Iv. apply (in_transfers j pre (se_mem f4) p3 names' n3 v Kn3 K3 Inc') in Iv. destruct Iv as (g' & h' & Ig' & _ & Hh' & En' & ->).
    assert (g' = g) by exact (field_thing junk D suit p3 p3 g' g h' h n3 K3 K3 Ig' Ig En' En3). subst g'. destruct (AL h' Hh' En') as (mm & Nm & _).
    rewrite (nth_error_nth _ _ _ Nm). specialize (SL (g_name g) h'). apply (map_nth_error (@length A)) in Nm. rewrite SL in Nm. unfold g3 in Nm. cbn [with_mem se_mem] in Nm. unfold mem3, memory_at in Nm. rewrite map_map in Nm.
    rewrite (map_nth_error _ _ _ N3) in Nm. injection Nm as Nm. rewrite (values_found D pre p3 g h' n3 Kn3 Ig En') in Nm. unfold values in Nm. rewrite Lr in Nm. congruence.
  - apply in_map_iff. exists (n3, nth j (se_mem f4 (g_name g) h) []). split; [reflexivity|]. apply (in_transfers j pre (se_mem f4) p3 names' n3 _ Kn3 K3 Inc'). exists g, h. auto 10.
  - apply (in_transfers j pre (se_mem f4) p3 names' n3 v Kn3 K3 Inc') in Iv. destruct Iv as (g' & h' & Ig' & _ & Hh' & En' & ->).
    assert (g' = g) by exact (field_thing junk D suit p3 p3 g' g h' h n3 K3 K3 Ig' Ig En' En3). subst g'. destruct (AL h' Hh' En') as (mm & Nm & Hm).
    unfold stored_at. change (r_m p4) with (puts (transfers j pre (se_mem f4) p3 names') (r_m p3)). rewrite Ev, (nth_error_nth _ _ _ Nm).
    pose proof (kept_like junk D p3 p4 g n3 n3 K3 Fo4 Ig I3 I3 K4) as (Li & _ & _ & _). change (r_m p4) with (puts (transfers j pre (se_mem f4) p3 names') (r_m p3)) in Li. rewrite Li.
    destruct Fo4 as ((_ & El & _) & _). change (r_m p4) with (puts (transfers j pre (se_mem f4) p3 names') (r_m p3)) in El. rewrite El. exact Hm.
Qed.
End P.
