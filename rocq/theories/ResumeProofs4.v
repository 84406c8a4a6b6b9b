(** Programs with state fields and files, call by call. *)
From Coq Require Import String Sorting.Sorted.
From Verif Require Import Base CIntModel GridModel GridSpec StridedModel UnitsModel LayoutModel LayoutSpec LayoutProofs FieldModel FieldSpec.
From Verif Require Import RegistryModel RegistrySpec RegistryProofs RegistryProofs2 StateModel StateSpec StateProofs StateProofs2 NumpyModel NumpySpec PyArrayModel PyArraySpec PyArrayProofs.
From Verif Require Import FrameModel CommModel NetCDFModel NetCDFSpec NetCDFProofs4 NetCDFProofs5 SessionModel SessionSpec SessionProofs SessionProofs5 StackModel StackSpec StackProofs StackProofs2 StackProofs3.
From Verif Require Import ResumeModel ResumeSpec ResumeProofs ResumeProofs2 ResumeProofs3.
Local Open Scope Z_scope.
Local Open Scope list_scope.

Section P.
Context {A : Type} (zero junk : A).
Implicit Types (p : proc A) (ps : list (proc A)) (s : rstate A).
Variable D : design.
Hypothesis suit : suitable D.
Notation able := (able junk D).
Notation kept := (kept junk D).
Notation firm := (firm junk).
Notation P := (plan_for D).

(** ** Lists of processes *)
Lemma all_follow_refl ps : Forall2 follows ps ps.
Proof. induction ps; constructor; auto using follows_refl. Qed.
Lemma all_follow_trans a : forall b c, Forall2 follows a b -> Forall2 follows b c -> Forall2 (@follows A) a c.
Proof. induction a as [|x a IH]; intros b c H K; inversion H; subst; inversion K; subst; constructor; [eapply follows_trans; eassumption|eauto]. Qed.
Lemma upd_follows ps i p p' : nth_error ps i = Some p -> follows p p' -> Forall2 follows ps (upd ps i p').
Proof.
  revert i. induction ps as [|x ps IH]; intros [|i] N T; cbn in N; try discriminate; cbn [upd].
  - injection N as ->. constructor; [exact T|apply all_follow_refl].
  - constructor; [apply follows_refl|now apply IH].
Qed.
Lemma upd_firm ps i p' : Forall firm ps -> firm p' -> Forall firm (upd ps i p').
Proof. intros F. revert i. induction F as [|x ps Hx F IH]; intros [|i] So; cbn [upd]; constructor; auto. Qed.
Lemma fetched_list pre mem names ps : forall i, Forall firm ps -> Forall firm (fetch_at i pre mem names ps) /\ Forall2 follows ps (fetch_at i pre mem names ps).
Proof.
  induction ps as [|p ps IH]; intros i F; cbn [fetch_at]; [split; constructor|]. inversion F; subst. rewrite (fetch_proc i pre mem names p p eq_refl).
  destruct (fetched_firm junk i pre mem names p) as (S1 & T1); [assumption|]. destruct (IH (S i)) as (S2 & T2); [assumption|]. split; constructor; assumption.
Qed.
Lemma able_firm ps : able ps -> Forall firm ps.
Proof. intros (_ & F & _). eapply Forall_impl; [|exact F]. intros p H. apply H. Qed.

(** ** What holds in between calls *)
Definition bound (f : SessionModel.session A) (pre : list string) ps : Prop :=
  knows D pre /\ exists ps0, able ps0 /\ Forall2 follows ps0 ps /\ su_parts (se_setup f) = map (part_at pre) ps0 /\ local_free f.
Definition tied s : Prop := able (r_procs s) /\
  match r_file s with Some f => r_open s = true -> bound f (r_prefixes s) (r_procs s) | None => r_open s = false end.
Lemma bound_follows f f' pre ps ps' : bound f pre ps -> Forall2 follows ps ps' -> se_setup f' = se_setup f -> bound f' pre ps'.
Proof.
  intros (Kn & ps0 & T & F & E & L) F' Es. split; [exact Kn|]. exists ps0. split; [exact T|]. split; [now apply (all_follow_trans _ ps)|]. unfold local_free. rewrite Es. auto.
Qed.
Lemma bound_sized f pre ps : bound f pre ps -> able ps -> sized P (se_setup f) (memory_at pre ps).
Proof. intros (Kn & ps0 & T & F & E & _) Tm. now apply (memory_sized junk D suit ps0). Qed.
Lemma bound_ranked f pre ps : bound f pre ps -> ranked (with_mem f (memory_at pre ps)).
Proof. intros (_ & ps0 & T & F & E & _) n h. cbn [with_mem se_mem se_setup]. unfold memory_at. rewrite E, !map_length. symmetry. clear - F. induction F; cbn; congruence. Qed.
Lemma free_vars ps pre names u : setup_at ps pre names = Ok u -> Forall (fun v => sv_local v = None) (su_vars u).
Proof.
  unfold setup_at. intros E. apply bind_ok in E. destruct E as (vss & E1 & E). destruct vss as [|vs vss]; [discriminate|]. apply Ok_inj in E. subst u. cbn [su_vars].
  destruct ps as [|p ps]; [discriminate E1|]. cbn [mapm] in E1. apply bind_ok in E1. destruct E1 as (y & E1 & E2). apply bind_ok in E2. destruct E2 as (ys & _ & E2). apply Ok_inj in E2. injection E2 as -> _.
  assert (G : forall vs seen known skip, register_vars seen known skip p (vars_of pre names) = Ok vs -> Forall (fun v => sv_local v = None) vs); [|exact (G _ _ _ _ E1)]. clear.
  induction (vars_of pre names) as [|[st n] l IH]; intros vs seen known skip E; cbn [register_vars] in E.
  - apply Ok_inj in E. subst vs. constructor.
  - destruct (existsb _ known); [discriminate|]. destruct (negb st && _); [exact (IH _ _ _ _ E)|]. apply bind_ok in E. destruct E as (hs & _ & E). apply bind_ok in E. destruct E as (m & _ & E).
    apply bind_ok in E. destruct E as (r & _ & E). destruct (register_global _ _ _ _ _) as [seen' v]. apply bind_ok in E. destruct E as (w & _ & E).
    apply bind_ok in E. destruct E as (z & _ & E). apply bind_ok in E. destruct E as (vs' & E1 & E). apply Ok_inj in E. subst vs. constructor; [reflexivity|]. exact (IH _ _ _ _ E1).
Qed.
(** Files are made and opened. *)
Lemma start_ok md ps pre names hf f : able ps -> all_vars D pre names -> exists u (s' : SessionModel.session A), setup_at ps pre names = Ok u /\ fits P u /\ sized P u (memory_at pre ps) /\
  start md u (memory_at pre ps) hf f = Ok s' /\ bound s' pre ps /\ se_nb s' = recs f /\ se_mode s' = md.
Proof.
  intros T AN. destruct (setup_ok junk D suit ps pre names T AN) as (u & Eu & F & Ep & Ec). pose proof (all_knows D suit _ _ AN) as Kn. exists u. eexists. split; [exact Eu|]. split; [exact F|].
  split; [apply (memory_sized junk D suit ps); auto; apply all_follow_refl|].
  unfold start. rewrite Ec. cbn [all_positions bind]. split; [reflexivity|]. split; [|auto].
  split; [exact Kn|]. exists ps. split; [exact T|]. split; [apply all_follow_refl|]. split; [exact Ep|]. unfold local_free. cbn [se_setup]. exact (free_vars _ _ _ _ Eu).
Qed.
Lemma named_of names : incl names (map g_name (ds_things D)) -> named P names.
Proof.
  intros Inc n Hn. apply Inc, in_map_iff in Hn. destruct Hn as (g & <- & Ig). exists (wanted g). split; [now apply in_map|reflexivity].
Qed.
Lemma positioned_of known names : positioned P known names.
Proof. intros q l Iq _ E. apply in_map_iff in Iq. destruct Iq as (q0 & <- & _). discriminate E. Qed.

(** One call is a number of operations on the file. *)
Definition mirrors (K : rstate A -> rcall A -> Prop) (K' : SessionModel.session A -> SessionModel.op A -> Prop) : Prop :=
  (forall f o, (forall k names, o <> Write k names) -> creates o = false -> K' f o) /\
  (forall s f k names, r_file s = Some f -> r_open s = true -> K s (QWrite k names) -> K' (with_mem f (memory_at (r_prefixes s) (r_procs s))) (Write k names)) /\
  (forall s f pre names c u mem hc c', K s (QCreate pre names c) -> K' f (Create u mem hc c')).
Lemma step_tied s k : tied s -> proper_call zero junk D k -> tied (fst (rstep zero junk s k)).
Proof.
  intros (T & B) Pr. pose proof (able_firm _ T) as So. destruct k; cbn [rstep proper_call] in *.
  - destruct (nth_error (r_procs s) i) as [p|] eqn:N; [|split; assumption].
    assert (Sm : firm p) by (rewrite Forall_forall in So; exact (So _ (nth_error_In _ _ N))).
    destruct (proc_firm zero junk p c Sm Pr) as (S1 & T1). destruct (proc_step zero junk p c) as [p' r]. cbn [fst] in *.
    pose proof (upd_follows _ _ _ _ N T1) as U. split; cbn [r_procs r_file r_open r_prefixes].
    + apply (follows_able junk D (r_procs s)); [exact U|now apply upd_firm|exact T].
    + destruct (r_file s) as [f|]; [|exact B]. intros O. now apply (bound_follows f f _ (r_procs s)); [apply B| |].
  - split; cbn [fst r_procs r_file r_open]; [now apply (crew_able zero)|]. destruct (r_file s); [discriminate|reflexivity].
  - destruct (start_ok Creating (r_procs s) prefixes names (mk_ncfile 0 (fun _ _ => 0)) (mk_ncfile 0 c) T Pr) as (u & s' & -> & _ & _ & E & Bd & _). cbn [bind]. rewrite E.
    cbn [ready fst]. split; cbn [r_procs r_file r_open r_prefixes]; auto.
  - destruct (r_file s) as [f|] eqn:Ef; [|split; cbn [fst]; [exact T|rewrite Ef; exact B]].
    destruct (start_ok (if append then Appending else Reading) (r_procs s) prefixes names (se_hfile f) (se_file f) T Pr) as (u & s' & -> & _ & _ & E & Bd & _). cbn [bind]. rewrite E.
    cbn [ready fst]. split; cbn [r_procs r_file r_open r_prefixes]; auto.
  - split; cbn [fst r_procs r_file r_open]; [exact T|]. destruct (r_file s); [discriminate|reflexivity].
  - unfold on_open. destruct (r_file s) as [f|] eqn:Ef; [|split; cbn [fst]; [exact T|rewrite Ef; exact B]]. destruct (r_open s) eqn:Eo; [|split; cbn [fst]; [exact T|rewrite Ef, Eo; discriminate]].
    cbn [SessionModel.step fst]. split; cbn [r_procs r_file r_open r_prefixes]; [exact T|]. intros _. eapply bound_follows; [exact (B eq_refl)|apply all_follow_refl|reflexivity].
  - unfold on_open. destruct (r_file s) as [f|] eqn:Ef; [|split; cbn [fst]; [exact T|rewrite Ef; exact B]]. destruct (r_open s) eqn:Eo; [|split; cbn [fst]; [exact T|rewrite Ef, Eo; discriminate]].
    pose proof (write_setup k names (with_mem f (memory_at (r_prefixes s) (r_procs s)))) as WS. destruct (SessionModel.step _ (Write k names)) as [f' r]. cbn [fst] in *.
    split; cbn [r_procs r_file r_open r_prefixes]; [exact T|]. intros _. eapply bound_follows; [exact (B eq_refl)|apply all_follow_refl|exact WS].
  - unfold on_open. destruct (r_file s) as [f|] eqn:Ef; [|split; cbn [fst]; [exact T|rewrite Ef; exact B]]. destruct (r_open s) eqn:Eo; [|split; cbn [fst]; [exact T|rewrite Ef, Eo; discriminate]].
    destruct (read_lengths k names (with_mem f (memory_at (r_prefixes s) (r_procs s)))) as (_ & RS & _); [destruct (B eq_refl) as (_ & ps0 & _ & _ & _ & L); exact L|apply bound_ranked, B; reflexivity|].
    destruct (SessionModel.step _ (Read k names)) as [f' r]. cbn [fst] in *. destruct (fetched_list (r_prefixes s) (se_mem f') names (r_procs s) 0 So) as (S1 & T1).
    split; cbn [r_procs r_file r_open r_prefixes]; [now apply (follows_able junk D (r_procs s))|]. intros _. eapply bound_follows; [exact (B eq_refl)|exact T1|exact RS].
Qed.
Lemma runs_tied K s l s' : executes zero junk D K s l s' -> tied s -> tied s'.
Proof. intros R. induction R; intros T; [exact T|]. apply IHR. now apply step_tied. Qed.

Lemma run_two (K' : SessionModel.session A -> SessionModel.op A -> Prop) f known o1 o2 f1 r1 f2 r2 : allowed P known f o1 -> K' f o1 -> SessionModel.step f o1 = (f1, r1) ->
  allowed P (learn P known f o1 r1) f1 o2 -> K' f1 o2 -> SessionModel.step f1 o2 = (f2, r2) -> exists known', SessionSpec.run P K' f known [o1; o2] f2 known'.
Proof. intros. eexists. econstructor; try eassumption. econstructor; try eassumption. constructor. Qed.
Lemma step_file K K' s k f known : mirrors K K' -> tied s -> proper_call zero junk D k -> K s k -> r_file s = Some f ->
  exists f' ops known', r_file (fst (rstep zero junk s k)) = Some f' /\ SessionSpec.run P K' f known ops f' known'.
Proof.
  intros (M1 & M2 & M3) (T & B) Pr Kk Ef. rewrite Ef in B. assert (R0 : exists f' ops known', Some f = Some f' /\ SessionSpec.run P K' f known ops f' known') by (exists f, [], known; split; [reflexivity|constructor]).
  set (mem := memory_at (r_prefixes s) (r_procs s)) in *.
  destruct k; cbn [rstep proper_call] in *.
  - destruct (nth_error (r_procs s) i) as [p|]; [|cbn [fst]; now rewrite Ef]. destruct (proc_step zero junk p c). cbn [fst r_file]. now rewrite Ef.
  - cbn [fst r_file]. now rewrite Ef.
  - destruct (start_ok Creating (r_procs s) prefixes names (mk_ncfile 0 (fun _ _ => 0)) (mk_ncfile 0 c) T Pr) as (u & s' & -> & F & Sz & E & Bd & _). cbn [bind]. rewrite E. cbn [ready fst r_file].
    exists s', [Create u (memory_at prefixes (r_procs s)) (fun _ _ => 0) c]. eexists. split; [reflexivity|]. econstructor; [split; [exact F|exact Sz]|exact (M3 s f prefixes names c _ _ _ _ Kk)| |constructor].
    cbn [SessionModel.step]. rewrite E. reflexivity.
  - rewrite Ef. destruct (start_ok (if append then Appending else Reading) (r_procs s) prefixes names (se_hfile f) (se_file f) T Pr) as (u & s' & -> & F & Sz & E & Bd & _). cbn [bind]. rewrite E. cbn [ready fst r_file].
    exists s', [Reopen append u (memory_at prefixes (r_procs s))]. eexists. split; [reflexivity|]. econstructor; [split; [exact F|exact Sz]|apply M1; [discriminate|reflexivity]| |constructor].
    cbn [SessionModel.step]. rewrite E. reflexivity.
  - cbn [fst r_file]. now rewrite Ef.
  - unfold on_open. rewrite Ef. destruct (r_open s) eqn:Eo; [|cbn [fst]; now rewrite Ef]. fold mem.
    destruct (SessionModel.step (with_mem f mem) AppendFrame) as [f' r] eqn:E. cbn [fst r_file].
    destruct (run_two K' f known (Assign mem) AppendFrame (with_mem f mem) (Ok tt) f' r (bound_sized f _ _ (B eq_refl) T)) as (known' & R); [apply M1; [discriminate|reflexivity]|reflexivity|exact Logic.I|apply M1; [discriminate|reflexivity]|exact E|]. eauto.
  - unfold on_open. rewrite Ef. destruct (r_open s) eqn:Eo; [|cbn [fst]; now rewrite Ef]. fold mem.
    destruct (SessionModel.step (with_mem f mem) (Write k names)) as [f' r] eqn:E. cbn [fst r_file].
    destruct (run_two K' f known (Assign mem) (Write k names) (with_mem f mem) (Ok tt) f' r (bound_sized f _ _ (B eq_refl) T)) as (known' & R); [apply M1; [discriminate|reflexivity]|reflexivity|split; [now apply named_of|intros _; apply positioned_of]|now apply M2|exact E|]. eauto.
  - unfold on_open. rewrite Ef. destruct (r_open s) eqn:Eo; [|cbn [fst]; now rewrite Ef]. fold mem.
    destruct (SessionModel.step (with_mem f mem) (Read k names)) as [f' r] eqn:E. cbn [fst r_file].
    destruct (run_two K' f known (Assign mem) (Read k names) (with_mem f mem) (Ok tt) f' r (bound_sized f _ _ (B eq_refl) T)) as (known' & R); [apply M1; [discriminate|reflexivity]|reflexivity|split; [now apply named_of|apply positioned_of]|apply M1; [discriminate|reflexivity]|exact E|]. eauto.
Qed.
Lemma run_join (K' : SessionModel.session A -> SessionModel.op A -> Prop) f known l1 f1 known1 l2 f2 known2 : SessionSpec.run P K' f known l1 f1 known1 -> SessionSpec.run P K' f1 known1 l2 f2 known2 -> SessionSpec.run (A := A) P K' f known (l1 ++ l2) f2 known2.
Proof. intros R1 R2. induction R1; [exact R2|]. cbn [app]. econstructor; eauto. Qed.
Lemma runs_file K K' s l s' : mirrors K K' -> executes zero junk D K s l s' -> forall f known, tied s -> r_file s = Some f ->
  exists f' ops known', r_file s' = Some f' /\ SessionSpec.run P K' f known ops f' known'.
Proof.
  intros M R. induction R as [s|s k l s' Pr Kk R IH]; intros f known T Ef.
  - exists f, [], known. split; [exact Ef|constructor].
  - destruct (step_file K K' s k f known M T Pr Kk Ef) as (f1 & ops1 & known1 & E1 & R1). destruct (IH f1 known1 (step_tied _ _ T Pr) E1) as (f2 & ops2 & known2 & E2 & R2).
    exists f2, (ops1 ++ ops2), known2. split; [exact E2|]. exact (run_join _ _ _ _ _ _ _ _ _ R1 R2).
Qed.
Lemma mirrors_any : mirrors whatever anything.
Proof. unfold mirrors, anything. auto. Qed.
Lemma mirrors_preserves names name fr : In name names -> mirrors (preserves names fr) (spares name fr).
Proof.
  intros I. split; [|split].
  - intros f o N C. destruct o; try exact Logic.I; [discriminate C|]. exfalso. now apply (N k names0).
  - intros s f k names' Ef _ H. cbn [preserves spares] in *. unfold nb_frames in H. rewrite Ef in H. intros (H1 & H2). exact (H H2 name I H1).
  - intros s f pre names' c u mem hc c' H. destruct H.
Qed.
(** The file of a program was created by it. *)
Lemma runs_created s l s' f : executes zero junk D whatever s l s' -> tied s -> r_file s = None -> r_file s' = Some f ->
  exists (s0 : SessionModel.session A) known0 u mem hc c ops known, SessionSpec.run P anything s0 known0 (Create u mem hc c :: ops) f known.
Proof.
  intros R. induction R as [s|s k l s' Pr Kk R IH]; intros T E0 E; [congruence|]. pose proof (step_tied s k T Pr) as T1.
  destruct (r_file (fst (rstep zero junk s k))) as [f1|] eqn:E1; [|now apply IH].
  destruct k; cbn [rstep] in E1, R; try (unfold on_open in E1; rewrite E0 in E1; cbn [fst] in E1; congruence).
  - destruct (nth_error (r_procs s) i) as [p|]; [destruct (proc_step zero junk p c)|]; cbn [fst r_file] in E1; congruence.
  - cbn [fst r_file] in E1. congruence.
  - destruct T as (T & _). cbn [proper_call] in Pr. destruct (start_ok Creating (r_procs s) prefixes names (mk_ncfile 0 (fun _ _ => 0)) (mk_ncfile 0 c) T Pr) as (u & g & Eu & F & Sz & Es & Bd & _).
    rewrite Eu in E1, R. cbn [bind] in E1, R. rewrite Es in E1, R. cbn [ready fst r_file] in E1, R. injection E1 as <-.
    set (mem := memory_at prefixes (r_procs s)) in *.
    set (s0 := SessionModel.mk_session Reading u 0 [] [] (fun _ => []) mem (mk_ncfile 0 (fun _ _ => 0)) (mk_ncfile 0 c)).
    cbn [rstep] in T1. rewrite Eu in T1. cbn [bind] in T1. fold mem in T1. rewrite Es in T1.
    destruct (runs_file _ _ _ _ _ mirrors_any R g (learn P [] s0 (Create u mem (fun _ _ => 0) c) (Ok tt)) T1 eq_refl) as (f' & ops & known' & E' & R').
    rewrite E in E'. injection E' as <-. exists s0, [], u, mem, (fun _ _ => 0), c, ops, known'.
    econstructor; [split; [exact F|exact Sz]|exact Logic.I| |exact R']. cbn [SessionModel.step]. rewrite Es. reflexivity.
  - cbn [fst r_file] in E1. congruence.
Qed.
Lemma begin_tied ps : crew zero junk D ps -> tied (begin ps).
Proof. intros T. split; [now apply (crew_able zero)|reflexivity]. Qed.
End P.
