(** Programs with arrays and files, call by call. *)
From Coq Require Import String Sorting.Sorted.
From Verif Require Import Base CIntModel GridModel GridSpec StridedModel UnitsModel LayoutModel LayoutSpec LayoutProofs FieldModel FieldSpec.
From Verif Require Import RegistryModel RegistrySpec RegistryProofs RegistryProofs2 NumpyModel NumpySpec PyArrayModel PyArraySpec PyArrayProofs.
From Verif Require Import FrameModel CommModel NetCDFModel NetCDFSpec NetCDFProofs4 NetCDFProofs5 SessionModel SessionSpec SessionProofs SessionProofs5 StackModel StackSpec StackProofs StackProofs2.
Local Open Scope Z_scope.
Local Open Scope list_scope.

(** ** Memory keeps its length when something is read *)
Section Lengths.
Context {A : Type}.
Notation session := (SessionModel.session A).
Implicit Types s : session.
Definition same_lengths (a b : string -> Z -> list (list A)) : Prop := forall n h, map (@length A) (b n h) = map (@length A) (a n h).
Lemma lengths_refl a : same_lengths a a.
Proof. intros n h. reflexivity. Qed.
Lemma lengths_trans a b c : same_lengths a b -> same_lengths b c -> same_lengths a c.
Proof. intros H K n h. now rewrite K. Qed.
Lemma mapm_lengths {B} (g : B * list A -> res (list A)) (l : list (B * list A)) r : (forall x y, g x = Ok y -> length y = length (snd x)) -> mapm g l = Ok r -> map (@length A) r = map (fun x => length (snd x)) l.
Proof.
  intros H. revert r. induction l as [|x l IH]; intros r E; cbn [mapm] in E; [apply Ok_inj in E; now subst|].
  apply bind_ok in E. destruct E as (y & E1 & E). apply bind_ok in E. destruct E as (ys & E2 & E). apply Ok_inj in E. subst r. cbn. now rewrite (H _ _ E1), (IH _ E2).
Qed.
Lemma combine_lengths {B} (a : list B) (b : list (list A)) : length a = length b -> map (fun x => length (snd x)) (combine a b) = map (@length A) b.
Proof. revert b. induction a as [|x a IH]; intros [|y b] L; cbn in L; try lia; [reflexivity|]. cbn. now rewrite IH by lia. Qed.

Definition local_free (s : session) : Prop := Forall (fun v => sv_local v = None) (su_vars (se_setup s)).
(** All fields have memory on all processes. *)
Definition ranked (s : session) : Prop := forall n h, length (se_mem s n h) = length (su_parts (se_setup s)).
Lemma read_entry_lengths k v h s : sv_local v = None -> ranked s ->
  let s' := fst (read_entry k v h s) in same_lengths (se_mem s) (se_mem s') /\ se_setup s' = se_setup s /\ ranked s'.
Proof.
  intros N R. unfold read_entry. rewrite N. set (r := mapm _ _). destruct r as [ms| |] eqn:E; cbn zeta; cbn [fst]; [|split; [apply lengths_refl|auto]..].
  cbn [with_mem se_mem se_setup]. assert (SL : same_lengths (se_mem s) (fun n e => if String.eqb n (v_name (sv_var v)) && (e =? h) then ms else se_mem s n e)).
  { intros n e. destruct (String.eqb n (v_name (sv_var v)) && (e =? h)) eqn:B; [|reflexivity]. apply andb_true_iff in B. destruct B as [B1 B2]. apply String.eqb_eq in B1. apply Z.eqb_eq in B2. subst n e.
    unfold r in E. eapply mapm_lengths in E; [|intros x y H; now apply read_global_len in H]. rewrite E. apply combine_lengths.
    unfold fields_of. now rewrite map_length, R. }
  split; [exact SL|]. split; [reflexivity|]. intros n e. cbn [with_mem se_mem se_setup]. specialize (SL n e). apply (f_equal (@length nat)) in SL. rewrite !map_length in SL. now rewrite SL, R.
Qed.
Lemma each_entry_lengths k v n : forall h s, sv_local v = None -> ranked s ->
  let s' := fst (each_entry (read_entry k v) h n s) in same_lengths (se_mem s) (se_mem s') /\ se_setup s' = se_setup s /\ ranked s'.
Proof.
  induction n as [|n IH]; intros h s N R; cbn zeta; cbn [each_entry fst]; [split; [apply lengths_refl|auto]|].
  destruct (read_entry_lengths k v h s N R) as (L1 & E1 & R1). unfold andthen. destruct (snd (read_entry k v h s)); [|split; [exact L1|auto]..].
  destruct (IH (h + 1) _ N R1) as (L2 & E2 & R2). split; [now apply (lengths_trans _ _ _ L1)|]. split; [congruence|exact R2].
Qed.
Lemma read_name_lengths k n s : local_free s -> ranked s ->
  let s' := fst (read_name k n s) in same_lengths (se_mem s) (se_mem s') /\ se_setup s' = se_setup s /\ ranked s'.
Proof.
  intros F R. cbn zeta. unfold read_name. destruct (get_variable (su_vars (se_setup s)) n) as [v|] eqn:G; [|cbn; split; [apply lengths_refl|auto]].
  unfold get_variable in G. apply find_some in G. destruct G as [Iv _]. unfold local_free in F. rewrite Forall_forall in F. unfold before_read. rewrite (F v Iv). unfold andthen. cbn [fst snd].
  apply each_entry_lengths; auto.
Qed.
Lemma read_lengths k names : forall s, local_free s -> ranked s ->
  let s' := fst (SessionModel.step s (Read k names)) in same_lengths (se_mem s) (se_mem s') /\ se_setup s' = se_setup s /\ ranked s'.
Proof.
  cbn [SessionModel.step]. induction names as [|n names IH]; intros s F R; cbn zeta; cbn [each_name fst]; [split; [apply lengths_refl|auto]|].
  destruct (read_name_lengths k n s F R) as (L1 & E1 & R1). unfold andthen. destruct (snd (read_name k n s)); [|split; [exact L1|auto]..].
  destruct (IH (fst (read_name k n s)) ltac:(unfold local_free; rewrite E1; exact F) R1) as (L2 & E2 & R2).
  split; [now apply (lengths_trans _ _ _ L1)|]. split; [congruence|exact R2].
Qed.
(** Other operations do not change the setup. *)
Lemma append_setup s : se_setup (fst (SessionModel.step s (@AppendFrame A))) = se_setup s /\ se_nb (fst (SessionModel.step s (@AppendFrame A))) = se_nb s + 1 /\ se_mode (fst (SessionModel.step s (@AppendFrame A))) = se_mode s.
Proof. cbn. auto. Qed.
Lemma write_entry_setup k v h s : se_setup (fst (write_entry k v h s)) = se_setup s.
Proof. unfold write_entry. repeat (match goal with |- context [match ?x with _ => _ end] => destruct x end; try reflexivity). Qed.
Lemma write_entries_setup k v n : forall h s, se_setup (fst (each_entry (write_entry k v) h n s)) = se_setup s.
Proof.
  induction n as [|n IH]; intros h s; cbn [each_entry fst]; [reflexivity|]. unfold andthen. pose proof (write_entry_setup k v h s) as E.
  destruct (snd (write_entry k v h s)); [|exact E..]. now rewrite IH.
Qed.
Lemma write_setup k names : forall s, se_setup (fst (SessionModel.step s (Write k names))) = se_setup s.
Proof.
  cbn [SessionModel.step]. induction names as [|n names IH]; intros s; cbn [each_name fst]; [reflexivity|].
  assert (E : se_setup (fst (write_name k n s)) = se_setup s).
  { unfold write_name. destruct (get_variable _ _) as [v|]; [|reflexivity].
    assert (B : se_setup (fst (before_write k v s)) = se_setup s).
    { unfold before_write. destruct (sv_local v) as [l|]; [|reflexivity]. destruct (se_mode s); [| |reflexivity].
      - unfold store. destruct (memberb _ _); [reflexivity|]. destruct (write_ranks _ _ _ _ _ _); reflexivity.
      - unfold load. destruct (memberb _ _); [reflexivity|]. destruct (mapm _ _); reflexivity. }
    unfold andthen. destruct (snd (before_write k v s)); [|exact B..]. now rewrite write_entries_setup. }
  unfold andthen. destruct (snd (write_name k n s)); [|exact E..]. now rewrite IH.
Qed.
End Lengths.

Section P.
Context {A : Type} (zero junk : A).
Variable S : scheme.
Hypothesis acc : acceptable S.
Implicit Types (m : member A) (ms : list (member A)) (s : state A).
Notation team := (team junk S).
Notation sound := (@sound A junk).
Notation P := (plan_of S).

(** ** Lists of processes *)
Lemma all_steady_refl ms : Forall2 steady ms ms.
Proof. induction ms; constructor; auto using steady_refl. Qed.
Lemma all_steady_trans a : forall b c, Forall2 steady a b -> Forall2 steady b c -> Forall2 (@steady A) a c.
Proof.
  induction a as [|x a IH]; intros b c H K; inversion H; subst; inversion K; subst; constructor; [eapply steady_trans; eassumption|eauto].
Qed.
Lemma upd_steady ms i m m' : nth_error ms i = Some m -> steady m m' -> Forall2 steady ms (upd ms i m').
Proof.
  revert i. induction ms as [|x ms IH]; intros [|i] N T; cbn in N; try discriminate; cbn [upd].
  - injection N as ->. constructor; [exact T|apply all_steady_refl].
  - constructor; [apply steady_refl|now apply IH].
Qed.
Lemma upd_sound ms i m' : Forall sound ms -> sound m' -> Forall sound (upd ms i m').
Proof. intros F. revert i. induction F as [|x ms Hx F IH]; intros [|i] So; cbn [upd]; constructor; auto. Qed.
Lemma fetch_list mem names ms : forall i, Forall sound ms -> Forall sound (fetch_from i mem names ms) /\ Forall2 steady ms (fetch_from i mem names ms).
Proof.
  induction ms as [|m ms IH]; intros i F; cbn [fetch_from]; [split; constructor|]. inversion F; subst.
  destruct (fetch_steady junk i mem names m) as (S1 & T1); [assumption|]. destruct (IH (Datatypes.S i)) as (S2 & T2); [assumption|]. split; constructor; assumption.
Qed.
Lemma steady_nth ms ms' i m' : Forall2 steady ms ms' -> nth_error ms' i = Some m' -> exists m, nth_error ms i = Some m /\ steady m m'.
Proof.
  intros F. revert i. induction F as [|a b l l' T F IH]; intros [|i] N; cbn in N; try discriminate; [injection N as <-; exists a; auto|now apply IH].
Qed.
Lemma team_sound ms : team ms -> Forall sound ms.
Proof. intros (_ & F & _). eapply Forall_impl; [|exact F]. intros m H. apply H. Qed.

(** ** What holds in between calls *)
Definition bound (f : SessionModel.session A) ms : Prop := exists ms0, team ms0 /\ Forall2 steady ms0 ms /\ su_parts (se_setup f) = map part_of ms0 /\ local_free f.
Definition tied s : Prop := team (t_members s) /\
  match t_file s with Some f => t_open s = true -> bound f (t_members s) | None => t_open s = false end.
Lemma bound_steady f f' ms ms' : bound f ms -> Forall2 steady ms ms' -> se_setup f' = se_setup f -> bound f' ms'.
Proof.
  intros (ms0 & T & F & E & L) F' Es. exists ms0. split; [exact T|]. split; [now apply (all_steady_trans _ ms)|]. unfold local_free. rewrite Es. auto.
Qed.
Lemma bound_sized f ms : bound f ms -> team ms -> sized P (se_setup f) (memory ms).
Proof. intros (ms0 & T & F & E & _) Tm. apply (memory_sized junk S ms0); auto. now apply team_sound. Qed.
Lemma bound_ranked f ms : bound f ms -> ranked (with_mem f (memory ms)).
Proof. intros (ms0 & T & F & E & _) n h. cbn [with_mem se_mem se_setup]. unfold memory. rewrite E, !map_length. symmetry. clear - F. induction F; cbn; congruence. Qed.

Lemma free_of ms names u : setup_of ms names = Ok u -> Forall (fun v => sv_local v = None) (su_vars u).
Proof.
  unfold setup_of. intros E. apply bind_ok in E. destruct E as (vss & E1 & E). destruct vss as [|vs vss]; [discriminate|]. apply Ok_inj in E. subst u. cbn [su_vars].
  destruct ms as [|m ms]; [discriminate E1|]. cbn [mapm] in E1. apply bind_ok in E1. destruct E1 as (y & E1 & E2). apply bind_ok in E2. destruct E2 as (ys & _ & E2). apply Ok_inj in E2. injection E2 as -> _.
  revert E1. generalize [0; 0; 0] ([] : list string). revert vs. induction names as [|n names IH]; intros vs seen known E; cbn [register_names] in E.
  - apply Ok_inj in E. subst vs. constructor.
  - destruct (existsb _ _); [discriminate|]. apply bind_ok in E. destruct E as (r & _ & E). destruct (register_global _ _ _ _ _) as [seen' v]. apply bind_ok in E. destruct E as (w & _ & E).
    apply bind_ok in E. destruct E as (z & _ & E). apply bind_ok in E. destruct E as (vs' & E1 & E). apply Ok_inj in E. subst vs. constructor; [reflexivity|]. exact (IH _ _ _ E1).
Qed.
(** Files are made and opened. *)
Lemma start_ok md ms names hf f : team ms -> all_names S names -> exists u (s' : SessionModel.session A), setup_of ms names = Ok u /\ fits P u /\ sized P u (memory ms) /\
  start md u (memory ms) hf f = Ok s' /\ bound s' ms /\ se_nb s' = recs f /\ se_mode s' = md.
Proof.
  intros T AN. destruct (setup_ok junk S acc ms names T AN) as (u & Eu & F & Ep & Ec). exists u. eexists. split; [exact Eu|]. split; [exact F|].
  split; [apply (memory_sized junk S ms); auto; [apply all_steady_refl|now apply team_sound]|].
  unfold start. rewrite Ec. cbn [all_positions bind]. split; [reflexivity|]. split; [|auto].
  exists ms. split; [exact T|]. split; [apply all_steady_refl|]. split; [exact Ep|]. unfold local_free. cbn [se_setup]. exact (free_of _ _ _ Eu).
Qed.
Lemma named_of names : incl names (map i_name (sc_items S)) -> named P names.
Proof.
  intros Inc n Hn. apply Inc, in_map_iff in Hn. destruct Hn as (q & <- & Iq). exists (quantity_of q). split; [now apply in_map|reflexivity].
Qed.
Lemma positioned_of known names : positioned P known names.
Proof. intros q l Iq _ E. apply in_map_iff in Iq. destruct Iq as (q0 & <- & _). discriminate E. Qed.

(** One call is a number of operations on the file. *)
Definition mirrors (K : state A -> call A -> Prop) (K' : SessionModel.session A -> SessionModel.op A -> Prop) : Prop :=
  (forall f o, (forall k names, o <> Write k names) -> creates o = false -> K' f o) /\
  (forall s f k names, t_file s = Some f -> t_open s = true -> K s (TWrite k names) -> K' (with_mem f (memory (t_members s))) (Write k names)) /\
  (forall s f names c u mem hc c', K s (TCreate names c) -> K' f (Create u mem hc c')).
Lemma step_tied s k : tied s -> proper zero junk S k -> tied (fst (tstep zero junk s k)).
Proof.
  intros (T & B) Pr. pose proof (team_sound _ T) as So. destruct k; cbn [tstep proper] in *.
  - destruct (nth_error (t_members s) i) as [m|] eqn:N; [|split; assumption].
    assert (Sm : sound m) by (rewrite Forall_forall in So; exact (So _ (nth_error_In _ _ N))).
    destruct (member_steady zero junk m k Sm Pr) as (S1 & T1). destruct (member_step zero junk m k) as [m' r]. cbn [fst] in *.
    pose proof (upd_steady _ _ _ _ N T1) as U. split; cbn [t_members t_file t_open].
    + apply (steady_team junk S (t_members s)); [exact U|now apply upd_sound|exact T].
    + destruct (t_file s) as [f|]; [|exact B]. intros O. now apply (bound_steady f f (t_members s)); [apply B| |].
  - split; cbn [fst t_members t_file t_open]; [now apply (together_team zero)|]. destruct (t_file s); [discriminate|reflexivity].
  - destruct (start_ok Creating (t_members s) names (mk_ncfile 0 (fun _ _ => 0)) (mk_ncfile 0 c) T Pr) as (u & s' & -> & _ & _ & E & Bd & _). cbn [bind]. rewrite E.
    cbn [opened fst]. split; cbn [t_members t_file t_open]; auto.
  - destruct (t_file s) as [f|] eqn:Ef; [|split; cbn [fst]; [exact T|rewrite Ef; exact B]].
    destruct (start_ok (if append then Appending else Reading) (t_members s) names (se_hfile f) (se_file f) T Pr) as (u & s' & -> & _ & _ & E & Bd & _). cbn [bind]. rewrite E.
    cbn [opened fst]. split; cbn [t_members t_file t_open]; auto.
  - split; cbn [fst t_members t_file t_open]; [exact T|]. destruct (t_file s); [discriminate|reflexivity].
  - unfold on_file. destruct (t_file s) as [f|] eqn:Ef; [|split; cbn [fst]; [exact T|rewrite Ef; exact B]]. destruct (t_open s) eqn:Eo; [|split; cbn [fst]; [exact T|rewrite Ef, Eo; discriminate]].
    cbn [SessionModel.step fst]. split; cbn [t_members t_file t_open]; [exact T|]. intros _. eapply bound_steady; [exact (B eq_refl)|apply all_steady_refl|reflexivity].
  - unfold on_file. destruct (t_file s) as [f|] eqn:Ef; [|split; cbn [fst]; [exact T|rewrite Ef; exact B]]. destruct (t_open s) eqn:Eo; [|split; cbn [fst]; [exact T|rewrite Ef, Eo; discriminate]].
    pose proof (write_setup k names (with_mem f (memory (t_members s)))) as WS. destruct (SessionModel.step _ (Write k names)) as [f' r]. cbn [fst] in *.
    split; cbn [t_members t_file t_open]; [exact T|]. intros _. eapply bound_steady; [exact (B eq_refl)|apply all_steady_refl|exact WS].
  - unfold on_file. destruct (t_file s) as [f|] eqn:Ef; [|split; cbn [fst]; [exact T|rewrite Ef; exact B]]. destruct (t_open s) eqn:Eo; [|split; cbn [fst]; [exact T|rewrite Ef, Eo; discriminate]].
    destruct (read_lengths k names (with_mem f (memory (t_members s)))) as (_ & RS & _); [destruct (B eq_refl) as (ms0 & _ & _ & _ & L); exact L|apply bound_ranked, B; reflexivity|].
    destruct (SessionModel.step _ (Read k names)) as [f' r]. cbn [fst] in *. destruct (fetch_list (se_mem f') names (t_members s) 0 So) as (S1 & T1).
    split; cbn [t_members t_file t_open]; [now apply (steady_team junk S (t_members s))|]. intros _. eapply bound_steady; [exact (B eq_refl)|exact T1|exact RS].
Qed.
Lemma runs_tied K s l s' : runs zero junk S K s l s' -> tied s -> tied s'.
Proof. intros R. induction R; intros T; [exact T|]. apply IHR. now apply step_tied. Qed.

Lemma run_two (K' : SessionModel.session A -> SessionModel.op A -> Prop) f known o1 o2 f1 r1 f2 r2 : allowed P known f o1 -> K' f o1 -> SessionModel.step f o1 = (f1, r1) ->
  allowed P (learn P known f o1 r1) f1 o2 -> K' f1 o2 -> SessionModel.step f1 o2 = (f2, r2) -> exists known', SessionSpec.run P K' f known [o1; o2] f2 known'.
Proof. intros. eexists. econstructor; try eassumption. econstructor; try eassumption. constructor. Qed.
Lemma step_file K K' s k f known : mirrors K K' -> tied s -> proper zero junk S k -> K s k -> t_file s = Some f ->
  exists f' ops known', t_file (fst (tstep zero junk s k)) = Some f' /\ SessionSpec.run P K' f known ops f' known'.
Proof.
  intros (M1 & M2 & M3) (T & B) Pr Kk Ef. rewrite Ef in B. assert (R0 : exists f' ops known', Some f = Some f' /\ SessionSpec.run P K' f known ops f' known') by (exists f, [], known; split; [reflexivity|constructor]).
  destruct k; cbn [tstep proper] in *.
  - destruct (nth_error (t_members s) i) as [m|]; [|cbn [fst]; now rewrite Ef]. destruct (member_step zero junk m k). cbn [fst t_file]. now rewrite Ef.
  - cbn [fst t_file]. now rewrite Ef.
  - destruct (start_ok Creating (t_members s) names (mk_ncfile 0 (fun _ _ => 0)) (mk_ncfile 0 c) T Pr) as (u & s' & -> & F & Sz & E & Bd & _). cbn [bind]. rewrite E. cbn [opened fst t_file].
    exists s', [Create u (memory (t_members s)) (fun _ _ => 0) c]. eexists. split; [reflexivity|]. econstructor; [split; [exact F|exact Sz]|exact (M3 s f names c _ _ _ _ Kk)| |constructor].
    cbn [SessionModel.step]. rewrite E. reflexivity.
  - rewrite Ef. destruct (start_ok (if append then Appending else Reading) (t_members s) names (se_hfile f) (se_file f) T Pr) as (u & s' & -> & F & Sz & E & Bd & _). cbn [bind]. rewrite E. cbn [opened fst t_file].
    exists s', [Reopen append u (memory (t_members s))]. eexists. split; [reflexivity|]. econstructor; [split; [exact F|exact Sz]|apply M1; [discriminate|reflexivity]| |constructor].
    cbn [SessionModel.step]. rewrite E. reflexivity.
  - cbn [fst t_file]. now rewrite Ef.
  - unfold on_file. rewrite Ef. destruct (t_open s) eqn:Eo; [|cbn [fst]; now rewrite Ef].
    destruct (SessionModel.step (with_mem f (memory (t_members s))) AppendFrame) as [f' r] eqn:E. cbn [fst t_file].
    destruct (run_two K' f known (Assign (memory (t_members s))) AppendFrame (with_mem f (memory (t_members s))) (Ok tt) f' r (bound_sized f _ (B eq_refl) T)) as (known' & R); [apply M1; [discriminate|reflexivity]|reflexivity|exact Logic.I|apply M1; [discriminate|reflexivity]|exact E|]. eauto.
  - unfold on_file. rewrite Ef. destruct (t_open s) eqn:Eo; [|cbn [fst]; now rewrite Ef].
    destruct (SessionModel.step (with_mem f (memory (t_members s))) (Write k names)) as [f' r] eqn:E. cbn [fst t_file].
    destruct (run_two K' f known (Assign (memory (t_members s))) (Write k names) (with_mem f (memory (t_members s))) (Ok tt) f' r (bound_sized f _ (B eq_refl) T)) as (known' & R); [apply M1; [discriminate|reflexivity]|reflexivity|split; [now apply named_of|intros _; apply positioned_of]|now apply M2|exact E|]. eauto.
  - unfold on_file. rewrite Ef. destruct (t_open s) eqn:Eo; [|cbn [fst]; now rewrite Ef].
    destruct (SessionModel.step (with_mem f (memory (t_members s))) (Read k names)) as [f' r] eqn:E. cbn [fst t_file].
    destruct (run_two K' f known (Assign (memory (t_members s))) (Read k names) (with_mem f (memory (t_members s))) (Ok tt) f' r (bound_sized f _ (B eq_refl) T)) as (known' & R); [apply M1; [discriminate|reflexivity]|reflexivity|split; [now apply named_of|apply positioned_of]|apply M1; [discriminate|reflexivity]|exact E|]. eauto.
Qed.
Lemma run_app (K' : SessionModel.session A -> SessionModel.op A -> Prop) f known l1 f1 known1 l2 f2 known2 : SessionSpec.run P K' f known l1 f1 known1 -> SessionSpec.run P K' f1 known1 l2 f2 known2 -> SessionSpec.run (A := A) P K' f known (l1 ++ l2) f2 known2.
Proof. intros R1 R2. induction R1; [exact R2|]. cbn [app]. econstructor; eauto. Qed.
Lemma runs_file K K' s l s' : mirrors K K' -> runs zero junk S K s l s' -> forall f known, tied s -> t_file s = Some f ->
  exists f' ops known', t_file s' = Some f' /\ SessionSpec.run P K' f known ops f' known'.
Proof.
  intros M R. induction R as [s|s k l s' Pr Kk R IH]; intros f known T Ef.
  - exists f, [], known. split; [exact Ef|constructor].
  - destruct (step_file K K' s k f known M T Pr Kk Ef) as (f1 & ops1 & known1 & E1 & R1). destruct (IH f1 known1 (step_tied _ _ T Pr) E1) as (f2 & ops2 & known2 & E2 & R2).
    exists f2, (ops1 ++ ops2), known2. split; [exact E2|]. exact (run_app _ _ _ _ _ _ _ _ _ R1 R2).
Qed.
Lemma mirrors_any : mirrors any_call anything.
Proof. unfold mirrors, anything. auto. Qed.
Lemma mirrors_leaves name fr : mirrors (leaves name fr) (spares name fr).
Proof.
  split; [|split].
  - intros f o N C. destruct o; try exact Logic.I; [discriminate C|]. exfalso. now apply (N k names).
  - intros s f k names Ef _ H. cbn [leaves spares] in *. unfold frames in H. rewrite Ef in H. exact H.
  - intros s f names c u mem hc c' H. destruct H.
Qed.
(** The file of a program was created by it. *)
Lemma runs_created s l s' f : runs zero junk S any_call s l s' -> tied s -> t_file s = None -> t_file s' = Some f ->
  exists (s0 : SessionModel.session A) known0 u mem hc c ops known, SessionSpec.run P anything s0 known0 (Create u mem hc c :: ops) f known.
Proof.
  intros R. induction R as [s|s k l s' Pr Kk R IH]; intros T E0 E; [congruence|]. pose proof (step_tied s k T Pr) as T1.
  destruct (t_file (fst (tstep zero junk s k))) as [f1|] eqn:E1; [|now apply IH].
  destruct k; cbn [tstep] in E1, R; try (unfold on_file in E1; rewrite E0 in E1; cbn [fst] in E1; congruence).
  - destruct (nth_error (t_members s) i); [destruct (member_step zero junk m k)|]; cbn [fst t_file] in E1; congruence.
  - cbn [fst t_file] in E1. congruence.
  - destruct T as (T & _). cbn [proper] in Pr. destruct (start_ok Creating (t_members s) names (mk_ncfile 0 (fun _ _ => 0)) (mk_ncfile 0 c) T Pr) as (u & g & Eu & F & Sz & Es & Bd & _).
    rewrite Eu in E1, R. cbn [bind] in E1, R. rewrite Es in E1, R. cbn [opened fst t_file] in E1, R. injection E1 as <-.
    set (s0 := SessionModel.mk_session Reading u 0 [] [] (fun _ => []) (memory (t_members s)) (mk_ncfile 0 (fun _ _ => 0)) (mk_ncfile 0 c)).
    cbn [tstep] in T1. rewrite Eu in T1. cbn [bind] in T1. rewrite Es in T1.
    destruct (runs_file _ _ _ _ _ mirrors_any R g (learn P [] s0 (Create u (memory (t_members s)) (fun _ _ => 0) c) (Ok tt)) T1 eq_refl) as (f' & ops & known' & E' & R').
    rewrite E in E'. injection E' as <-. exists s0, [], u, (memory (t_members s)), (fun _ _ => 0), c, ops, known'.
    econstructor; [split; [exact F|exact Sz]|exact Logic.I| |exact R']. cbn [SessionModel.step]. rewrite Es. reflexivity.
  - cbn [fst t_file] in E1. congruence.
Qed.
Lemma begin_tied ms : together zero junk S ms -> tied (mk_state ms None false).
Proof. intros T. split; [now apply (together_team zero)|reflexivity]. Qed.
End P.
