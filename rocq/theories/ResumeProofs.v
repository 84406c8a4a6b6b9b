(** Lemmas on the processes of programs with state fields and files. *)
From Coq Require Import String.
From Verif Require Import Base CIntModel GridModel GridSpec StridedModel UnitsModel LayoutModel LayoutSpec LayoutProofs FieldModel FieldSpec.
From Verif Require Import RegistryModel RegistrySpec RegistryProofs RegistryProofs2 RegistryProofs3 StateModel StateSpec StateProofs StateProofs2 NumpyModel NumpySpec PyArrayModel PyArraySpec PyArrayProofs.
From Verif Require Import FrameModel NetCDFModel NetCDFSpec NetCDFProofs5 SessionModel StackModel StackSpec StackProofs StackProofs2 ResumeModel ResumeSpec.
Local Open Scope Z_scope.
Local Open Scope list_scope.

(** The fields behind a design, as those of StackSpec.v. *)
Definition items_of (g : thing) : list item :=
  match g_mem g with
  | None => [g_item g]
  | Some mem => map (fun n => mk_item n (i_comp (g_item g)) (i_nsub (g_item g)) (i_tag (g_item g))) (sub_names (g_name g) mem)
  end.
Definition phys (D : design) : scheme := mk_scheme (ds_dom D) (flat_map items_of (ds_things D)).
Lemma in_phys D q : In q (sc_items (phys D)) <-> exists g, In g (ds_things D) /\ In q (items_of g).
Proof. cbn [phys sc_items]. apply in_flat_map. Qed.

Section P.
Context {A : Type} (zero junk : A).
Implicit Types (m : member A) (p : proc A).
Notation sound := (@sound A junk).

(** ** Calls on collections *)
Lemma touch_steady m tag : sound m -> let m' := with_coll m (touch_tag (p_coll (m_py m)) tag) in sound m' /\ steady m m'.
Proof.
  intros (Si & Ini & G & V). cbn zeta. set (c := p_coll (m_py m)) in *. pose proof (same_coll_touch c tag) as SC. destruct (touch_tag_same c tag) as (_ & _ & Ei & _ & En & _ & _ & _ & Ef).
  unfold StackProofs.sound, steady, box, with_coll. cbn [m_py p_coll p_views m_dom m_loc]. split.
  - split; [apply (sinv_same_fields true c); auto; [apply inv_touch, Si|intros; apply touch_tag_number]|]. split; [congruence|]. split; [exact (coll_good _ _ SC G)|].
    intros i v N. destruct (V i v N) as (r & (N1 & L & P & Ga)). exists r. unfold on_memory. cbn [p_coll p_views]. rewrite Ef. split; [exact N|]. split; [exact L|]. split; [exact P|].
    apply (get_array_in_place junk c _ _ _ r r v); auto using in_place_refl. now rewrite Ef.
  - split; [reflexivity|]. split; [reflexivity|]. split; [apply SC|]. split; [|auto]. intros n r L. rewrite Ef. eauto using in_place_refl.
Qed.
Lemma register_member m n ty nbc tag u al : member_step zero junk m (PColl (ORegister n ty (inl nbc) tag u al)) =
  (with_coll m (fst (register_field zero (p_coll (m_py m)) n ty (inl nbc) tag u al)), snd (register_field zero (p_coll (m_py m)) n ty (inl nbc) tag u al)).
Proof. unfold member_step. cbn [pystep from_python RegistryModel.step]. destruct (register_field _ _ _ _ _ _ _ _) as [c r]. reflexivity. Qed.
Lemma subs_steady ty nbc tag u ns : positive (inl nbc) -> forall m, sound m ->
  let m' := with_coll m (fst (register_subs zero (p_coll (m_py m)) ns ty nbc tag u)) in sound m' /\ steady m m'.
Proof.
  intros P. induction ns as [|n ns IH]; intros m So; cbn zeta; cbn [register_subs fst].
  - replace (with_coll m (p_coll (m_py m))) with m by (destruct m as [[c v] d l]; reflexivity). split; [exact So|apply steady_refl].
  - destruct (member_steady zero junk m (PColl (ORegister n ty (inl nbc) tag u false)) So P) as (S1 & T1). rewrite register_member in S1, T1. cbn [fst] in S1, T1.
    destruct (register_field zero (p_coll (m_py m)) n ty (inl nbc) tag u false) as [c r]. cbn [fst] in S1, T1. destruct r as [x|e|]; [|split; assumption..].
    destruct (IH _ S1) as (S2 & T2). cbn [with_coll m_py p_coll p_views m_dom m_loc] in S2, T2. split; [exact S2|exact (steady_trans _ _ _ T1 T2)].
Qed.
Lemma state_steady m st prefix ty mem nbc tag u al : positive (inl nbc) -> sound m ->
  let m' := with_coll m (y_coll (fst (register_state zero (mk_sys (p_coll (m_py m)) st) prefix ty mem nbc tag u al))) in sound m' /\ steady m m'.
Proof.
  intros P So. cbn zeta. assert (R : with_coll m (p_coll (m_py m)) = m) by (destruct m as [[c v] d l]; reflexivity).
  assert (Same : sound (with_coll m (p_coll (m_py m))) /\ steady m (with_coll m (p_coll (m_py m)))) by (rewrite R; split; [exact So|apply steady_refl]).
  unfold register_state. cbn [y_states y_coll]. destruct (lookup prefix st).
  - destruct al; [|exact Same]. repeat match goal with |- context [if ?b then _ else _] => destruct b; [exact Same|] end. exact Same.
  - destruct (touch_steady m tag So) as (S1 & T1). destruct (mem <? 1); [split; assumption|]. destruct (subs_steady ty nbc tag u (sub_names prefix mem) P _ S1) as (S2 & T2).
    cbn [with_coll m_py p_coll p_views m_dom m_loc] in S2, T2. destruct (register_subs _ _ _ _ _ _ _) as [c r]. cbn [fst] in S2, T2.
    assert (E : sound (with_coll m c) /\ steady m (with_coll m c)) by (split; [exact S2|exact (steady_trans _ _ _ T1 T2)]). destruct r; exact E.
Qed.
Lemma from_sys_id p : from_sys p (sys_of p) = p.
Proof. destruct p as [[[c v] d l] st]. reflexivity. Qed.

(** ** Calls of processes *)
Definition follows p p' : Prop := steady (r_m p) (r_m p') /\
  forall n s, lookup n (r_states p) = Some s -> exists s', lookup n (r_states p') = Some s' /\ s_mem s' = s_mem s.
Definition firm p : Prop := sound (r_m p) /\ states_ok (sys_of p).
Lemma follows_refl p : follows p p.
Proof. split; [apply steady_refl|eauto]. Qed.
Lemma follows_trans p q r : follows p q -> follows q r -> follows p r.
Proof.
  intros (T1 & H1) (T2 & H2). split; [exact (steady_trans _ _ _ T1 T2)|]. intros n s L. destruct (H1 n s L) as (s1 & L1 & E1). destruct (H2 n s1 L1) as (s2 & L2 & E2). exists s2. split; [exact L2|congruence].
Qed.
Lemma firm_inv p : firm p -> inv (y_coll (sys_of p)).
Proof. intros ((Si & _) & _). apply Si. Qed.
Lemma sys_follow p o : firm p -> forall n s, lookup n (r_states p) = Some s -> exists s', lookup n (y_states (fst (sstep zero (sys_of p) o))) = Some s' /\ s_mem s' = s_mem s.
Proof.
  intros _ n s L. rewrite (sstep_state zero (sys_of p) o n s L). eexists. split; [reflexivity|]. destruct o as [| q| |]; try reflexivity. destruct (String.eqb q n); reflexivity.
Qed.
Lemma cycle_coll p prefix : with_coll (r_m p) (y_coll (fst (sstep zero (sys_of p) (SCycle prefix)))) = r_m p.
Proof. destruct p as [[[c v] d l] st]. cbn [sstep sys_of y_states]. destruct (lookup _ _); reflexivity. Qed.
Lemma member_states m k st : states_ok (mk_sys (p_coll (m_py m)) st) -> states_ok (mk_sys (p_coll (m_py (fst (member_step zero junk m k)))) st).
Proof. intros H. exact H. Qed.
Lemma proc_firm p c : firm p -> orderly_call c -> firm (fst (proc_step zero junk p c)) /\ follows p (fst (proc_step zero junk p c)).
Proof.
  intros Fi O. pose proof Fi as (So & St). destruct c as [k|prefix ty mem nbc tag u al|prefix|prefix k u]; cbn [proc_step orderly_call] in *.
  - destruct (member_steady zero junk (r_m p) k So O) as (S1 & T1). destruct (member_step zero junk (r_m p) k) as [m r]. cbn [fst] in *. split; [split; [exact S1|exact St]|split; [exact T1|eauto]].
  - destruct (state_steady (r_m p) (r_states p) prefix ty mem nbc tag u al O So) as (S1 & T1). fold (sys_of p) in S1, T1.
    pose proof (sstep_ok zero (sys_of p) (SRegister prefix ty mem nbc tag u al) (firm_inv p Fi) St) as (_ & St1). pose proof (sys_follow p (SRegister prefix ty mem nbc tag u al) Fi) as Fo. cbn [sstep] in St1, Fo.
    destruct (register_state zero (sys_of p) prefix ty mem nbc tag u al) as [y r]. cbn [fst] in *. split; [split; [exact S1|exact St1]|split; [exact T1|exact Fo]].
  - pose proof (cycle_coll p prefix) as CC. pose proof (sstep_ok zero (sys_of p) (SCycle prefix) (firm_inv p Fi) St) as (_ & St1). pose proof (sys_follow p (SCycle prefix) Fi) as Fo.
    destruct (sstep zero (sys_of p) (SCycle prefix)) as [y r]. cbn [fst] in *. unfold from_sys. rewrite CC. split; [split; [exact So|exact St1]|split; [apply steady_refl|exact Fo]].
  - destruct (name_at (sys_of p) prefix k) as [n| |]; [|split; [exact Fi|apply follows_refl]..].
    destruct (member_steady zero junk (r_m p) (PArray n u) So Logic.I) as (S1 & T1). destruct (member_step zero junk (r_m p) (PArray n u)) as [m r]. cbn [fst] in *. split; [split; [exact S1|exact St]|split; [exact T1|eauto]].
Qed.
Lemma run_firm l : forall p, firm p -> Forall orderly_call l -> firm (proc_run zero junk p l) /\ follows p (proc_run zero junk p l).
Proof.
  induction l as [|c l IH]; intros p F O; [split; [exact F|apply follows_refl]|]. inversion O as [|? ? O1 O2]; subst.
  change (proc_run zero junk p (c :: l)) with (proc_run zero junk (fst (proc_step zero junk p c)) l).
  destruct (proc_firm p c F O1) as (F1 & T1). destruct (IH _ F1 O2) as (F2 & T2). split; [exact F2|]. exact (follows_trans _ _ _ T1 T2).
Qed.
(** Before the collection is initialised. *)
Lemma subs_sinv ty nbc tag u ns : positive (inl nbc) -> forall c : coll A, sinv true c -> sinv true (fst (register_subs zero c ns ty nbc tag u)).
Proof.
  intros P. induction ns as [|n ns IH]; intros c S; [exact S|]. cbn [register_subs]. pose proof (sinv_register true zero c n ty (inl nbc) tag u false S P) as S1.
  destruct (register_field zero c n ty (inl nbc) tag u false) as [c' [x|e|]]; cbn [fst] in *; auto.
Qed.
Lemma touch_sinv (c : coll A) tag : sinv true c -> sinv true (touch_tag c tag).
Proof.
  intros S. destruct (touch_tag_same c tag) as (_ & _ & Ei & _ & En & _ & _ & _ & Ef). apply (sinv_same_fields true c); auto; [apply inv_touch, S|intros; apply touch_tag_number].
Qed.
Lemma proc_sinv p c : sinv true (p_coll (m_py (r_m p))) -> states_ok (sys_of p) -> orderly_call c ->
  sinv true (p_coll (m_py (r_m (fst (proc_step zero junk p c))))) /\ states_ok (sys_of (fst (proc_step zero junk p c))).
Proof.
  intros Si St O. destruct c as [k|prefix ty mem nbc tag u al|prefix|prefix k u]; cbn [proc_step orderly_call] in *.
  - pose proof (member_run_py zero junk [k] (r_m p)) as E. cbn in E. pose proof (pystep_sinv zero junk (m_py (r_m p)) k Si O) as S1. rewrite <- E in S1. destruct (member_step zero junk (r_m p) k) as [m r]. split; [exact S1|exact St].
  - pose proof (sstep_ok zero (sys_of p) (SRegister prefix ty mem nbc tag u al) (proj1 Si) St) as (_ & St1). cbn [sstep] in St1.
    assert (S1 : sinv true (y_coll (fst (register_state zero (sys_of p) prefix ty mem nbc tag u al)))).
    { unfold register_state. destruct (lookup prefix (y_states (sys_of p))).
      - destruct al; [|exact Si]. repeat match goal with |- context [if ?b then _ else _] => destruct b; [exact Si|] end. exact Si.
      - pose proof (touch_sinv _ tag Si) as S1. destruct (mem <? 1); [exact S1|]. pose proof (subs_sinv ty nbc tag u (sub_names prefix mem) O _ S1) as S2. cbn [sys_of y_coll].
        destruct (register_subs _ _ _ _ _ _ _) as [c [x|e|]]; exact S2. }
    destruct (register_state zero (sys_of p) prefix ty mem nbc tag u al) as [y r]. split; [exact S1|exact St1].
  - pose proof (cycle_coll p prefix) as CC. pose proof (sstep_ok zero (sys_of p) (SCycle prefix) (proj1 Si) St) as (_ & St1).
    destruct (sstep zero (sys_of p) (SCycle prefix)) as [y r]. cbn [fst] in *. unfold from_sys. rewrite CC. split; [exact Si|exact St1].
  - destruct (name_at (sys_of p) prefix k) as [n| |]; [|split; assumption..].
    pose proof (member_run_py zero junk [PArray n u] (r_m p)) as E. cbn [member_run pyrun fold_left] in E. pose proof (pystep_sinv zero junk (m_py (r_m p)) (PArray n u) Si Logic.I) as S1. rewrite <- E in S1.
    destruct (member_step zero junk (r_m p) (PArray n u)) as [m r]. split; [exact S1|exact St].
Qed.
Lemma set_out_sinv l p : set_out zero junk l p -> sinv true (p_coll (m_py (r_m p))) /\ states_ok (sys_of p).
Proof.
  intros (order & tags & c0 & _ & N & T & O & ->). pose proof (new_coll_sinv true true order tags c0 N T) as S0.
  set (p0 := mk_proc (mk_member (PyArrayModel.mk_session c0 []) [] []) []).
  assert (H0 : sinv true (p_coll (m_py (r_m p0))) /\ states_ok (sys_of p0)) by (split; [exact S0|intros q s H; discriminate H]).
  revert H0. generalize p0. clear - O. induction l as [|c l IH]; intros p (Si & St); [auto|]. inversion O as [|? ? O1 O2]; subst. unfold proc_run. cbn [fold_left]. apply IH; [exact O2|]. now apply proc_sinv.
Qed.
End P.
