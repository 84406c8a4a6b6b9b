(** Proofs about attributes and modes of files: whole sessions. *)
From Coq Require Import String.
From Verif Require Import Base AttModel AttSpec LayoutProofs AttProofs AttProofs2 AttProofs3 AttProofs4 AttProofs5 AttProofs6 AttProofs7 AttProofs8 AttProofs9 AttProofs10 AttProofs11.
Local Open Scope string_scope.
Local Open Scope Z_scope.
Local Open Scope list_scope.

(** ** Attributes come back *)
Lemma session_atts s0 l0 k0 h s1 date time s2 : I s0 l0 k0 -> tidy_runs s0 h s1 -> close date time s1 = (s2, Ok tt) -> (List.length (read_global_attribute_names s1) <= 30)%nat ->
  exists c, s_disk s2 = Some c /\ readable c /\ forall i a d b e t, exists s3, open ORead i a d b e t (Some c) = (Ok s3, Some c) /\
    read_global_attribute_names s3 = read_global_attribute_names s1 /\ forall n, ~ In n stamps -> shown s3 n = after h (shown s0) n.
Proof.
  intros H0 R C L. destruct (runs_spec s0 h s1 R l0 k0 H0) as (l1 & k1 & H1 & _ & Sh1). destruct (close_spec s1 l1 k1 date time H1) as (s2' & r & E & _ & X & _). rewrite C in E. injection E as <- <-.
  destruct (X eq_refl) as (s3 & l3 & H3 & N3 & Sh3 & _ & _ & D). destruct (I_readable s3 l3 H3) as [Rd Ga]. exists (l_c l3). split; [exact D|]. split; [exact Rd|]. intros i a d b e t.
  assert (Ln : (List.length (c_gatts (l_c l3)) <= 30)%nat).
  { rewrite Ga, map_length, <- (map_length m_name). change (List.length (names s3) <= 30)%nat. rewrite N3. exact L. }
  rewrite (open_readable ORead (l_c l3)), firstn_all2 by auto. eexists. split; [reflexivity|]. split.
  - unfold read_global_attribute_names. pj. rewrite names_loaded, Ga, map_a_name. exact N3.
  - intros n Hn. rewrite shown_seen. pj. rewrite to_att_loaded, Ga, <- shown_seen, Sh3 by exact Hn. apply Sh1.
Qed.

(** ** Values come back *)
Lemma ids_ok_none s : s_vars (s_o s) = [] -> ids_ok s.
Proof. intros H l w i _ Hw. rewrite H in Hw. destruct Hw. Qed.
Lemma session_values s0 l0 h s1 date time s2 n f : s_lib s0 = Some l0 -> l_rw l0 = true -> s_vars (s_o s0) = [] -> sound (l_c l0) -> runs s0 h s1 -> undisturbed h n f ->
  close date time s1 = (s2, Ok tt) -> exists c, s_disk s2 = Some c /\ sound c /\ held c n f = latest h n f (held (l_c l0) n f).
Proof.
  intros L0 R0 V0 Sd R U C. destruct (runs_held s0 h s1 R l0 n f L0 (ids_ok_none s0 V0) Sd U) as (l1 & L1 & Sd1 & H1).
  assert (R1 : l_rw l1 = true).
  { destruct (grows_at _ _ _ _ (runs_grow _ _ _ R) L0) as (l1' & L1' & (X & _)). rewrite L1 in L1'. injection L1' as <-. congruence. }
  destruct (close_held date time s1 s2 l1 C L1 R1 Sd1) as (c & D & Sc & H2). exists c. split; [exact D|]. split; [exact Sc|]. rewrite H2. exact H1.
Qed.
Lemma opened_old m disk s : m = ORead \/ m = OAppend -> opened m disk s -> exists c, disk = Some c /\ s_lib s = Some (mk_lib (match m with OAppend => true | _ => false end) false c) /\
  s_vars (s_o s) = [] /\ s_mode (s_o s) = m /\ s_disk s = Some c /\ s_flag (s_o s) = MDefine.
Proof.
  intros Hm (info & hash & descr & dirty & date & time & d & Hc & E). destruct disk as [c|]; [|destruct Hm as [-> | ->]; discriminate]. exists c.
  destruct Hm as [-> | ->]; unfold open in E; destruct (register_names _ _ _) as [l| |]; cbn [bind] in E; try discriminate; destruct (mapr _ _) as [l'| |]; cbn [bind] in E; try discriminate; injection E as <- _; auto 10.
Qed.

(** ** Closing *)
Lemma opened_stamps m disk s : writes m = true -> opened m disk s -> exists d t, shown s "last_modified_date" = Some (TChar, d) /\ shown s "last_modified_time" = Some (TChar, t) /\ List.length d = 18%nat /\ List.length t = 16%nat.
Proof.
  intros W (info & hash & descr & dirty & date & time & d & [C1 C2] & E). unfold open in E. exists date, time.
  destruct m; cbn in W; try discriminate; [destruct disk; [discriminate|]|]; injection E as <- _; (split; [reflexivity|]; split; [reflexivity|auto]).
Qed.
Lemma session_closes s0 l0 k0 h s1 d0 t0 date time : I s0 l0 k0 -> all_legal s0 -> shown s0 "last_modified_date" = Some (TChar, d0) -> shown s0 "last_modified_time" = Some (TChar, t0) ->
  (18 <= List.length d0)%nat -> (16 <= List.length t0)%nat -> clock date time -> tidy_runs s0 h s1 -> Forall (fun p => legal_op (fst p)) h ->
  exists s2, close date time s1 = (s2, Ok tt).
Proof.
  intros H0 Lg D0 T0 Ld Lt [C1 C2] R F. destruct (legal_runs s0 h s1 R F l0 k0 H0 Lg) as (l1 & k1 & H1 & Lg1 & _).
  assert (X1 := stamps_runs s0 h s1 R F l0 k0 H0 "last_modified_date" (or_introl eq_refl) ltac:(congruence)).
  assert (X2 := stamps_runs s0 h s1 R F l0 k0 H0 "last_modified_time" (or_intror (or_introl eq_refl)) ltac:(congruence)).
  destruct (close_spec s1 l1 k1 date time H1) as (s2 & r & E & _ & _ & Ok_). exists s2. rewrite E, Ok_; [reflexivity|left; exact Lg1|right].
  split; [exists d0|exists t0]; (split; [congruence|lia]).
Qed.

(** ** Modes *)
Lemma reader s0 h s1 c : opened ORead (Some c) s0 -> runs s0 h s1 -> s_mode (s_o s1) = ORead /\ s_lib s1 = Some (mk_lib false false c) /\ s_disk s1 = Some c.
Proof.
  intros O R. destruct (opened_old ORead (Some c) s0 (or_introl eq_refl) O) as (c' & X & L & V & Mo & D & _). injection X as <-.
  destruct (read_only s0 s1 _ true (runs_grow _ _ _ R) Mo L eq_refl eq_refl) as (A1 & A2 & A3). split; [exact A1|]. split; [exact A2|congruence].
Qed.
Lemma reader_closes s0 h s1 c date time : opened ORead (Some c) s0 -> runs s0 h s1 -> exists s2, close date time s1 = (s2, Ok tt) /\ s_disk s2 = Some c.
Proof.
  intros O R. destruct (reader s0 h s1 c O R) as (A1 & A2 & A3). destruct (close_read date time s1 _ A1 A2 eq_refl) as (s2 & E & D). exists s2. split; [exact E|congruence].
Qed.
Definition refused_by_reader (p : op * res unit) : Prop :=
  match fst p with WriteAtt _ _ _ | UpdateAtt _ _ _ _ => snd p = Err FileIOError | Write _ _ ns => ns <> [] -> snd p = Err FileIOError | _ => True end.
Lemma reader_step o s s' r l : step o s = (s', r) -> s_mode (s_o s) = ORead -> s_lib s = Some l -> l_rw l = false -> refused_by_reader (o, r).
Proof.
  intros E Mo L R. destruct o as [vs|f x ns|ns|n t v|old new t v]; unfold refused_by_reader; cbn [fst snd step] in *; [exact Logic.I| |exact Logic.I| |].
  - intros Hn. destruct ns as [|n ns]; [contradiction|]. unfold write, define_global_attributes_save_call in E. rewrite bind_assoc, bind_obj, Mo in E. cbn [writes andb] in E. rewrite (bind_ok _ _ s s tt) in E by reflexivity.
    cbn [each] in E. rewrite bind_assoc, bind_assoc in E. unfold get_variable in E. rewrite bind_assoc, bind_obj in E. destruct (find _ _) as [w|]; [|injection E as _ <-; reflexivity]. rewrite (bind_ok _ _ s s w) in E by reflexivity.
    rewrite (bind_err _ _ s s FileIOError) in E; [congruence|]. eapply check_inl; [exact L|]. unfold lib_put_var. rewrite R. reflexivity.
  - unfold write_global_attribute in E. rewrite bind_obj, Mo in E. destruct (s_gdef (s_o s)); injection E as _ <-; reflexivity.
  - unfold update_global_attribute in E. rewrite bind_obj, Mo in E. injection E as _ <-. reflexivity.
Qed.
Lemma reader_refuses s h s' : runs s h s' -> forall c, s_mode (s_o s) = ORead -> s_lib s = Some (mk_lib false false c) -> Forall refused_by_reader h.
Proof.
  induction 1 as [|s o s1 r h s2 E R IH]; intros c Mo L; [constructor|]. constructor; [exact (reader_step o s s1 r _ E Mo L eq_refl)|].
  destruct (read_only s s1 _ true (step_grows _ _ _ _ E) Mo L eq_refl eq_refl) as (A1 & A2 & A3). exact (IH c A1 A2).
Qed.
Lemma appender s0 h s1 date time s2 c : opened OAppend (Some c) s0 -> runs s0 h s1 -> close date time s1 = (s2, Ok tt) ->
  exists c', s_disk s2 = Some c' /\ c_vars c' = c_vars c /\ exists e, c_data c' = c_data c ++ e.
Proof.
  intros O R C. destruct (opened_old OAppend (Some c) s0 (or_intror eq_refl) O) as (c' & X & L & Vs & Mo & D & _). injection X as <-.
  assert (Gr := runs_grow _ _ _ R). destruct (grows_at _ _ _ _ Gr L) as (l1 & L1 & Lg1). destruct Gr as (_ & M1 & _). destruct (close_grows _ _ _ _ C) as (s3 & l3 & Gr3 & L3 & _ & D3).
  destruct (grows_at _ _ _ _ Gr3 L1) as (l3' & L3' & Lg3). rewrite L3 in L3'. injection L3' as <-. apply lgrow_weak in Lg3. rewrite M1 in Lg3. assert (Lg := lgrow_trans _ _ _ _ _ Lg1 Lg3). rewrite Mo in Lg.
  destruct Lg as (R3 & _ & Cv & _ & Cd & _). rewrite R3 in D3. exists (l_c l3). split; [exact D3|]. split; [exact (Cv eq_refl)|exact Cd].
Qed.
Lemma runs_disk s h s' : runs s h s' -> s_disk s' = s_disk s.
Proof. intros R. destruct (runs_grow _ _ _ R) as (X & _). exact X. Qed.

(** ** Append mode *)
Lemma append_writes c s0 h1 s1 vs s2 h2 s3 f x ns : readable c -> (List.length (c_gatts c) <= 30)%nat -> opened OAppend (Some c) s0 ->
  tidy_runs s0 h1 s1 -> Forall (fun p => no_update (fst p)) h1 -> step (Register vs) s1 = (s2, Ok tt) ->
  tidy_runs s2 h2 s3 -> Forall (fun p => no_register (fst p)) h2 -> incl ns (map fst vs) -> exists s4, step (Write f x ns) s3 = (s4, Ok tt).
Proof.
  intros Rd L30 O R1 F1 E R2 F2 Hn. destruct (opened_append c s0 Rd L30 O) as (l & H & Mo & _ & Lg & Lc & Df).
  destruct (opened_old OAppend (Some c) s0 (or_intror eq_refl) O) as (c' & X & L & Vs & _ & _ & Fl). injection X as <-.
  assert (Ea : early s0) by (split; [exact Mo|]; split; [exact Fl|]; eexists; split; [exact L|reflexivity]). assert (Ea1 := early_runs _ _ _ R1 F1 Ea).
  destruct (runs_spec s0 h1 s1 R1 _ _ H) as (l1 & k1 & H1 & _). assert (Oi1 : ids_ok s1) by (destruct (runs_grow _ _ _ (tidy_runs_runs _ _ _ R1)) as (_ & _ & _ & _ & Y); apply Y, ids_ok_none, Vs).
  assert (App : forall s l k, I s l k -> s_mode (s_o s) = OAppend -> all_legal s).
  { clear. intros s l k H Mo. assert (X := I_legal _ _ _ H). rewrite (I_app _ _ _ H Mo), firstn_all in X. unfold all_legal, read_global_attribute_names. rewrite Forall_map. exact X. }
  assert (Lg1 : all_legal s1) by (apply (App s1 l1 k1 H1), Ea1).
  destruct (register_J_append vs s1 s2 l1 k1 H1 Lg1 Oi1 Ea1 E) as (l2 & k2 & J2 & In2). assert (Ea2 := early_step (Register vs) _ _ _ Ea1 Logic.I E).
  assert (Y : forall s h s', tidy_runs s h s' -> Forall (fun p => no_register (fst p)) h -> forall l k, J s l k -> s_mode (s_o s) = OAppend -> exists l' k', J s' l' k' /\ s_vars (s_o s') = s_vars (s_o s)).
  { clear - App. induction 1 as [s|s o s1 r h s2 Ho Ht E Hr IH]; intros F l k H Mo; [exists l, k; auto|]. inversion F as [|? ? F1 F']; subst. cbn [fst] in *.
    assert (C : (exists l' k', J s1 l' k') /\ s_vars (s_o s1) = s_vars (s_o s) /\ s_mode (s_o s1) = OAppend).
    { destruct (step_spec o s l k (J_I _ _ _ H) Ho Ht) as (s1' & r' & l1 & k1 & E' & H1 & M1 & _). rewrite E in E'. injection E' as <- <-.
      destruct o as [vs|f x ns|ns|n t v|old new t v]; cbn [step no_register] in *; [contradiction|..].
      - destruct (J_write f x ns s l k H) as (l' & k' & H' & V'). rewrite E in H', V'. cbn [fst] in *. split; [eauto|]. split; [exact V'|congruence].
      - destruct (J_step (Read ns) s l k s1 r H Ho Ht Logic.I Logic.I E) as (l' & k' & H' & V' & M'). split; [eauto|]. split; [exact V'|congruence].
      - unfold write_global_attribute in E. rewrite bind_obj, Mo in E. cbn [writes negb] in E. assert (s1 = s) by (destruct (s_gdef (s_o s)); injection E as <- _; reflexivity). subst s1. eauto.
      - assert (T' : new = old \/ legal_name new = true /\ ~ In new (map m_name (s_atts (s_o s)))) by exact Ht.
        destruct (update_spec s l k old new t v (J_I _ _ _ H) Ho T') as (s1' & r' & l2 & E1 & H2 & (SV & _) & _ & _ & Fd & _). rewrite E in E1. injection E1 as <- <-. split; [|split; [congruence|congruence]].
        exists l2, k. constructor; [exact H2|apply (App s1 l2 k H2); congruence|intros w; rewrite <- SV; apply (J_set _ _ _ H)| |exact (I_data _ _ _ H2 Fd)].
        destruct (step_grows (UpdateAtt old new t v) s s1 r E) as (_ & _ & _ & _ & Z). exact (Z (J_ok _ _ _ H)). }
    destruct C as ((l1 & k1 & H1) & V1 & M1). destruct (IH F' l1 k1 H1 M1) as (l2 & k2 & H2 & V2). exists l2, k2. split; [exact H2|congruence]. }
  destruct (Y s2 h2 s3 R2 F2 l2 k2 J2 (proj1 Ea2)) as (l3 & k3 & J3 & V3). cbn [step]. eapply write_ok; [exact J3|]. rewrite V3. eapply incl_tran; [exact Hn|exact In2].
Qed.

(** ** The unit of a registered variable *)
Lemma open_keeps_atts m c s : m = ORead \/ m = OAppend -> opened m (Some c) s -> s_lib s = Some (mk_lib (match m with OAppend => true | _ => false end) false c) /\ s_vars (s_o s) = [] /\ s_flag (s_o s) = MDefine /\ s_mode (s_o s) = m.
Proof. intros Hm O. destruct (opened_old m (Some c) s Hm O) as (c' & X & L & Vs & Mo & _ & Fl). injection X as <-. auto. Qed.
Lemma register_unit m c s n u u' i v : m = ORead \/ m = OAppend -> opened m (Some c) s -> nth_error (c_vars c) i = Some v -> NoDup (map v_name (c_vars c)) -> v_name v = n -> v_atts v = [mk_att "unit" TChar u] ->
  snd (step (Register [(n, u')]) s) = if (List.length u' <? List.length u)%nat then UB else Ok tt.
Proof.
  intros Hm O Nv Nd Nn Av. destruct (open_keeps_atts m c s Hm O) as (L & Vs & Fl & Mo). cbn [step]. unfold register_field_collection.
  rewrite (bind_ok _ _ _ _ _ (add_all_ok [(n, u')] s ltac:(rewrite Vs; cbn; constructor; [intros []|constructor]))). rewrite bind_obj. rewrite Vs. cbn [app map].
  set (s1 := with_vars s [new_var (n, u')]). assert (F1 : s_flag (s_o s1) = MDefine) by exact Fl. rewrite F1. cbn [is_flag]. rewrite (bind_ok _ _ s1 s1 tt) by reflexivity. rewrite bind_obj. cbn zeta.
  assert (W1 : writes (s_mode (s_o s1)) = false) by (unfold s1, with_vars; pj; rewrite Mo; destruct Hm as [-> | ->]; reflexivity). rewrite W1.
  assert (L1 : s_lib s1 = Some (mk_lib match m with OAppend => true | _ => false end false c)) by exact L.
  rewrite (bind_ok _ _ s1 s1 (List.length (c_vars c))) by (unfold inquire; rewrite L1; reflexivity). change (s_vars (s_o s1)) with [new_var (n, u')]. cbn [List.length].
  destruct (Nat.ltb_spec (List.length (c_vars c)) 1) as [X|_].
  { exfalso. assert (Y : (i < List.length (c_vars c))%nat) by (apply nth_error_Some; congruence). lia. }
  cbn [seq each].
  assert (P : position (fun v => String.eqb (v_name v) n) (c_vars c) = Some i) by (apply position_at; [exact Nd|rewrite nth_error_map, Nv; cbn; congruence]).
  set (w1 := mk_mvar n (Some i) [new_matt "unit" TChar u']). set (s2 := with_vars s [w1]).
  assert (E1 : register_var_id 0 s1 = (s2, Ok tt)).
  { unfold register_var_id. rewrite bind_obj. change (nth_error (s_vars (s_o s1)) 0) with (Some (new_var (n, u'))). cbn [new_var w_id w_name fst].
    rewrite (bind_ok _ _ s1 s1 (Some i)) by (unfold inquire; rewrite L1; pj; rewrite P; reflexivity). reflexivity. }
  rewrite bind_assoc, (bind_ok _ _ _ _ _ E1). rewrite (bind_ok _ _ s2 s2 tt) by reflexivity.
  assert (L2 : s_lib s2 = Some (mk_lib match m with OAppend => true | _ => false end false c)) by exact L.
  assert (E2 : register_vatts 0 s2 = (do l' <- lift (mapr (read_value [mk_att "unit" TChar u]) [new_matt "unit" TChar u']); set_vars (upd (s_vars (s_o s2)) 0 (mk_mvar n (Some i) l'))) s2).
  { unfold register_vatts. rewrite bind_obj. change (nth_error (s_vars (s_o s2)) 0) with (Some w1). cbn [w1 w_id w_name w_atts].
    rewrite (bind_ok _ _ s2 s2 [mk_att "unit" TChar u]) by (unfold inquire; rewrite L2; pj; rewrite Nv, Av; reflexivity).
    rewrite (bind_ok _ _ s2 s2 [new_matt "unit" TChar u']) by reflexivity. reflexivity. }
  assert (Rv : read_value [mk_att "unit" TChar u] (new_matt "unit" TChar u') = if (List.length u' <? List.length u)%nat then UB else Ok (mk_matt "unit" TChar (List.length u') (u ++ repeat 0 (List.length u' - List.length u)) true false)).
  { unfold read_value, new_matt. cbn [m_type m_name m_n m_init m_val m_written supported negb tsize]. cbn zeta. rewrite Nat.div_1_r, Nat.mul_1_r. unfold find_att. cbn [find a_name]. rewrite String.eqb_refl. cbn [a_val].
    destruct (Nat.ltb_spec (List.length u') (List.length u)) as [X|X]; [reflexivity|]. rewrite firstn_all2 by (rewrite app_length, repeat_length; lia). unfold equal_value, bytes_eqb. destruct (list_eq_dec _ _ _) as [_|Y]; [reflexivity|]. exfalso. apply Y. reflexivity. }
  cbn [mapr] in E2. rewrite Rv in E2. destruct (List.length u' <? List.length u)%nat; cbn [bind] in E2.
  - rewrite (bind_ub _ _ s2 s2) by (rewrite E2; reflexivity). reflexivity.
  - erewrite bind_ok; [|rewrite E2; reflexivity]. reflexivity.
Qed.
