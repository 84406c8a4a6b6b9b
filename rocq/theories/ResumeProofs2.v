(** The fields behind state fields; transfers into them. *)
From Coq Require Import String.
From Verif Require Import Base CIntModel GridModel GridSpec StridedModel UnitsModel LayoutModel LayoutSpec LayoutProofs FieldModel FieldSpec.
From Verif Require Import RegistryModel RegistrySpec RegistryProofs RegistryProofs2 RegistryProofs3 StateModel StateSpec StateProofs StateProofs2 NumpyModel NumpySpec PyArrayModel PyArraySpec PyArrayProofs.
From Verif Require Import FrameModel NetCDFModel NetCDFSpec NetCDFProofs5 SessionModel StackModel StackSpec StackProofs StackProofs2 ResumeModel ResumeSpec ResumeProofs.
Local Open Scope Z_scope.
Local Open Scope list_scope.

Section P.
Context {A : Type} (zero junk : A).
Implicit Types (m : member A) (p : proc A).
Variable D : design.
Notation S := (phys D).
Notation sound := (@sound A junk).

(** What stays true of a process. *)
Definition kept p : Prop := firm junk p /\ placed S (r_m p) /\ with_items S (r_m p) /\
  forall g mem, In g (ds_things D) -> g_mem g = Some mem -> exists s, lookup (g_name g) (r_states p) = Some s /\ s_mem s = mem.
Lemma kept_fine p : kept p -> fine junk S (r_m p).
Proof. intros ((So & _) & Pl & W & _). split; [exact So|split; assumption]. Qed.
Lemma outfitted_kept p : outfitted zero junk D p -> kept p.
Proof.
  intros ((l0 & p0 & l1 & B & Ini & V & G & O & ->) & Ed & L & N & R & F). destruct (set_out_sinv zero junk l0 p0 B) as (Si & St).
  assert (F0 : firm junk p0).
  { split; [|exact St]. split; [exact Si|]. split; [exact Ini|]. split; [exact G|]. rewrite V. intros [|i] v H; discriminate H. }
  destruct (run_firm zero junk l1 p0 F0 O) as (F1 & _). split; [exact F1|]. split; [unfold placed; auto|]. split.
  - intros q Iq. apply in_phys in Iq. destruct Iq as (g & Ig & Iq). specialize (F g Ig). unfold items_of in Iq. destruct (g_mem g) as [mem|].
    + apply in_map_iff in Iq. destruct Iq as (n & <- & In_). destruct F as (_ & F). destruct (F n In_) as (r & E & H). exists r. cbn [i_name i_comp i_nsub i_tag].
      split; [|exact H]. unfold get_field in E. destruct (lookup _ _) as [r0|]; [|discriminate E]. apply Ok_inj in E. congruence.
    + destruct Iq as [<-|[]]. destruct F as (r & E & H). exists r. split; [|exact H]. unfold get_field, g_name in E. destruct (lookup _ _) as [r0|]; [|discriminate E]. apply Ok_inj in E. congruence.
  - intros g mem Ig Em. specialize (F g Ig). rewrite Em in F. destruct F as ((s & Es & Esm) & _). exists s. split; [|exact Esm]. unfold get_state in Es. cbn [sys_of y_states] in Es. destruct (lookup _ _); [|discriminate Es]. apply Ok_inj in Es. congruence.
Qed.
Lemma follows_kept p p' : follows p p' -> firm junk p' -> kept p -> kept p'.
Proof.
  intros (T & H) F (_ & Pl & W & St). split; [exact F|]. split; [exact (steady_placed S _ _ T Pl)|]. split; [exact (steady_items S _ _ T W)|].
  intros g mem Ig Em. destruct (St g mem Ig Em) as (s & L & E). destruct (H _ _ L) as (s' & L' & E'). exists s'. split; [exact L'|congruence].
Qed.

(** ** Entries *)
Lemma entry_field p g h : entry_name p (stateful g) (g_name g) h = field_of p g h.
Proof. unfold entry_name, field_of, stateful. destruct (g_mem g); reflexivity. Qed.
Definition item_at (g : thing) (n : string) : item := mk_item n (i_comp (g_item g)) (i_nsub (g_item g)) (i_tag (g_item g)).
Lemma item_at_self g : item_at g (g_name g) = g_item g.
Proof. unfold item_at, g_name. destruct (g_item g). reflexivity. Qed.
Lemma idx_at p g mem h : kept p -> In g (ds_things D) -> g_mem g = Some mem -> 0 <= h <= mem ->
  exists s t v, lookup (g_name g) (r_states p) = Some s /\ s_mem s = mem /\ 1 <= mem /\ 0 <= t /\ nth_error (init_indices mem) (Z.to_nat h) = Some v /\ 0 <= v <= mem /\
    nth_error (s_idx s) (Z.to_nat h) = Some ((v + t) mod (mem + 1)) /\ s_idx s = map (fun v => (v + t) mod (mem + 1)) (init_indices mem).
Proof.
  intros ((_ & St) & _ & _ & H) Ig Em Hh. destruct (H g mem Ig Em) as (s & L & Es). destruct (St _ _ L) as (M1 & t & Ht & Ei). rewrite Es in Ei, M1.
  assert (N : nth_error (init_indices mem) (Z.to_nat h) = Some (Z.land (mem + 1 - Z.of_nat (Z.to_nat h)) mem)) by (apply init_nth; lia).
  exists s, t, (Z.land (mem + 1 - Z.of_nat (Z.to_nat h)) mem). split; [exact L|]. split; [exact Es|]. split; [exact M1|]. split; [exact Ht|]. split; [exact N|].
  split; [apply (init_in_range mem); [lia|exact (nth_error_In _ _ N)]|]. split; [|exact Ei]. rewrite Ei, nth_error_map, N. reflexivity.
Qed.
Lemma field_found p g h : kept p -> In g (ds_things D) -> state_of g h -> exists n, field_of p g h = Ok n /\ In (item_at g n) (items_of g).
Proof.
  intros K Ig Hh. unfold field_of, state_of, items_of in *. destruct (g_mem g) as [mem|] eqn:Em.
  - destruct (idx_at p g mem h K Ig Em Hh) as (s & t & v & L & Es & M1 & _ & _ & _ & N & _). eexists. split; [apply (name_at_spec (sys_of p) (g_name g) s); [exact L|exact N]|].
    apply in_map_iff. eexists. split; [reflexivity|]. apply in_sub_names. eexists. split; [|reflexivity]. pose proof (Z.mod_pos_bound (v + t) (mem + 1) ltac:(lia)). lia.
  - exists (g_name g). split; [reflexivity|]. left. symmetry. apply item_at_self.
Qed.
Lemma item_in g n : In g (ds_things D) -> In (item_at g n) (items_of g) -> In (item_at g n) (sc_items S).
Proof. intros Ig I. apply in_phys. exists g. auto. Qed.
(** States that share a field do so in all programs. *)
Lemma shared p p' g h h' : kept p -> kept p' -> In g (ds_things D) -> state_of g h -> state_of g h' -> field_of p g h = field_of p g h' -> field_of p' g h = field_of p' g h'.
Proof.
  intros K K' Ig H H' E. unfold field_of, state_of in *. destruct (g_mem g) as [mem|] eqn:Em; [|reflexivity].
  destruct (idx_at p g mem h K Ig Em H) as (s & t & v & L & Es & M1 & Ht & Ni & Hv & N & Ei). destruct (idx_at p g mem h' K Ig Em H') as (s1 & t1 & v' & L1 & _ & _ & _ & Ni' & Hv' & N' & Ei1).
  assert (s1 = s) by congruence. subst s1. rewrite Ei, nth_error_map, Ni' in N'. cbn [option_map] in N'. 
  rewrite (name_at_spec (sys_of p) (g_name g) s _ _ L N) in E. rewrite (name_at_spec (sys_of p) (g_name g) s (Z.to_nat h') ((v' + t) mod (mem + 1)) L) in E by (rewrite Ei, nth_error_map, Ni'; reflexivity).
  apply Ok_inj in E. apply sub_name_inj in E. destruct E as (_ & E). pose proof (Z.mod_pos_bound (v + t) (mem + 1) ltac:(lia)). pose proof (Z.mod_pos_bound (v' + t) (mem + 1) ltac:(lia)).
  assert (E2 : (v + t) mod (mem + 1) = (v' + t) mod (mem + 1)) by lia.
  assert (EV : v = v').
  { destruct (Z.lt_trichotomy v v') as [C|[C|C]]; [exfalso|exact C|exfalso]; [apply (mod_neq (v + t) (v' + t) (mem + 1)); lia|apply (mod_neq (v' + t) (v + t) (mem + 1)); lia]. }
  subst v'. destruct (idx_at p' g mem h K' Ig Em H) as (s2 & t2 & v2 & L2 & _ & _ & _ & Ni2 & _ & N2 & Ei2).
  rewrite (name_at_spec (sys_of p') (g_name g) s2 _ _ L2 N2). symmetry. apply (name_at_spec (sys_of p') (g_name g) s2); [exact L2|]. rewrite Ei2, nth_error_map, Ni'. cbn [option_map]. congruence.
Qed.
Lemma distinct p g h h' : rotating D -> kept p -> In g (ds_things D) -> state_of g h -> state_of g h' -> field_of p g h = field_of p g h' -> h = h'.
Proof.
  intros Ro K Ig H H' E. unfold field_of, state_of in *. destruct (g_mem g) as [mem|] eqn:Em; [|congruence]. pose proof (Ro g mem Ig Em) as P2.
  destruct (idx_at p g mem h K Ig Em H) as (s & t & v & L & Es & M1 & Ht & _ & _ & N & Ei).
  assert (I : forall k, 0 <= k <= mem -> nth_error (s_idx s) (Z.to_nat k) = Some ((t - k) mod (mem + 1))).
  { intros k Hk. rewrite <- Es. rewrite (idx_rotated s t (Z.to_nat k)); [|rewrite Es; exact Ei|lia|rewrite Es; exact P2|lia]. f_equal. f_equal. lia. }
  rewrite (name_at_spec (sys_of p) (g_name g) s _ _ L (I h H)), (name_at_spec (sys_of p) (g_name g) s _ _ L (I h' H')) in E.
  apply Ok_inj in E. apply sub_name_inj in E. destruct E as (_ & E). pose proof (Z.mod_pos_bound (t - h) (mem + 1) ltac:(lia)). pose proof (Z.mod_pos_bound (t - h') (mem + 1) ltac:(lia)).
  assert (E2 : (t - h) mod (mem + 1) = (t - h') mod (mem + 1)) by lia.
  destruct (Z.lt_trichotomy h h') as [C|[C|C]]; [exfalso|exact C|exfalso]; [apply (mod_neq (t - h') (t - h) (mem + 1)); lia|apply (mod_neq (t - h) (t - h') (mem + 1)); lia].
Qed.
Hypothesis suit : suitable D.
Lemma same_thing g g' : In g (ds_things D) -> In g' (ds_things D) -> g_name g = g_name g' -> g = g'.
Proof.
  destruct suit as (_ & ND & _). clear - ND. induction (ds_things D) as [|a l IH]; intros I I' E; [destruct I|]. inversion ND as [|? ? N1 N2]; subst.
  destruct I as [->|I], I' as [->|I']; [reflexivity| | |auto]; exfalso; apply N1; [rewrite E|rewrite <- E]; now apply in_map.
Qed.
Lemma field_names p g h n : kept p -> In g (ds_things D) -> field_of p g h = Ok n ->
  (g_mem g = None /\ n = g_name g) \/ (stateful g = true /\ exists j, n = sub_name (g_name g) j).
Proof.
  unfold field_of, stateful. intros K Ig E. destruct (g_mem g) as [mem|]; [right|left].
  - split; [reflexivity|]. exact (name_at_name _ _ _ _ E).
  - apply Ok_inj in E. auto.
Qed.
Lemma field_thing p p' g g' h h' n : kept p -> kept p' -> In g (ds_things D) -> In g' (ds_things D) -> field_of p g h = Ok n -> field_of p' g' h' = Ok n -> g = g'.
Proof.
  intros K K' Ig Ig' E E'. apply same_thing; auto. pose proof suit as (_ & _ & Q). destruct (Q g Ig) as (_ & _ & _ & _ & _ & Qg). destruct (Q g' Ig') as (_ & _ & _ & _ & _ & Qg').
  destruct (field_names p g h n K Ig E) as [(M & ->)|(M & j & ->)]; destruct (field_names p' g' h' _ K' Ig' E') as [(M' & F)|(M' & j' & F)].
  - exact F.
  - exfalso. exact (Qg g' j' Ig' M' F).
  - exfalso. exact (Qg' g j Ig M (eq_sym F)).
  - now apply sub_name_inj in F.
Qed.

(** ** Layouts *)
Definition like (f f' : nfield) : Prop := nf_lay f' = nf_lay f /\ nf_tag f' = nf_tag f /\ nf_dom f' = nf_dom f /\ nf_loc f' = nf_loc f.
Lemma same_layout m n n' g : sound m -> with_items S m -> In g (ds_things D) -> In (item_at g n) (items_of g) -> In (item_at g n') (items_of g) -> like (nfield_of m n) (nfield_of m n').
Proof.
  intros So W Ig I I'. destruct (W _ (item_in g n Ig I)) as (r & L & C & N & T & _). destruct (W _ (item_in g n' Ig I')) as (r' & L' & C' & N' & T' & _). cbn [item_at i_name i_comp i_nsub i_tag] in *.
  unfold nfield_of, like. rewrite L, L'. cbn [field_for nf_lay nf_tag nf_dom nf_loc]. split; [|split; [congruence|auto]].
  destruct So as (((_ & Iv) & _ & _ & H) & _). destruct (Iv _ _ L) as [(S1 & S2 & S3 & S4 & S5 & _) _]. destruct (Iv _ _ L') as [(S1' & S2' & S3' & S4' & S5' & _) _].
  destruct (H _ _ L) as ((_ & A2 & _) & _). destruct (H _ _ L') as ((_ & A2' & _) & _).
  destruct (f_lay (rf_field r)) as [a1 a2 a3 a4 a5 a6 a7 a8], (f_lay (rf_field r')) as [b1 b2 b3 b4 b5 b6 b7 b8]. cbn in *. congruence.
Qed.

(** ** Transfers *)
Definition puts (l : list (string * list A)) m : member A := fold_left (fun m nv => put_values m (fst nv) (snd nv)) l m.
Lemma puts_steady l : forall m, sound m -> sound (puts l m) /\ steady m (puts l m).
Proof.
  induction l as [|[n v] l IH]; intros m So; [split; [exact So|apply steady_refl]|]. change (puts ((n, v) :: l) m) with (puts l (put_values m n v)).
  destruct (put_steady junk m n v So) as (S1 & T1). destruct (IH _ S1) as (S2 & T2). split; [exact S2|exact (steady_trans _ _ _ T1 T2)].
Qed.
Lemma puts_other l n : forall m, ~ In n (map fst l) -> values (puts l m) n = values m n.
Proof.
  induction l as [|[n0 v] l IH]; intros m N; [reflexivity|]. change (puts ((n0, v) :: l) m) with (puts l (put_values m n0 v)). cbn in N.
  rewrite IH by tauto. apply put_other. intros ->. tauto.
Qed.
Lemma puts_value l n : forall m r, sound m -> lookup n (c_fields (p_coll (m_py m))) = Some r ->
  (forall v, In (n, v) l -> length v = length (f_vals (rf_field r))) -> In n (map fst l) -> exists v, In (n, v) l /\ values (puts l m) n = v.
Proof.
  induction l as [|[n0 v0] l IH]; intros m r So L E I; [destruct I|]. change (puts ((n0, v0) :: l) m) with (puts l (put_values m n0 v0)).
  destruct (put_steady junk m n0 v0 So) as (S1 & (_ & _ & _ & F & _)). destruct (F _ _ L) as (r' & L' & (_ & _ & _ & _ & Q & _)).
  destruct (in_dec string_dec n (map fst l)) as [J|J].
  - destruct (IH _ r' S1 L') as (v & Iv & Ev); [intros v Iv; rewrite Q; apply E; now right|exact J|]. exists v. split; [now right|exact Ev].
  - destruct I as [I|I]; [|contradiction]. cbn in I. subst n0. exists v0. split; [now left|]. rewrite puts_other by exact J. apply (put_value m n v0 r L). apply E. now left.
Qed.
Definition entries_of (i : nat) (mem : string -> Z -> list (list A)) (st : bool) p (n : string) (hs : list Z) : list (string * list A) :=
  flat_map (fun h => match entry_name p st n h with Ok k => [(k, nth i (mem n h) [])] | _ => [] end) hs.
Definition transfers (i : nat) (pre : list string) (mem : string -> Z -> list (list A)) p (names : list string) : list (string * list A) :=
  flat_map (fun n => entries_of i mem (is_state pre n) p n (zrange (depth p (is_state pre n) n))) names.
Lemma entry_states p p' st n h : r_states p' = r_states p -> entry_name p' st n h = entry_name p st n h.
Proof. intros E. unfold entry_name, name_at, get_state, sys_of. cbn [y_states]. now rewrite E. Qed.
Lemma depth_states p p' st n : r_states p' = r_states p -> depth p' st n = depth p st n.
Proof. intros E. unfold depth, get_state, sys_of. cbn [y_states]. now rewrite E. Qed.
Lemma puts_app l1 l2 m : puts (l1 ++ l2) m = puts l2 (puts l1 m).
Proof. unfold puts. apply fold_left_app. Qed.
Lemma fetch_entries i mem st n p0 hs : forall p, r_states p = r_states p0 ->
  fold_left (fun p h => put_entry st n (nth i (mem n h) []) p h) hs p = mk_proc (puts (entries_of i mem st p0 n hs) (r_m p)) (r_states p0).
Proof.
  induction hs as [|h hs IH]; intros p E; [destruct p; cbn in *; now subst|]. cbn [fold_left entries_of flat_map]. rewrite puts_app.
  rewrite IH.
  - f_equal. unfold entries_of. f_equal. unfold put_entry. rewrite (entry_states p0 p st n h E). destruct (entry_name p0 st n h); reflexivity.
  - unfold put_entry. destruct (entry_name p st n h); exact E.
Qed.
Lemma fetch_proc i pre mem names p0 : forall p, r_states p = r_states p0 ->
  fold_left (fun p n => fetch_var i mem (is_state pre n) p n) names p = mk_proc (puts (transfers i pre mem p0 names) (r_m p)) (r_states p0).
Proof.
  induction names as [|n names IH]; intros p E; [destruct p; cbn in *; now subst|]. cbn [fold_left transfers flat_map]. rewrite puts_app. unfold fetch_var at 2.
  rewrite (depth_states p0 p _ _ E). rewrite (fetch_entries i mem (is_state pre n) n p0 _ p E). rewrite IH by reflexivity. reflexivity.
Qed.
Definition fetched (i : nat) (pre : list string) (mem : string -> Z -> list (list A)) (names : list string) p : proc A :=
  mk_proc (puts (transfers i pre mem p names) (r_m p)) (r_states p).
Lemma fetched_nth pre mem names ps : forall i j, nth_error (fetch_at i pre mem names ps) j = option_map (fetched (i + j) pre mem names) (nth_error ps j).
Proof.
  induction ps as [|p ps IH]; intros i [|j]; cbn [fetch_at nth_error]; try reflexivity.
  - rewrite Nat.add_0_r. cbn [option_map]. f_equal. now apply fetch_proc.
  - rewrite IH. now rewrite Nat.add_succ_r.
Qed.
Lemma fetched_firm i pre mem names p : firm junk p -> firm junk (fetched i pre mem names p) /\ follows p (fetched i pre mem names p).
Proof. intros (So & St). destruct (puts_steady (transfers i pre mem p names) (r_m p) So) as (S1 & T1). split; [split; [exact S1|exact St]|split; [exact T1|eauto]]. Qed.
End P.
