(** Proofs about attributes and modes of files: registration, closing, the four
    modes. *)
From Coq Require Import String.
From Verif Require Import Base AttModel AttSpec LayoutProofs AttProofs AttProofs2 AttProofs3 AttProofs4 AttProofs5 AttProofs6 AttProofs7 AttProofs8 AttProofs9.
Local Open Scope string_scope.
Local Open Scope Z_scope.
Local Open Scope list_scope.

Lemma bind_inv {A B} (m : M A) (k : A -> M B) s s' b : mbind m k s = (s', Ok b) -> exists s1 a, m s = (s1, Ok a) /\ k a s1 = (s', Ok b).
Proof. unfold mbind. destruct (m s) as [s1 [a|e|]]; intros H; try discriminate. eauto. Qed.
Lemma check_obj f s : s_o (fst (check f s)) = s_o s.
Proof. unfold check, mbind, call. destruct (s_lib s) as [l|]; [|reflexivity]. destruct (f l); reflexivity. Qed.
Lemma check_obj' f s s' r : check f s = (s', r) -> s_o s' = s_o s.
Proof. intros E. assert (X := check_obj f s). rewrite E in X. exact X. Qed.
Lemma each_obj {A} (f : A -> M unit) l : (forall a s, s_o (fst (f a s)) = s_o s) -> forall s, s_o (fst (each f l s)) = s_o s.
Proof.
  intros H. induction l as [|a l IH]; intros s; cbn [each]; [reflexivity|]. unfold mbind. specialize (H a s). destruct (f a s) as [s1 [u|e|]]; cbn [fst] in *; [|exact H..]. rewrite IH. exact H.
Qed.
Lemma define_vatts_obj w s : s_o (fst (define_vatts w s)) = s_o s.
Proof. unfold define_vatts. apply each_obj. intros m s0. destruct (w_id w); [apply check_obj|reflexivity]. Qed.

(** Loops that give ids. *)
Definition fills (f : nat -> M unit) : Prop := forall i s s', f i s = (s', Ok tt) ->
  List.length (s_vars (s_o s')) = List.length (s_vars (s_o s)) /\
  forall j w, nth_error (s_vars (s_o s')) j = Some w -> w_id w <> None \/ j <> i /\ nth_error (s_vars (s_o s)) j = Some w.
Lemma upd_fill (vs : list mvar) i w : w_id w <> None ->
  List.length (upd vs i w) = List.length vs /\ forall j w', nth_error (upd vs i w) j = Some w' -> w_id w' <> None \/ j <> i /\ nth_error vs j = Some w'.
Proof.
  intros Hw. split.
  - clear. revert i. induction vs as [|v vs IH]; intros [|i]; cbn; auto.
  - intros j w' E. destruct (Nat.eq_dec i j) as [<-|X].
    + left. assert (i < List.length vs)%nat by (destruct (Nat.lt_ge_cases i (List.length vs)) as [Y|Y]; [exact Y|]; exfalso; assert (Z : nth_error (upd vs i w) i = None) by (clear - Y; revert i Y; induction vs as [|v vs IH]; intros [|i] Y; cbn in *; auto; try lia; apply IH; lia); congruence).
      rewrite nth_error_upd_same in E by assumption. injection E as <-. exact Hw.
    + right. split; [auto|]. rewrite nth_error_upd_other in E by exact X. exact E.
Qed.
Lemma fills_define : fills define_var.
Proof.
  intros i s s' E. unfold define_var in E. rewrite bind_obj in E. destruct (nth_error (s_vars (s_o s)) i) as [w|] eqn:N.
  2:{ injection E as <-. split; [reflexivity|]. intros j w X. right. split; [congruence|exact X]. }
  destruct (w_id w) as [id|] eqn:Wi.
  { injection E as <-. split; [reflexivity|]. intros j w' X. destruct (Nat.eq_dec j i) as [->|Y]; [left; congruence|right; auto]. }
  apply bind_inv in E. destruct E as (s1 & id & E1 & E). apply bind_inv in E. destruct E as (s2 & [] & E2 & E). apply check_obj' in E2.
  assert (X1 : s1 = s) by (unfold inquire in E1; destruct (s_lib s); congruence). subst s1. injection E as <-. unfold set_vars, upd_obj. pj. apply upd_fill. discriminate.
Qed.
Lemma fills_register : fills register_var_id.
Proof.
  intros i s s' E. unfold register_var_id in E. rewrite bind_obj in E. destruct (nth_error (s_vars (s_o s)) i) as [w|] eqn:N.
  2:{ injection E as <-. split; [reflexivity|]. intros j w X. right. split; [congruence|exact X]. }
  destruct (w_id w) as [id|] eqn:Wi.
  { injection E as <-. split; [reflexivity|]. intros j w' X. destruct (Nat.eq_dec j i) as [->|Y]; [left; congruence|right; auto]. }
  apply bind_inv in E. destruct E as (s1 & id & E1 & E). destruct id as [k|]; [|discriminate].
  assert (X1 : s1 = s) by (unfold inquire in E1; destruct (s_lib s); congruence). subst s1. injection E as <-. unfold set_vars, upd_obj. pj. apply upd_fill. discriminate.
Qed.
Lemma fill_all f : fills f -> forall m j s s', each f (seq j m) s = (s', Ok tt) ->
  List.length (s_vars (s_o s')) = List.length (s_vars (s_o s)) /\
  forall i w, nth_error (s_vars (s_o s')) i = Some w -> w_id w <> None \/ ~ (j <= i < j + m)%nat /\ nth_error (s_vars (s_o s)) i = Some w.
Proof.
  intros F. induction m as [|m IH]; intros j s s' E; cbn [seq each] in E.
  { injection E as <-. split; [reflexivity|]. intros i w X. right. split; [lia|exact X]. }
  apply bind_inv in E. destruct E as (s1 & [] & E1 & E2). destruct (F j s s1 E1) as [L1 H1]. destruct (IH (Datatypes.S j) s1 s' E2) as [L2 H2]. split; [congruence|].
  intros i w X. destruct (H2 i w X) as [Y|[Y1 Y2]]; [auto|]. destruct (H1 i w Y2) as [Z|[Z1 Z2]]; [auto|]. right. split; [lia|exact Z2].
Qed.
Lemma fill_set f s s' : fills f -> each f (seq 0 (List.length (s_vars (s_o s)))) s = (s', Ok tt) -> ids_set s'.
Proof.
  intros F E w Hw. destruct (fill_all f F _ _ _ _ E) as [L H]. apply In_nth_error in Hw. destruct Hw as (i & Hi). destruct (H i w Hi) as [X|[X _]]; [exact X|].
  exfalso. apply X. split; [lia|]. rewrite Nat.add_0_l, <- L. apply nth_error_Some. congruence.
Qed.
Lemma vatts_set ws s s' : each register_vatts ws s = (s', Ok tt) -> ids_set s -> ids_set s'.
Proof.
  revert s. induction ws as [|i ws IH]; intros s E H; cbn [each] in E; [injection E as <-; exact H|]. apply bind_inv in E. destruct E as (s1 & [] & E1 & E2). apply (IH s1 E2).
  unfold register_vatts in E1. rewrite bind_obj in E1. destruct (nth_error (s_vars (s_o s)) i) as [w|] eqn:N; [|injection E1 as <-; exact H].
  apply bind_inv in E1. destruct E1 as (s2 & file & E3 & E1). assert (X1 : s2 = s) by (unfold inquire in E3; destruct (s_lib s); congruence). subst s2.
  apply bind_inv in E1. destruct E1 as (s3 & l & E4 & E1). injection E4 as <- _. apply bind_inv in E1. destruct E1 as (s4 & l' & E5 & E1). injection E5 as <- _. injection E1 as <-.
  intros w' Hw. unfold set_vars, upd_obj in Hw. cbn [s_o s_vars] in Hw. apply In_upd in Hw. destruct Hw as [Hw| ->]; [exact (H w' Hw)|]. cbn. apply H. exact (nth_error_In _ _ N).
Qed.
Lemma add_all vs : forall s s', each add_var vs s = (s', Ok tt) -> map w_name (s_vars (s_o s')) = map w_name (s_vars (s_o s)) ++ map fst vs.
Proof.
  induction vs as [|p vs IH]; intros s s' E; cbn [each] in E; [injection E as <-; cbn; now rewrite app_nil_r|]. apply bind_inv in E. destruct E as (s1 & [] & E1 & E2). rewrite (IH s1 s' E2).
  unfold add_var in E1. rewrite bind_obj in E1. destruct (existsb _ _); [discriminate|]. injection E1 as <-. unfold set_vars, upd_obj. pj. rewrite map_app, <- app_assoc. reflexivity.
Qed.
Lemma names_prefix d s s' : grows d s s' -> incl (map w_name (s_vars (s_o s))) (map w_name (s_vars (s_o s'))).
Proof. intros (_ & _ & _ & (ns & N) & _) x Hx. rewrite N. apply in_or_app. auto. Qed.

(** What a successful registration has done. *)
Lemma register_done vs s s' : register_field_collection vs s = (s', Ok tt) ->
  ids_set s' /\ incl (map fst vs) (map w_name (s_vars (s_o s'))) /\ (writes (s_mode (s_o s)) = true -> s_flag (s_o s') = MData).
Proof.
  intros E. unfold register_field_collection in E. apply bind_inv in E. destruct E as (s1 & [] & E1 & E). rewrite bind_obj in E.
  assert (N1 : incl (map fst vs) (map w_name (s_vars (s_o s1)))) by (intros x Hx; rewrite (add_all _ _ _ E1); apply in_or_app; auto).
  assert (M1 : s_mode (s_o s1) = s_mode (s_o s)).
  { assert (X : G (fun _ => true) false (each add_var vs)) by (apply G_each; intros; apply G_add_var). specialize (X s eq_refl). rewrite E1 in X. destruct X as (_ & X & _). exact X. }
  apply bind_inv in E. destruct E as (s2 & [] & E2 & E). rewrite bind_obj in E. cbn zeta in E.
  assert (O2 : s_vars (s_o s2) = s_vars (s_o s1) /\ s_mode (s_o s2) = s_mode (s_o s1)).
  { destruct (is_flag _ _); [injection E2 as <-; auto|]. apply bind_inv in E2. destruct E2 as (s2' & [] & E2 & E3). apply check_obj' in E2. injection E3 as <-. unfold set_flag, upd_obj. pj. rewrite E2. auto. }
  destruct O2 as [V2 M2]. rewrite <- V2 in N1. destruct (writes (s_mode (s_o s2))) eqn:W.
  - apply bind_inv in E. destruct E as (s3 & [] & E3 & E). rewrite bind_obj in E.
    assert (X := fill_set _ _ _ fills_define E3).
    assert (N3 : incl (map fst vs) (map w_name (s_vars (s_o s3)))).
    { assert (Y : G writes false (each define_var (seq 0 (List.length (s_vars (s_o s2)))))) by (apply G_each; intros; apply G_define_var). specialize (Y s2 W). rewrite E3 in Y. eapply incl_tran; [exact N1|exact (names_prefix _ _ _ Y)]. }
    apply bind_inv in E. destruct E as (s4 & [] & E4 & E). assert (O4 := each_obj define_vatts (s_vars (s_o s3)) define_vatts_obj s3). rewrite E4 in O4. cbn [fst] in O4.
    apply bind_inv in E. destruct E as (s5 & [] & E5 & E). apply check_obj' in E5. apply bind_inv in E. destruct E as (s6 & [] & E6 & E). injection E6 as <-.
    unfold netcdf_file_changes in E. rewrite bind_obj in E. unfold set_flag, upd_obj in E. cbn [s_o s_mode] in E.
    assert (O : s_vars (s_o s') = s_vars (s_o s3) /\ s_flag (s_o s') = MData).
    { destruct (s_mode (s_o s5)); injection E as <-; cbn; rewrite ?E5, ?O4; auto. }
    destruct O as [O1 O2]. split; [intros w; rewrite O1; apply X|]. split; [rewrite O1; exact N3|auto].
  - apply bind_inv in E. destruct E as (s3 & n & E3 & E). assert (X1 : s3 = s2) by (unfold inquire in E3; destruct (s_lib s2); congruence). subst s3.
    destruct (_ <? _)%nat; [discriminate|]. apply bind_inv in E. destruct E as (s3 & [] & E4 & E). assert (X := fill_set _ _ _ fills_register E4).
    split; [exact (vatts_set _ _ _ E X)|]. split; [|intros Y; congruence].
    assert (Y : G (fun _ => true) false (each register_var_id (seq 0 (List.length (s_vars (s_o s2)))))) by (apply G_each; intros; apply G_register_var_id). specialize (Y s2 eq_refl). rewrite E4 in Y.
    assert (Z : G (fun _ => true) false (each register_vatts (seq 0 (List.length (s_vars (s_o s2)))))) by (apply G_each; intros; apply G_register_vatts). specialize (Z s3 eq_refl). rewrite E in Z.
    eapply incl_tran; [exact N1|]. eapply incl_tran; [exact (names_prefix _ _ _ Y)|exact (names_prefix _ _ _ Z)].
Qed.

Lemma register_J vs s s' l k : I s l k -> all_legal s -> ids_ok s -> writes (s_mode (s_o s)) = true -> step (Register vs) s = (s', Ok tt) ->
  exists l' k', J s' l' k' /\ incl (map fst vs) (map w_name (s_vars (s_o s'))).
Proof.
  intros H Lg Oi W E. assert (Gr := step_grows _ _ _ _ E). cbn [step] in E. destruct (register_done vs s s' E) as (X1 & X2 & X3).
  destruct (S_register vs s l k H) as (l' & H' & A & _). rewrite E in H', A. cbn [fst] in *. exists l', k. split; [|exact X2].
  constructor; [exact H'|unfold all_legal, read_global_attribute_names in *; rewrite A; exact Lg|exact X1|destruct Gr as (_ & _ & _ & _ & Y); exact (Y Oi)|].
  apply (I_data _ _ _ H'). auto.
Qed.

(** Append mode before the first update: the library is in data mode although the
    object says define mode. *)
Definition early (s : st) : Prop := s_mode (s_o s) = OAppend /\ s_flag (s_o s) = MDefine /\ exists l, s_lib s = Some l /\ l_def l = false.
Lemma early_keeps s s' : early s -> keeps s s' -> early s'.
Proof.
  intros (M1 & F & l & L & D) (E1 & E2 & _ & _ & _ & _ & SL). split; [congruence|]. split; [congruence|]. unfold same_lib in SL. rewrite L in SL. destruct (s_lib s') as [l'|]; [|contradiction].
  exists l'. split; [reflexivity|]. destruct SL as (_ & X & _). congruence.
Qed.
Lemma early_register vs s : early s -> early (fst (register_field_collection vs s)).
Proof.
  intros H. unfold register_field_collection. assert (K1 : K (each add_var vs)) by (apply K_each, K_add_var). specialize (K1 s). destruct (each add_var vs s) as [s1 r1] eqn:E1. cbn [fst] in K1.
  assert (H1 := early_keeps s s1 H K1). destruct r1 as [[]|e|]; [|rewrite (bind_err _ _ _ _ _ E1); exact H1|rewrite (bind_ub _ _ _ _ E1); exact H1].
  rewrite (bind_ok _ _ _ _ _ E1), bind_obj. destruct H1 as (M1 & F1 & R1). rewrite F1. cbn [is_flag]. rewrite (bind_ok _ _ s1 s1 tt) by reflexivity. rewrite bind_obj. cbn zeta. rewrite M1. cbn [writes].
  apply (early_keeps s1); [split; auto|]. assert (X : K (do n <- inquire (fun c => List.length (c_vars c)); if (n <? List.length (s_vars (s_o s1)))%nat then throw else run each register_var_id (seq 0 (List.length (s_vars (s_o s1)))); each register_vatts (seq 0 (List.length (s_vars (s_o s1)))))).
  { kk. destruct (_ <? _)%nat; kk; [apply K_each, K_register_var_id|apply K_each, K_register_vatts]. }
  apply X.
Qed.
Lemma early_step o s s' r : early s -> no_update o -> step o s = (s', r) -> early s'.
Proof.
  intros H Nu E. destruct o as [vs|f x ns|ns|n t v|old new t v]; cbn [step no_update] in *; [..|contradiction].
  - assert (X := early_register vs s H). rewrite E in X. exact X.
  - unfold write in E. unfold define_global_attributes_save_call in E. rewrite bind_assoc, bind_obj in E. destruct H as (M1 & F & R). rewrite M1 in E. cbn [writes andb] in E. rewrite (bind_ok _ _ s s tt) in E by reflexivity.
    assert (X : K (each (fun n => do w <- get_variable n; check (lib_put_var (w_id w) f x)) ns)) by (apply K_each; intros n; apply K_bind; [apply K_get_variable|intros w; apply K_put_var]). specialize (X s).
    destruct (each (fun n => do w <- get_variable n; check (lib_put_var (w_id w) f x)) ns s) as [s1 r1] eqn:E1. cbn [fst] in X. assert (H1 : early s1) by (apply (early_keeps s); [split; auto|exact X]).
    destruct r1 as [[]|e|]; [|rewrite (bind_err _ _ _ _ _ E1) in E; injection E as <- _; exact H1|rewrite (bind_ub _ _ _ _ E1) in E; injection E as <- _; exact H1].
    rewrite (bind_ok _ _ _ _ _ E1) in E. unfold netcdf_file_changes in E. rewrite bind_obj in E. destruct H1 as (M2 & F2 & R2). rewrite M2 in E. injection E as <- _. split; [exact M2|]. split; [exact F2|exact R2].
  - destruct (read_same ns s) as [A B]. rewrite E in A, B. cbn [fst] in *. unfold early. rewrite A, B. exact H.
  - unfold write_global_attribute in E. rewrite bind_obj in E. destruct H as (M1 & F & R). rewrite M1 in E. destruct (s_gdef (s_o s)); injection E as <- _; (split; auto).
Qed.
Lemma early_runs s h s' : tidy_runs s h s' -> Forall (fun p => no_update (fst p)) h -> early s -> early s'.
Proof. induction 1 as [|s o s1 r h s2 Ho Ht E Hr IH]; intros F H; [exact H|]. inversion F; subst. apply IH; [assumption|]. eapply early_step; eassumption. Qed.
Lemma register_J_append vs s s' l k : I s l k -> all_legal s -> ids_ok s -> early s -> step (Register vs) s = (s', Ok tt) ->
  exists l' k', J s' l' k' /\ incl (map fst vs) (map w_name (s_vars (s_o s'))).
Proof.
  intros H Lg Oi Ea E. assert (Gr := step_grows _ _ _ _ E). assert (Ea' := early_step (Register vs) _ _ _ Ea Logic.I E). cbn [step] in E. destruct (register_done vs s s' E) as (X1 & X2 & X3).
  destruct (S_register vs s l k H) as (l' & H' & A & _). rewrite E in H', A. cbn [fst] in *. exists l', k. split; [|exact X2].
  constructor; [exact H'|unfold all_legal, read_global_attribute_names in *; rewrite A; exact Lg|exact X1|destruct Gr as (_ & _ & _ & _ & Y); exact (Y Oi)|].
  destruct Ea' as (_ & _ & l0 & L0 & D0). rewrite (I_lib _ _ _ H') in L0. congruence.
Qed.

(** The two stamps stay as long as nobody renames or updates them. *)
Lemma shown_names s n : shown s n <> None -> In n (names s).
Proof. unfold shown, read_global_attribute, names. destruct (find _ _) as [m|] eqn:F; [|congruence]. intros _. apply find_some in F. destruct F as [F1 F2]. apply String.eqb_eq in F2. rewrite <- F2. apply in_map. exact F1. Qed.
Lemma step_other o s l k s' r n : I s l k -> op_ok o -> tidy s o -> legal_op o -> step o s = (s', r) -> In n stamps -> shown s n <> None -> shown s' n = shown s n.
Proof.
  intros H V T Lo E Hn Sn. destruct (step_spec o s l k H V T) as (s1 & r1 & l1 & k1 & E1 & H1 & M1 & Sh). rewrite E in E1. injection E1 as <- <-. rewrite Sh. destruct r as [u|e|]; [|reflexivity..].
  assert (In_ := shown_names s n Sn). destruct o as [vs|f x ns|ns|m t v|old new t v]; cbn [effect step legal_op] in *; try reflexivity.
  - destruct (wga_spec m t v s l k H V) as (s2 & r2 & E2 & _ & _ & R). rewrite E in E2. injection E2 as <- <-. destruct R as [(X & _)|(_ & Hm & _)]; [discriminate|]. unfold set. destruct (String.eqb_spec n m) as [->|]; [contradiction|reflexivity].
  - unfold set. destruct (String.eqb_spec n new) as [->|X].
    + exfalso. destruct T as [-> |[_ T]]; [exact (Lo Hn)|exact (T In_)].
    + destruct (String.eqb_spec n old) as [->|Y]; [contradiction|reflexivity].
Qed.
Lemma stamps_runs s h s' : tidy_runs s h s' -> Forall (fun p => legal_op (fst p)) h -> forall l k, I s l k -> forall n, In n stamps -> shown s n <> None -> shown s' n = shown s n.
Proof.
  induction 1 as [s|s o s1 r h s2 Ho Ht E Hr IH]; intros F l k H n Hn Sn; [reflexivity|]. inversion F as [|? ? F1 F']; subst. cbn [fst] in *.
  destruct (step_spec o s l k H Ho Ht) as (s1' & r' & l1 & k1 & E' & H1 & _ & _). rewrite E in E'. injection E' as <- <-.
  assert (X := step_other o s l k s1 r n H Ho Ht F1 E Hn Sn). rewrite (IH F' l1 k1 H1 n Hn); [exact X|congruence].
Qed.

(** Reading only. *)
Lemma read_only s s' l d : grows d s s' -> s_mode (s_o s) = ORead -> s_lib s = Some l -> l_rw l = false -> l_def l = false ->
  s_mode (s_o s') = ORead /\ s_lib s' = Some l /\ s_disk s' = s_disk s.
Proof.
  intros Gr Mo L R D. destruct (grows_at _ _ _ _ Gr L) as (l' & L' & (_ & X & _)). rewrite (X R D) in L'. destruct Gr as (D1 & M1 & _). split; [congruence|auto].
Qed.
Lemma close_read date time s l : s_mode (s_o s) = ORead -> s_lib s = Some l -> l_rw l = false -> exists s', close date time s = (s', Ok tt) /\ s_disk s' = s_disk s.
Proof.
  intros Mo L R. unfold close, define_global_attributes_save_call. rewrite bind_assoc, bind_obj, Mo. cbn [writes andb]. rewrite (bind_ok _ _ s s tt) by reflexivity.
  unfold update_global_attribute_last_modified_save_call. rewrite bind_assoc, bind_obj, Mo. cbn [orb]. rewrite (bind_ok _ _ s s tt) by reflexivity.
  unfold mbind, lib_close. rewrite L, R. eexists. split; reflexivity.
Qed.
