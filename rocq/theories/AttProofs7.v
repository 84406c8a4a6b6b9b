(** Proofs about attributes and modes of files: what operations do to the
    variables and their values. *)
From Coq Require Import String.
From Verif Require Import Base AttModel AttSpec LayoutProofs AttProofs AttProofs2 AttProofs3 AttProofs4 AttProofs5 AttProofs6.
Local Open Scope Z_scope.
Local Open Scope list_scope.

Ltac gg := repeat match goal with
  | |- G _ _ (mbind _ _) => apply G_bind; [|intros ?]
  | |- G _ _ (ret _) => apply G_ret
  | |- G _ _ throw => apply G_throw
  | |- G _ _ obj => apply G_obj
  | |- G _ _ (inquire _) => apply G_inquire
  | |- G _ _ (lift _) => apply G_lift
  | |- G _ _ (set_flag _) => apply G_upd; reflexivity
  | |- G _ _ (set_atts _) => apply G_upd; reflexivity
  | |- G _ _ set_gdef => apply G_upd; reflexivity
  | |- G _ _ set_changed => apply G_upd; reflexivity
  | |- G _ _ (check lib_redef) => apply G_check; intros; eapply redef_grow; eassumption
  | |- G _ _ (check lib_enddef) => apply G_check; intros; eapply enddef_grow; eassumption
  | |- G _ _ (call lib_enddef) => apply G_call; intros; eapply enddef_grow; eassumption
  | |- G _ _ (check (lib_put_gatt _)) => apply G_check; intros; eapply put_gatt_grow; eassumption
  | |- G _ _ (check (lib_rename_gatt _ _)) => apply G_check; intros; eapply rename_grow; eassumption
  | |- G _ _ (check (lib_get_var _)) => apply G_check; intros; eapply get_var_grow; eassumption
  | |- G _ _ (each _ _) => apply G_each; intros ?
  | |- G _ _ (if ?b then _ else _) => destruct b
  | |- G _ _ (match ?x with _ => _ end) => destruct x
  end.

Lemma G_changes c d : G c d netcdf_file_changes.
Proof. unfold netcdf_file_changes. gg. Qed.
Lemma G_wga c d n t v : G c d (write_global_attribute n t v).
Proof. unfold write_global_attribute, add_attribute. gg. Qed.
Lemma G_define c d : G c d define_global_attributes_save_call.
Proof. unfold define_global_attributes_save_call, define_global_attributes, define_one. gg. Qed.
Lemma G_update c d a b t v : G c d (update_global_attribute a b t v).
Proof. unfold update_global_attribute. gg; apply G_changes. Qed.
Lemma G_stamp c d date time : G c d (update_global_attribute_last_modified_save_call date time).
Proof. unfold update_global_attribute_last_modified_save_call, update_global_attribute_last_modified. gg; apply G_update. Qed.
Lemma G_get_variable c d n : G c d (get_variable n).
Proof. unfold get_variable. gg. Qed.
Lemma G_read c d ns : G c d (read ns).
Proof. unfold read. gg. apply G_get_variable. Qed.

Lemma grows_vars d s l ws : s_lib s = Some l -> (exists ns, map w_name ws = map w_name (s_vars (s_o s)) ++ ns) ->
  (forall w i, In w ws -> w_id w = Some i -> In w (s_vars (s_o s)) \/ nth_error (vnames (l_c l)) i = Some (w_name w)) ->
  grows d s (fst (set_vars ws s)).
Proof.
  intros L N H. unfold set_vars, upd_obj. cbn [fst]. split; [reflexivity|]. split; [reflexivity|]. pj. rewrite L. split; [apply lgrow_refl|]. split; [exact N|].
  intros X l0 w i E Hw Hi. pj. cbn [s_lib s_o s_vars] in *. injection E as <-. destruct (H w i Hw Hi) as [Y|Y]; [exact (X l w i L Y Hi)|exact Y].
Qed.
Lemma grows_novars d s ws : s_lib s = None -> (exists ns, map w_name ws = map w_name (s_vars (s_o s)) ++ ns) -> grows d s (fst (set_vars ws s)).
Proof.
  intros L N. unfold set_vars, upd_obj. cbn [fst]. split; [reflexivity|]. split; [reflexivity|]. pj. rewrite L. split; [auto|]. split; [exact N|].
  intros X l0 w i E. cbn [s_lib] in E. congruence.
Qed.
Lemma In_upd {A} (l : list A) i v a : In a (upd l i v) -> In a l \/ a = v.
Proof. revert i. induction l as [|b l IH]; intros [|i]; cbn; try tauto; [intros [->|X]; auto|]. intros [->|X]; auto. destruct (IH i X); auto. Qed.
Lemma names_upd (l : list mvar) i w w' : nth_error l i = Some w -> w_name w' = w_name w -> map w_name (upd l i w') = map w_name l.
Proof. intros E N. rewrite map_upd. apply upd_id. rewrite nth_error_map, E, N. reflexivity. Qed.

Lemma G_add_var c d p : G c d (add_var p).
Proof.
  intros s C. unfold add_var. rewrite bind_obj. destruct (existsb _ _); [apply grows_refl|]. destruct (s_lib s) as [l|] eqn:L.
  - apply (grows_vars d s l); [exact L|rewrite map_app; eexists; reflexivity|]. intros w i H Hi. apply in_app_iff in H. destruct H as [H|[<-|[]]]; [auto|discriminate].
  - apply grows_novars; [exact L|]. rewrite map_app. eexists; reflexivity.
Qed.
Lemma G_define_var d i : G writes d (define_var i).
Proof.
  intros s C. unfold define_var. rewrite bind_obj. destruct (nth_error (s_vars (s_o s)) i) as [w|] eqn:E; [|apply grows_refl]. destruct (w_id w); [apply grows_refl|].
  unfold inquire, mbind at 1. destruct (s_lib s) as [l|] eqn:L; [|apply grows_refl]. destruct (lib_def_var (w_name w) l) as [e|l'] eqn:F.
  - rewrite (bind_err _ _ _ _ _ (check_inl _ _ _ _ L F)). apply grows_refl.
  - rewrite (bind_ok _ _ _ _ _ (check_inr _ _ _ _ L F)). destruct (def_var_grow d (s_mode (s_o s)) _ _ _ C F) as [Hg Hn].
    eapply grows_trans; [exact (grows_lib d s l l' L Hg)|]. apply (grows_vars d _ l'); [reflexivity|exists []; pj; rewrite app_nil_r; eapply names_upd; [exact E|reflexivity]|].
    intros w' j Hw Hj. apply In_upd in Hw. destruct Hw as [Hw| ->]; [left; exact Hw|right]. cbn [w_id w_name] in *. injection Hj as <-. rewrite Hn.
    rewrite <- (map_length v_name), nth_error_app2 by reflexivity. unfold vnames. rewrite Nat.sub_diag. reflexivity.
Qed.
Lemma G_define_vatts d w : G writes d (define_vatts w).
Proof. unfold define_vatts. apply G_each. intros m. destruct (w_id w); [|apply G_throw]. apply G_check. intros. eapply put_vatt_grow; eassumption. Qed.
Lemma G_register_var_id c d i : G c d (register_var_id i).
Proof.
  intros s C. unfold register_var_id. rewrite bind_obj. destruct (nth_error (s_vars (s_o s)) i) as [w|] eqn:E; [|apply grows_refl]. destruct (w_id w); [apply grows_refl|].
  unfold inquire, mbind at 1. destruct (s_lib s) as [l|] eqn:L; [|apply grows_refl]. destruct (position _ _) as [k|] eqn:P; [|apply grows_refl].
  apply (grows_vars d _ l); [exact L|exists []; rewrite app_nil_r; eapply names_upd; [exact E|reflexivity]|]. intros w' j Hw Hj. apply In_upd in Hw. destruct Hw as [Hw| ->]; [left; exact Hw|right].
  cbn [w_id w_name] in *. injection Hj as <-. apply position_some in P. destruct P as (v & Hv & Nv). apply String.eqb_eq in Nv. unfold vnames. rewrite nth_error_map, Hv. cbn. congruence.
Qed.
Lemma G_register_vatts c d i : G c d (register_vatts i).
Proof.
  intros s C. unfold register_vatts. rewrite bind_obj. destruct (nth_error (s_vars (s_o s)) i) as [w|] eqn:E; [|apply grows_refl].
  unfold inquire, mbind at 1. destruct (s_lib s) as [l|] eqn:L; [|apply grows_refl]. unfold lift, mbind. destruct (register_names _ _ _); [|apply grows_refl..]. destruct (mapr _ _); [|apply grows_refl..].
  intros. destruct (s_lib s) as [l1|] eqn:L1; [|discriminate]. injection L as ->.
  split; [reflexivity|]. split; [reflexivity|]. cbn [set_vars upd_obj fst]. pj. rewrite L1. split; [apply lgrow_refl|]. split; [exists []; rewrite app_nil_r; eapply names_upd; [exact E|reflexivity]|].
  intros X l0 w' j El Hw Hj. cbn [s_lib s_o s_vars] in *. rewrite <- L1 in El. apply In_upd in Hw. destruct Hw as [Hw| ->]; [exact (X l0 w' j El Hw Hj)|]. cbn [w_id w_name] in *.
  exact (X l0 w j El (nth_error_In _ _ E) Hj).
Qed.
Lemma G_register d vs : G (fun _ => true) d (register_field_collection vs).
Proof.
  unfold register_field_collection. apply G_bind; [apply G_each; intros p; apply G_add_var|]. intros _. apply G_bind; [apply G_obj|]. intros o.
  apply G_bind; [gg|]. intros _. intros s _. rewrite bind_obj. cbn zeta. destruct (writes (s_mode (s_o s))) eqn:W.
  - assert (X : G writes d (run each define_var (seq 0 (List.length (s_vars (s_o s)))); do o0 <- obj; run each define_vatts (s_vars o0); run check lib_enddef; run set_flag MData; netcdf_file_changes)).
    { apply G_bind; [apply G_each; intros; apply G_define_var|]. intros _. apply G_bind; [apply G_obj|]. intros o0. apply G_bind; [apply G_each; intros; apply G_define_vatts|]. intros _. gg. apply G_changes. }
    exact (X s W).
  - assert (X : G (fun _ => true) d (do n <- inquire (fun c => List.length (c_vars c)); if (n <? List.length (s_vars (s_o s)))%nat then throw else run each register_var_id (seq 0 (List.length (s_vars (s_o s)))); each register_vatts (seq 0 (List.length (s_vars (s_o s)))))).
    { gg; [apply G_register_var_id|apply G_register_vatts]. }
    exact (X s eq_refl).
Qed.
Definition is_write (o : op) : bool := match o with Write _ _ _ => true | _ => false end.
Lemma G_write f x ns : G (fun _ => true) true (write f x ns).
Proof.
  unfold write. apply G_bind; [apply G_define|]. intros _. apply G_bind; [|intros _; apply G_changes]. apply G_each. intros n. apply G_bind; [apply G_get_variable|]. intros w.
  apply G_check. intros. eapply put_var_grow. eassumption.
Qed.
Lemma G_step o : G (fun _ => true) (is_write o) (step o).
Proof.
  destruct o; cbn [step is_write]; [apply G_register|apply G_write|apply G_read|apply G_wga|apply G_update].
Qed.

(** Runs and closing. *)
Lemma step_grows o s s' r : step o s = (s', r) -> grows true s s'.
Proof. intros E. assert (X := G_step o s eq_refl). rewrite E in X. cbn [fst] in X. destruct (is_write o); [exact X|apply grows_weak; exact X]. Qed.
Lemma runs_grow s h s' : runs s h s' -> grows true s s'.
Proof. induction 1 as [|s o s1 r h s2 E _ IH]; [apply grows_refl|]. eapply grows_trans; [eapply step_grows; exact E|exact IH]. Qed.
Lemma tidy_runs_runs s h s' : tidy_runs s h s' -> runs s h s'.
Proof. induction 1; econstructor; eauto. Qed.
Lemma close_grows date time s s' : close date time s = (s', Ok tt) ->
  exists s1 l, grows false s s1 /\ s_lib s1 = Some l /\ s_lib s' = None /\ s_disk s' = if l_rw l then Some (l_c l) else s_disk s.
Proof.
  unfold close. intros E. assert (X := G_define (fun _ => true) false s eq_refl). destruct (define_global_attributes_save_call s) as [s1 r1] eqn:E1. cbn [fst] in X.
  destruct r1 as [[]|e|]; [|rewrite (bind_err _ _ _ _ _ E1) in E; discriminate|rewrite (bind_ub _ _ _ _ E1) in E; discriminate].
  rewrite (bind_ok _ _ _ _ _ E1) in E. assert (Y := G_stamp (fun _ => true) false date time s1 eq_refl). destruct (update_global_attribute_last_modified_save_call date time s1) as [s2 r2] eqn:E2. cbn [fst] in Y.
  destruct r2 as [[]|e|]; [|rewrite (bind_err _ _ _ _ _ E2) in E; discriminate|rewrite (bind_ub _ _ _ _ E2) in E; discriminate].
  rewrite (bind_ok _ _ _ _ _ E2) in E. unfold mbind, lib_close in E. destruct (s_lib s2) as [l|] eqn:L; [|discriminate]. unfold set_flag, upd_obj in E. injection E as <-.
  exists s2, l. assert (Z := grows_trans _ _ _ _ X Y). split; [exact Z|]. split; [exact L|]. split; [reflexivity|]. pj. destruct Z as (Z & _). destruct (l_rw l); congruence.
Qed.
