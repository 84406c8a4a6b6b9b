(** The time stamps of a file that was changed. *)
From Coq Require Import String.
From Verif Require Import Base AttModel AttSpec LayoutProofs AttProofs AttProofs2 AttProofs3 AttProofs4 AttProofs5 AttProofs6 AttProofs7 AttProofs12.
Local Open Scope string_scope.
Local Open Scope Z_scope.
Local Open Scope list_scope.

(** Nothing takes the mark of a change away, or changes the mode. *)
Definition kc (s s' : st) : Prop := s_mode (s_o s') = s_mode (s_o s) /\ (s_changed (s_o s) = true -> s_changed (s_o s') = true).
Lemma kc_refl s : kc s s. Proof. split; auto. Qed.
Lemma kc_trans a b c : kc a b -> kc b c -> kc a c. Proof. intros [X1 X2] [Y1 Y2]. split; [congruence|auto]. Qed.
Definition Ch {A} (m : M A) : Prop := forall s, kc s (fst (m s)).
Lemma Ch_ret {A} (a : A) : Ch (ret a). Proof. intros s. apply kc_refl. Qed.
Lemma Ch_throw {A} : Ch (@throw A). Proof. intros s. apply kc_refl. Qed.
Lemma Ch_lift {A} (r : res A) : Ch (lift r). Proof. intros s. apply kc_refl. Qed.
Lemma Ch_obj : Ch obj. Proof. intros s. apply kc_refl. Qed.
Lemma Ch_inquire {A} (g : content -> A) : Ch (inquire g). Proof. intros s. unfold inquire. destruct (s_lib s); apply kc_refl. Qed.
Lemma Ch_bind {A B} (m : M A) (k : A -> M B) : Ch m -> (forall a, Ch (k a)) -> Ch (mbind m k).
Proof. intros Hm Hk s. specialize (Hm s). unfold mbind. destruct (m s) as [s1 [a|e|]]; cbn [fst] in *; auto. eapply kc_trans; [exact Hm|apply Hk]. Qed.
Lemma Ch_call f : Ch (call f). Proof. intros s. unfold call. destruct (s_lib s) as [l|]; [|apply kc_refl]. destruct (f l); split; auto. Qed.
Lemma Ch_check f : Ch (check f). Proof. apply Ch_bind; [apply Ch_call|]. intros [e|]; [apply Ch_throw|apply Ch_ret]. Qed.
Lemma Ch_each {A} (f : A -> M unit) l : (forall a, Ch (f a)) -> Ch (each f l).
Proof. intros H. induction l as [|a l IH]; cbn [each]; [apply Ch_ret|]. apply Ch_bind; auto. Qed.
Lemma Ch_flag x : Ch (set_flag x). Proof. intros s. split; auto. Qed.
Lemma Ch_changed : Ch set_changed. Proof. intros s. split; auto. Qed.
Lemma Ch_gdef : Ch set_gdef. Proof. intros s. split; auto. Qed.
Lemma Ch_atts x : Ch (set_atts x). Proof. intros s. split; auto. Qed.
Lemma Ch_vars x : Ch (set_vars x). Proof. intros s. split; auto. Qed.
Ltac ch := repeat first
  [ apply Ch_ret | apply Ch_throw | apply Ch_lift | apply Ch_obj | apply Ch_inquire | apply Ch_check | apply Ch_call | apply Ch_flag | apply Ch_changed | apply Ch_gdef | apply Ch_atts | apply Ch_vars
  | apply Ch_bind; [|intros] | apply Ch_each; intros | match goal with |- Ch (match ?x with _ => _ end) => destruct x end ].
Lemma Ch_changes : Ch netcdf_file_changes. Proof. unfold netcdf_file_changes. ch. Qed.
Lemma Ch_define : Ch define_global_attributes_save_call.
Proof. unfold define_global_attributes_save_call, define_global_attributes, define_one. ch. Qed.
Lemma Ch_step o : Ch (step o).
Proof.
  destruct o; cbn [step].
  - unfold register_field_collection, add_var, define_var, define_vatts, register_var_id, register_vatts. cbn zeta. ch; apply Ch_changes.
  - unfold write. apply Ch_bind; [apply Ch_define|]. intros _. unfold get_variable. ch; apply Ch_changes.
  - unfold read, get_variable. ch.
  - unfold write_global_attribute, add_attribute. ch.
  - unfold update_global_attribute. ch; apply Ch_changes.
Qed.
Lemma runs_kc s h s' : runs s h s' -> kc s s'.
Proof. induction 1 as [|s o s1 r h s2 E _ IH]; [apply kc_refl|]. eapply kc_trans; [|exact IH]. assert (X := Ch_step o s). rewrite E in X. exact X. Qed.

(** What sets it. *)
Lemma changes_set s s' r : netcdf_file_changes s = (s', r) -> s_mode (s_o s) <> ORead -> s_changed (s_o s') = true.
Proof. unfold netcdf_file_changes. rewrite bind_obj. intros E Mo. destruct (s_mode (s_o s)); [contradiction|..]; injection E as <- _; reflexivity. Qed.
Lemma last_changes {A} (m : M A) s s' : Ch m -> (run m; netcdf_file_changes) s = (s', Ok tt) -> s_mode (s_o s) <> ORead -> s_changed (s_o s') = true.
Proof.
  intros Hm E Mo. specialize (Hm s). unfold mbind in E. destruct (m s) as [s1 [a|e|]]; cbn [fst] in Hm; try discriminate.
  apply (changes_set s1 s' _ E). destruct Hm as [X _]. congruence.
Qed.
Lemma step_changes o s s' : step o s = (s', Ok tt) -> s_mode (s_o s) <> ORead -> alters (s_mode (s_o s)) o -> s_changed (s_o s') = true.
Proof.
  intros E Mo Al. destruct o as [vs|f x ns|ns|n t v|old new t v]; cbn [alters step] in *; try contradiction.
  - unfold register_field_collection in E.
    assert (X := Ch_each add_var vs ltac:(intros; unfold add_var; ch) s). unfold mbind at 1 in E. destruct (each add_var vs s) as [s1 [a|e|]]; cbn [fst] in X; try discriminate. destruct X as [X _].
    rewrite bind_obj in E. set (m := if is_flag (s_flag (s_o s1)) MDefine then ret tt else _) in E. assert (Y : Ch m) by (unfold m; ch). specialize (Y s1). unfold mbind at 1 in E. destruct (m s1) as [s2 [b|e|]]; cbn [fst] in Y; try discriminate. destruct Y as [Y _].
    rewrite bind_obj in E. cbn zeta in E. rewrite Y, X, Al in E.
    unfold mbind at 1 in E. assert (Z := Ch_each define_var (seq 0 (List.length (s_vars (s_o s2)))) ltac:(intros; unfold define_var; ch) s2). destruct (each define_var _ s2) as [s3 [c|e|]]; cbn [fst] in Z; try discriminate. destruct Z as [Z _].
    rewrite bind_obj in E. unfold mbind at 1 in E. assert (T := Ch_each define_vatts (s_vars (s_o s3)) ltac:(intros; unfold define_vatts; ch) s3). destruct (each define_vatts _ s3) as [s4 [d|e|]]; cbn [fst] in T; try discriminate. destruct T as [T _].
    unfold mbind at 1 in E. assert (U := Ch_check lib_enddef s4). destruct (check lib_enddef s4) as [s5 [d'|e|]]; cbn [fst] in U; try discriminate. destruct U as [U _].
    apply (last_changes (set_flag MData) s5 s' (Ch_flag _) E). congruence.
  - unfold write in E. unfold mbind at 1 in E. assert (X := Ch_define s). destruct (define_global_attributes_save_call s) as [s1 [a|e|]]; cbn [fst] in X; try discriminate. destruct X as [X _].
    apply (last_changes _ s1 s') in E; [exact E|unfold get_variable; ch|congruence].
  - unfold update_global_attribute in E. rewrite bind_obj in E. destruct (s_mode (s_o s)) eqn:Ms; [contradiction|..];
      (set (m := if is_flag (s_flag (s_o s)) MData then ret tt else _) in E; assert (Y : Ch m) by (unfold m; ch); specialize (Y s); unfold mbind at 1 in E; destruct (m s) as [s2 [b|e|]]; cbn [fst] in Y; try discriminate; destruct Y as [Y _];
       rewrite bind_obj in E; destruct (position _ _) as [i|]; [|discriminate]; destruct (nth_error _ _) as [w|]; [|discriminate]; destruct (negb (m_written w)); [discriminate|]; destruct (update_matt _ _ _ _) as [w'|]; [|discriminate];
       unfold mbind at 1 in E; assert (U := Ch_atts (upd (s_atts (s_o s2)) i w') s2); destruct (set_atts _ s2) as [s5 [d'|e|]]; cbn [fst] in U; try discriminate; destruct U as [U _];
       set (m2 := if String.eqb old new then ret tt else _) in E; assert (T : Ch m2) by (unfold m2; ch); specialize (T s5); unfold mbind at 1 in E; destruct (m2 s5) as [s6 [b'|e|]]; cbn [fst] in T; try discriminate; destruct T as [T _];
       apply (last_changes (check (lib_put_gatt (to_att w'))) s6 s' (Ch_check _) E); congruence).
Qed.
Lemma runs_changed s h s' : runs s h s' -> s_mode (s_o s) <> ORead -> Exists (fun p => alters (s_mode (s_o s)) (fst p) /\ snd p = Ok tt) h -> s_changed (s_o s') = true.
Proof.
  induction 1 as [|s o s1 r h s2 E R IH]; intros Mo Ex; [inversion Ex|]. assert (X := Ch_step o s). rewrite E in X. cbn [fst] in X. destruct X as [X _]. inversion Ex as [p q [Al Ok_]|p q Ex']; subst.
  - cbn [fst snd] in *. subst r. apply (runs_kc _ _ _ R). exact (step_changes o s s1 E Mo Al).
  - rewrite X in IH. exact (IH Mo Ex').
Qed.

(** Closing sets both stamps. *)
Lemma update_shown s l k n v s' : I s l k -> update_global_attribute n n TChar v s = (s', Ok tt) -> (forall x, shown s' x = set (shown s) n (Some (TChar, v)) x) /\ exists l' k', I s' l' k'.
Proof.
  intros H E. destruct (step_spec (UpdateAtt n n TChar v) s l k H (char_ok v) (or_introl eq_refl)) as (s2 & r & l2 & k2 & E2 & H2 & _ & Sh). cbn [step] in E2. rewrite E in E2. injection E2 as <- <-.
  split; [|eauto]. intros x. rewrite Sh. cbn [effect]. unfold set. destruct (String.eqb x n); reflexivity.
Qed.
Lemma both_shown s l k date time s' : I s l k -> update_global_attribute_last_modified date time s = (s', Ok tt) ->
  shown s' "last_modified_date" = Some (TChar, date) /\ shown s' "last_modified_time" = Some (TChar, time).
Proof.
  intros H E. unfold update_global_attribute_last_modified, mbind in E. destruct (update_global_attribute "last_modified_date" _ _ _ s) as [s1 [[]|e|]] eqn:E1; try discriminate.
  destruct (update_shown s l k _ _ _ H E1) as (Sh1 & l1 & k1 & H1). destruct (update_shown s1 l1 k1 _ _ _ H1 E) as (Sh2 & _). rewrite !Sh2. unfold set. cbn [String.eqb Ascii.eqb Bool.eqb]. rewrite Sh1. split; reflexivity.
Qed.
Lemma lm_shown s l k date time s' : I s l k -> s_changed (s_o s) = true -> update_global_attribute_last_modified_save_call date time s = (s', Ok tt) ->
  shown s' "last_modified_date" = Some (TChar, date) /\ shown s' "last_modified_time" = Some (TChar, time).
Proof.
  intros H C E. unfold update_global_attribute_last_modified_save_call in E. rewrite bind_obj, C in E.
  assert (Mr : match s_mode (s_o s) with ORead => true | _ => false end = false) by (assert (X := I_mode _ _ _ H); destruct (s_mode (s_o s)); congruence).
  rewrite Mr in E. cbn [orb negb] in E. assert (HL := I_lib _ _ _ H). destruct (s_flag (s_o s)) eqn:F; [exfalso; exact (I_flag _ _ _ H F)|..].
  - set (s1 := with_flag s MData l false).
    assert (H1 : I s1 (mk_lib (l_rw l) false (l_c l)) k) by (apply I_with_flag; auto; discriminate).
    assert (X : forall {B} (kk : bool -> M B), (do e <- call lib_enddef; do w <- match e with None => ret true | Some ENotInDefine => ret false | Some _ => throw end; run set_flag MData; kk w) s
                = kk (l_def l) s1).
    { intros B kk. unfold mbind, call. rewrite HL. unfold lib_enddef, s1, with_flag. destruct l as [rw d c]. pj. destruct d; cbn; [reflexivity|]. unfold set_flag, upd_obj. pj. rewrite HL. reflexivity. }
    rewrite (X unit (fun w => run update_global_attribute_last_modified date time; if (w : bool) then run check lib_redef; set_flag MDefine else ret tt)) in E.
    destruct (update_global_attribute_last_modified date time s1) as [s2 [[]|e|]] eqn:E2; [|rewrite (bind_err _ _ _ _ _ E2) in E; discriminate|rewrite (bind_ub _ _ _ _ E2) in E; discriminate].
    rewrite (bind_ok _ _ _ _ _ E2) in E. assert (Sh := both_shown _ _ _ _ _ _ H1 E2).
    assert (A : s_atts (s_o s') = s_atts (s_o s2)).
    { destruct (l_def l); [|injection E as <-; reflexivity]. unfold check, call, set_flag, upd_obj, mbind in E. destruct (s_lib s2) as [l2|]; [|discriminate]. destruct (lib_redef l2); [discriminate|]. injection E as <-. reflexivity. }
    rewrite !shown_seen, A, <- !shown_seen. exact Sh.
  - assert (X : forall {B} (kk : M B), (do e <- call lib_enddef; run match e with None | Some ENotInDefine => ret tt | Some _ => throw end; kk) s = kk s).
    { intros B kk. unfold mbind, call. rewrite HL. unfold lib_enddef. rewrite (I_data _ _ _ H F). reflexivity. }
    rewrite X in E. exact (both_shown _ _ _ _ _ _ H E).
Qed.
Lemma session_stamps s0 l0 k0 h s1 date time s2 : I s0 l0 k0 -> tidy_runs s0 h s1 -> close date time s1 = (s2, Ok tt) -> (List.length (read_global_attribute_names s1) <= 30)%nat ->
  Exists (fun p => alters (s_mode (s_o s0)) (fst p) /\ snd p = Ok tt) h ->
  exists c, s_disk s2 = Some c /\ stored_atts c "last_modified_date" = Some (TChar, date) /\ stored_atts c "last_modified_time" = Some (TChar, time).
Proof.
  intros H0 R C L Ex. destruct (runs_spec s0 h s1 R l0 k0 H0) as (l1 & k1 & H1 & _ & Sh1).
  assert (Cs : s_changed (s_o s1) = true) by (apply (runs_changed s0 h s1); [apply tidy_runs_runs; exact R|exact (I_mode _ _ _ H0)|exact Ex]).
  unfold close in C. destruct (save_call s1 l1 k1 H1) as (s3 & r3 & E3 & SV3 & [V3 Mo3] & C3 & l3 & k3 & H3 & R3).
  destruct R3 as [(-> & G3 & _)|(-> & W & m & Hm & Lm)]; [|rewrite (bind_err _ _ _ _ _ E3) in C; discriminate].
  rewrite (bind_ok _ _ _ _ _ E3) in C. assert (Hk := defined_all s1 s3 l3 k3 H3 Mo3 G3).
  destruct (lm_spec s3 l3 k3 date time H3) as (s4 & r4 & l4 & E4 & H4 & (N4 & Sh4 & Mo4 & G4 & SV4) & O4 & Fit & Unch).
  assert (Hk2 : k3 = List.length (s_atts (s_o s4))) by (unfold names in N4; rewrite Hk, <- (map_length m_name (s_atts (s_o s4))), N4, map_length; reflexivity).
  destruct O4 as [-> | ->]; [|rewrite (bind_err _ _ _ _ _ E4) in C; discriminate].
  assert (Sh := lm_shown s3 l3 k3 date time s4 H3 ltac:(congruence) E4). rewrite (bind_ok _ _ _ _ _ E4) in C. unfold mbind, lib_close in C. rewrite (I_lib _ _ _ H4), (I_rw _ _ _ H4) in C. injection C as <-.
  subst k3. rewrite Hk2 in H4. destruct (I_readable s4 l4 H4) as [_ Ga]. exists (l_c l4). split; [reflexivity|].
  assert (X : forall n, stored_atts (l_c l4) n = shown s4 n) by (intros n; rewrite shown_seen, <- Ga; reflexivity). rewrite !X. exact Sh.
Qed.
