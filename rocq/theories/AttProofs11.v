(** Proofs about attributes and modes of files: registrations that succeed. *)
From Coq Require Import String.
From Verif Require Import Base AttModel AttSpec LayoutProofs AttProofs AttProofs2 AttProofs3 AttProofs4 AttProofs5 AttProofs6 AttProofs7 AttProofs8 AttProofs9 AttProofs10.
Local Open Scope string_scope.
Local Open Scope Z_scope.
Local Open Scope list_scope.

(** The variables of the object are those of the file. *)
Record V (s : st) (l : lib) : Prop := mk_V {
  V_names : vnames (l_c l) = map w_name (s_vars (s_o s));
  V_set : ids_set s; V_ok : ids_ok s;
  V_nodup : NoDup (map w_name (s_vars (s_o s)));
  V_atts : forall w m, In w (s_vars (s_o s)) -> In m (w_atts w) -> legal_name (m_name m) = true }.

Definition new_var (p : string * bytes) : mvar := mk_mvar (fst p) None [new_matt "unit" TChar (snd p)].
Definition with_vars (s : st) (ws : list mvar) : st :=
  mk_st (mk_session (s_mode (s_o s)) (s_flag (s_o s)) (s_changed (s_o s)) (s_gdef (s_o s)) (s_atts (s_o s)) ws) (s_lib s) (s_disk s).
Lemma with_vars_id s : with_vars s (s_vars (s_o s)) = s.
Proof. destruct s as [[m f c g a v] l d]. reflexivity. Qed.
Lemma add_all_ok vs : forall s, NoDup (map w_name (s_vars (s_o s)) ++ map fst vs) -> each add_var vs s = (with_vars s (s_vars (s_o s) ++ map new_var vs), Ok tt).
Proof.
  induction vs as [|p vs IH]; intros s N; cbn [each map]; [rewrite app_nil_r, with_vars_id; reflexivity|].
  assert (X : existsb (fun w => String.eqb (w_name w) (fst p)) (s_vars (s_o s)) = false).
  { destruct (existsb _ _) eqn:E; [|reflexivity]. exfalso. apply existsb_exists in E. destruct E as (w & Hw & E). apply String.eqb_eq in E. cbn [map] in N. apply NoDup_remove_2 in N. apply N. apply in_or_app. left. rewrite <- E. apply in_map. exact Hw. }
  assert (E : add_var p s = (with_vars s (s_vars (s_o s) ++ [new_var p]), Ok tt)) by (unfold add_var; rewrite bind_obj, X; reflexivity).
  rewrite (bind_ok _ _ _ _ _ E), IH.
  - unfold with_vars. pj. rewrite <- app_assoc. reflexivity.
  - unfold with_vars. pj. rewrite map_app, <- app_assoc. exact N.
Qed.

Lemma define_skip n : forall j s, (forall i w, (j <= i < j + n)%nat -> nth_error (s_vars (s_o s)) i = Some w -> w_id w <> None) -> each define_var (seq j n) s = (s, Ok tt).
Proof.
  induction n as [|n IH]; intros j s H; cbn [seq each]; [reflexivity|]. assert (E : define_var j s = (s, Ok tt)).
  { unfold define_var. rewrite bind_obj. destruct (nth_error (s_vars (s_o s)) j) as [w|] eqn:N; [|reflexivity]. assert (X := H j w ltac:(lia) N). destruct (w_id w); [reflexivity|contradiction]. }
  rewrite (bind_ok _ _ _ _ _ E). apply IH. intros i w Hi. apply H. lia.
Qed.
Lemma each_app {A} (f : A -> M unit) a b s : each f (a ++ b) s = (run each f a; each f b) s.
Proof.
  revert s. induction a as [|x a IH]; intros s; cbn [app each]; [reflexivity|]. rewrite bind_assoc. unfold mbind. destruct (f x s) as [s1 [u|e|]]; [|reflexivity..]. exact (IH s1).
Qed.
(** The variables still without id get theirs. *)
Lemma define_rest todo : forall done s l, s_lib s = Some l -> l_rw l = true -> l_def l = true -> s_vars (s_o s) = done ++ todo -> vnames (l_c l) = map w_name done ->
  NoDup (map w_name (done ++ todo)) -> Forall (fun w => w_id w = None /\ legal_name (w_name w) = true) todo ->
  exists s' l' ws, each define_var (seq (List.length done) (List.length todo)) s = (s', Ok tt) /\ s' = mk_st (s_o (with_vars s (done ++ ws))) (Some l') (s_disk s) /\
    l_rw l' = true /\ l_def l' = true /\ vnames (l_c l') = map w_name (done ++ todo) /\ map w_name ws = map w_name todo /\ map w_atts ws = map w_atts todo /\ c_gatts (l_c l') = c_gatts (l_c l).
Proof.
  induction todo as [|w todo IH]; intros done s l L R D Vs N Nd F; cbn [List.length seq each].
  { exists s, l, []. split; [reflexivity|]. rewrite app_nil_r in *. split; [rewrite <- Vs, with_vars_id, <- L; destruct s; reflexivity|]. auto 10. }
  inversion F as [|? ? [W1 W2] F']; subst.
  assert (Nw : nth_error (s_vars (s_o s)) (List.length done) = Some w) by (rewrite Vs, nth_error_app2 by lia; rewrite Nat.sub_diag; reflexivity).
  assert (Df : lib_def_var (w_name w) l = inr (set_lvars l (c_vars (l_c l) ++ [mk_var (w_name w) []]))).
  { unfold lib_def_var. rewrite R, D, W2. cbn [negb]. destruct (existsb _ _) eqn:E; [|reflexivity]. exfalso. apply existsb_exists in E. destruct E as (v & Hv & E). apply String.eqb_eq in E.
    rewrite map_app in Nd. cbn [map] in Nd. apply NoDup_remove_2 in Nd. apply Nd. apply in_or_app. left. rewrite <- N, <- E. apply in_map. exact Hv. }
  set (w' := mk_mvar (w_name w) (Some (List.length (c_vars (l_c l)))) (w_atts w)). set (l1 := set_lvars l (c_vars (l_c l) ++ [mk_var (w_name w) []])).
  assert (Up : upd (s_vars (s_o s)) (List.length done) w' = (done ++ [w']) ++ todo).
  { rewrite Vs, <- app_assoc. clear. induction done as [|a done IH]; cbn; [reflexivity|]. f_equal. exact IH. }
  set (s1 := mk_st (s_o (with_vars s ((done ++ [w']) ++ todo))) (Some l1) (s_disk s)).
  assert (E1 : define_var (List.length done) s = (s1, Ok tt)).
  { unfold define_var. rewrite bind_obj, Nw, W1. rewrite (bind_ok (inquire _) _ s s (List.length (c_vars (l_c l)))) by (unfold inquire; rewrite L; reflexivity).
    rewrite (bind_ok _ _ _ _ _ (check_inr _ _ _ _ L Df)). fold w'. unfold set_vars, upd_obj. pj. rewrite Up. reflexivity. }
  rewrite (bind_ok _ _ _ _ _ E1).
  assert (N1 : vnames (l_c l1) = map w_name (done ++ [w'])) by (unfold vnames, l1; pj; rewrite !map_app; cbn [map v_name]; unfold vnames in N; rewrite N; reflexivity).
  destruct (IH (done ++ [w']) s1 l1) as (s' & l' & ws & E & Es & R' & D' & Vn & Wn & Wa & Cg); auto.
  { rewrite <- app_assoc. rewrite map_app in *. exact Nd. }
  rewrite app_length, Nat.add_1_r in E. exists s', l', (w' :: ws). split; [exact E|]. split; [rewrite Es; unfold s1, with_vars; pj; rewrite <- app_assoc; reflexivity|].
  split; [exact R'|]. split; [exact D'|]. split; [rewrite Vn, !map_app, <- app_assoc; reflexivity|]. cbn [map]. rewrite Wn, Wa. split; [reflexivity|]. split; [reflexivity|exact Cg].
Qed.

Lemma put_att_ok l a b : l_rw l = true -> l_def l = true -> legal_name (a_name b) = true -> exists a', put_att l a b = inr a'.
Proof. intros R D Lg. unfold put_att. rewrite R, D, Lg. cbn [negb]. destruct (find_att _ _); eauto. Qed.
Lemma put_vatt_ok id b l : l_rw l = true -> l_def l = true -> legal_name (a_name b) = true -> (id < List.length (c_vars (l_c l)))%nat ->
  exists l', lib_put_vatt id b l = inr l' /\ l_rw l' = true /\ l_def l' = true /\ vnames (l_c l') = vnames (l_c l).
Proof.
  intros R D Lg Hi. unfold lib_put_vatt. destruct (nth_error (c_vars (l_c l)) id) as [v|] eqn:E; [|apply nth_error_None in E; lia]. destruct (put_att_ok l (v_atts v) b R D Lg) as (a' & P). rewrite P.
  eexists. split; [reflexivity|]. split; [exact R|]. split; [exact D|]. unfold vnames. pj. rewrite map_upd. apply upd_id. rewrite nth_error_map, E. reflexivity.
Qed.
Lemma vatts_ok ws : forall s l, s_lib s = Some l -> l_rw l = true -> l_def l = true ->
  (forall w, In w ws -> exists id, w_id w = Some id /\ (id < List.length (c_vars (l_c l)))%nat /\ forall m, In m (w_atts w) -> legal_name (m_name m) = true) ->
  exists l', each define_vatts ws s = (mk_st (s_o s) (Some l') (s_disk s), Ok tt) /\ l_rw l' = true /\ l_def l' = true /\ vnames (l_c l') = vnames (l_c l).
Proof.
  induction ws as [|w ws IH]; intros s l L R D H; cbn [each].
  { exists l. split; [rewrite <- L; destruct s; reflexivity|auto]. }
  destruct (H w (or_introl eq_refl)) as (id & Wi & Hi & Ha).
  assert (X : exists l', define_vatts w s = (mk_st (s_o s) (Some l') (s_disk s), Ok tt) /\ l_rw l' = true /\ l_def l' = true /\ vnames (l_c l') = vnames (l_c l)).
  { unfold define_vatts. rewrite Wi. clear IH H Wi. revert s l L R D Hi. induction (w_atts w) as [|m ms IHm]; intros s l L R D Hi; cbn [each].
    { exists l. split; [rewrite <- L; destruct s; reflexivity|auto]. }
    destruct (put_vatt_ok id (to_att m) l R D (Ha m (or_introl eq_refl)) Hi) as (l1 & P & R1 & D1 & N1). rewrite (bind_ok _ _ _ _ _ (check_inr _ _ _ _ L P)).
    destruct (IHm (fun m' Hm => Ha m' (or_intror Hm)) (mk_st (s_o s) (Some l1) (s_disk s)) l1 eq_refl R1 D1) as (l2 & E2 & R2 & D2 & N2).
    { apply (f_equal (@List.length string)) in N1. unfold vnames in N1. rewrite !map_length in N1. lia. }
    exists l2. split; [exact E2|]. split; [exact R2|]. split; [exact D2|congruence]. }
  destruct X as (l1 & E1 & R1 & D1 & N1). rewrite (bind_ok _ _ _ _ _ E1).
  assert (Ln : List.length (c_vars (l_c l1)) = List.length (c_vars (l_c l))) by (apply (f_equal (@List.length string)) in N1; unfold vnames in N1; rewrite !map_length in N1; exact N1).
  destruct (IH (mk_st (s_o s) (Some l1) (s_disk s)) l1 eq_refl R1 D1) as (l2 & E2 & R2 & D2 & N2).
  { intros w' Hw. rewrite Ln. apply H. right. exact Hw. }
  exists l2. split; [exact E2|]. split; [exact R2|]. split; [exact D2|congruence].
Qed.

Lemma register_ok vs s l k : I s l k -> V s l -> writes (s_mode (s_o s)) = true ->
  NoDup (map w_name (s_vars (s_o s)) ++ map fst vs) -> Forall (fun p => legal_name (fst p) = true) vs ->
  exists s' l', register_field_collection vs s = (s', Ok tt) /\ V s' l' /\ s_lib s' = Some l' /\ map w_name (s_vars (s_o s')) = map w_name (s_vars (s_o s)) ++ map fst vs.
Proof.
  intros H HV W N Lg.
  assert (Gr := G_register false vs s eq_refl). unfold register_field_collection in *. rewrite (bind_ok _ _ _ _ _ (add_all_ok vs s N)) in *. rewrite bind_obj in *.
  set (s1 := with_vars s (s_vars (s_o s) ++ map new_var vs)) in *. assert (H1 : I s1 l k) by (destruct H; constructor; assumption).
  (* define mode *)
  assert (X : exists s2 l2, (if is_flag (s_flag (s_o s1)) MDefine then ret tt else run check lib_redef; set_flag MDefine) s1 = (s2, Ok tt) /\ s_lib s2 = Some l2 /\ l_rw l2 = true /\ l_def l2 = true /\ l_c l2 = l_c l /\
                            s_vars (s_o s2) = s_vars (s_o s1) /\ s_mode (s_o s2) = s_mode (s_o s)).
  { destruct (s_flag (s_o s1)) eqn:F; cbn [is_flag].
    - exfalso. exact (I_flag _ _ _ H1 F).
    - exists s1, l. split; [reflexivity|]. split; [exact (I_lib _ _ _ H1)|]. split; [exact (I_rw _ _ _ H1)|]. split; [exact (I_defm _ _ _ H1 W F)|auto].
    - rewrite (enter_define s1 l k H1 F). eexists _, _. split; [reflexivity|]. unfold with_flag. pj. split; [reflexivity|]. pj. split; [exact (I_rw _ _ _ H1)|auto]. }
  destruct X as (s2 & l2 & E2 & L2 & R2 & D2 & C2 & V2 & M2). rewrite (bind_ok _ _ _ _ _ E2) in *. rewrite bind_obj in *. cbn zeta in *. rewrite M2, W in *.
  (* variables *)
  assert (Vs : s_vars (s_o s2) = s_vars (s_o s) ++ map new_var vs) by exact V2.
  destruct (define_rest (map new_var vs) (s_vars (s_o s)) s2 l2 L2 R2 D2 Vs) as (s3 & l3 & ws & E3 & Es3 & R3 & D3 & Vn3 & Wn & Wa & _).
  { rewrite C2. exact (V_names _ _ HV). }
  { rewrite map_app, map_map. exact N. }
  { rewrite Forall_map. eapply Forall_impl; [|exact Lg]. intros p Hp. split; [reflexivity|exact Hp]. }
  assert (E : each define_var (seq 0 (List.length (s_vars (s_o s2)))) s2 = (s3, Ok tt)).
  { rewrite Vs, app_length, seq_app, each_app. rewrite (bind_ok _ _ s2 s2 tt); [exact E3|]. apply define_skip. intros i w Hi. rewrite Vs, nth_error_app1 by lia. intros Hw. apply (V_set _ _ HV). exact (nth_error_In _ _ Hw). }
  assert (St3 := fill_set _ _ _ fills_define E).
  rewrite (bind_ok _ _ _ _ _ E) in *. rewrite bind_obj in *.
  assert (Vs3 : s_vars (s_o s3) = s_vars (s_o s) ++ ws) by (rewrite Es3; reflexivity). assert (L3 : s_lib s3 = Some l3) by (rewrite Es3; reflexivity).
  assert (Ok3 : ids_ok s3).
  { assert (Y : G writes false (each define_var (seq 0 (List.length (s_vars (s_o s2)))))) by (apply G_each; intros; apply G_define_var). specialize (Y s2 ltac:(rewrite M2; exact W)). rewrite E in Y. destruct Y as (_ & _ & _ & _ & Y). apply Y.
    intros l0 w i El Hw Hi. rewrite L2 in El. injection El as <-. rewrite Vs in Hw. apply in_app_iff in Hw. destruct Hw as [Hw|Hw]; [rewrite C2; exact (V_ok _ _ HV l w i (I_lib _ _ _ H) Hw Hi)|].
    apply in_map_iff in Hw. destruct Hw as (p & <- & _). discriminate. }
  assert (At3 : forall w m, In w (s_vars (s_o s3)) -> In m (w_atts w) -> legal_name (m_name m) = true).
  { intros w m Hw Hm. rewrite Vs3 in Hw. apply in_app_iff in Hw. destruct Hw as [Hw|Hw]; [exact (V_atts _ _ HV w m Hw Hm)|].
    assert (Y : In (w_atts w) (map w_atts ws)) by (apply in_map; exact Hw). rewrite Wa, map_map in Y. apply in_map_iff in Y. destruct Y as (p & Y & _). rewrite <- Y in Hm. destruct Hm as [<-|[]]. reflexivity. }
  destruct (vatts_ok (s_vars (s_o s3)) s3 l3 L3 R3 D3) as (l4 & E4 & R4 & D4 & N4).
  { intros w Hw. destruct (w_id w) as [id|] eqn:Wi; [|exfalso; exact (St3 w Hw Wi)]. exists id. split; [reflexivity|]. split; [|intros m Hm; exact (At3 w m Hw Hm)].
    assert (Y := Ok3 l3 w id L3 Hw Wi). unfold vnames in Y. rewrite <- (map_length v_name). apply nth_error_Some. congruence. }
  rewrite (bind_ok _ _ _ _ _ E4) in *. set (s4 := mk_st (s_o s3) (Some l4) (s_disk s3)) in *.
  assert (E5 : check lib_enddef s4 = (mk_st (s_o s4) (Some (mk_lib true false (l_c l4))) (s_disk s4), Ok tt)) by (apply check_inr with (l := l4); [reflexivity|unfold lib_enddef; rewrite D4, R4; reflexivity]).
  rewrite (bind_ok _ _ _ _ _ E5) in *. set (s5 := mk_st (s_o s4) (Some (mk_lib true false (l_c l4))) (s_disk s4)) in *. rewrite (bind_ok (set_flag MData) _ s5 (fst (set_flag MData s5)) tt) in * by reflexivity.
  set (s6 := fst (set_flag MData s5)) in *. destruct (changes_lib s6) as [Cl Cr]. destruct (netcdf_file_changes s6) as [s7 r7] eqn:E7. cbn [fst snd] in *. subst r7.
  exists s7, (mk_lib true false (l_c l4)). split; [reflexivity|]. assert (V7 : s_vars (s_o s7) = s_vars (s_o s3)).
  { unfold netcdf_file_changes in E7. rewrite bind_obj in E7. destruct (s_mode (s_o s6)); injection E7 as <-; reflexivity. }
  split; [|split; [rewrite Cl; reflexivity|rewrite V7, Vs3, map_app, Wn, map_map; reflexivity]]. constructor; rewrite ?V7.
  - pj. rewrite N4, Vn3, Vs3, !map_app, Wn. reflexivity.
  - intros w. rewrite V7. apply St3.
  - destruct Gr as (_ & _ & _ & _ & Y). apply Y. exact (V_ok _ _ HV).
  - rewrite Vs3, map_app, Wn, map_map. exact N.
  - exact At3.
Qed.

(** Operations other than registrations leave the variables alone. *)
Lemma quiet_step o s l k s' r : I s l k -> ids_ok s -> op_ok o -> tidy s o -> no_register o -> step o s = (s', r) ->
  s_vars (s_o s') = s_vars (s_o s) /\ exists l', s_lib s' = Some l' /\ c_vars (l_c l') = c_vars (l_c l).
Proof.
  intros H Oi Vo T Nr E. destruct o as [vs|f x ns|ns|n t v|old new t v]; cbn [step no_register] in *; [contradiction|..].
  - unfold write in E. destruct (save_call s l k H) as (s1 & r1 & E1 & (SV1 & SV2 & SV3) & _ & _ & l1 & k1 & H1 & R).
    rewrite (I_lib _ _ _ H), (I_lib _ _ _ H1) in SV3. destruct SV3 as [SV3 _].
    assert (Oi1 : ids_ok s1) by (assert (X := G_define (fun _ => true) false s eq_refl); rewrite E1 in X; destruct X as (_ & _ & _ & _ & X); exact (X Oi)).
    destruct R as [(-> & _)|(-> & _)].
    2:{ rewrite (bind_err _ _ _ _ _ E1) in E. injection E as <- _. split; [congruence|]. exists l1. split; [exact (I_lib _ _ _ H1)|congruence]. }
    rewrite (bind_ok _ _ _ _ _ E1) in E. change (each (fun n : string => do w <- get_variable n; check (lib_put_var (w_id w) f x)) ns) with (each (put_one f x) ns) in E.
    destruct (each (put_one f x) ns s1) as [s2 r2] eqn:E2. destruct (put_all f x ns s1 l1 s2 r2 (I_lib _ _ _ H1) Oi1 E2) as (e & A1 & A2 & A3 & _).
    assert (Y : s_vars (s_o s') = s_vars (s_o s2) /\ s_lib s' = s_lib s2).
    { destruct r2 as [[]|er|]; [rewrite (bind_ok _ _ _ _ _ E2) in E|rewrite (bind_err _ _ _ _ _ E2) in E; injection E as <- _; auto|rewrite (bind_ub _ _ _ _ E2) in E; injection E as <- _; auto].
      unfold netcdf_file_changes in E. rewrite bind_obj in E. destruct (s_mode (s_o s2)); injection E as <- _; auto. }
    destruct Y as [Y1 Y2]. rewrite Y1, Y2, A1, A3. split; [congruence|]. eexists. split; [reflexivity|]. unfold with_data. pj. congruence.
  - destruct (read_same ns s) as [A B]. rewrite E in A, B. cbn [fst] in *. rewrite A, B. split; [reflexivity|]. exists l. split; [exact (I_lib _ _ _ H)|reflexivity].
  - destruct (wga_spec n t v s l k H Vo) as (s1 & r1 & E1 & H1 & _ & R). rewrite E in E1. injection E1 as <- <-. split; [|exists l; split; [exact (I_lib _ _ _ H1)|reflexivity]].
    unfold write_global_attribute, add_attribute in E. rewrite bind_obj in E. destruct (s_gdef (s_o s)); [injection E as <- <-; reflexivity|]. destruct (negb _); [injection E as <- <-; reflexivity|].
    rewrite bind_obj in E. destruct (has_att _ _); injection E as <- <-; reflexivity.
  - assert (T' : new = old \/ legal_name new = true /\ ~ In new (map m_name (s_atts (s_o s)))) by exact T.
    destruct (update_spec s l k old new t v H Vo T') as (s1 & r1 & l1 & E1 & H1 & (SV1 & _ & SV3) & _). rewrite E in E1. injection E1 as <- <-.
    rewrite (I_lib _ _ _ H), (I_lib _ _ _ H1) in SV3. destruct SV3 as [SV3 _]. split; [congruence|]. exists l1. split; [exact (I_lib _ _ _ H1)|congruence].
Qed.
Lemma V_step o s l k s' r : I s l k -> V s l -> op_ok o -> tidy s o -> no_register o -> step o s = (s', r) -> exists l', s_lib s' = Some l' /\ V s' l'.
Proof.
  intros H HV Vo T Nr E. destruct (quiet_step o s l k s' r H (V_ok _ _ HV) Vo T Nr E) as (A & l' & L' & C). exists l'. split; [exact L'|].
  assert (Gr := step_grows _ _ _ _ E). destruct Gr as (_ & _ & _ & _ & Oi). destruct HV as [N St Ok_ Nd At]. constructor; rewrite ?A; auto.
  - unfold vnames in *. rewrite C. exact N.
  - intros w. rewrite A. apply St.
Qed.
(** Runs that register every name once. *)
Record P (s : st) (l : lib) (k : nat) : Prop := mk_P { P_I : I s l k; P_V : V s l; P_legal : all_legal s; P_data : l_def l = false \/ s_vars (s_o s) = [] }.
Lemma NoDup_app_l {A} (a b : list A) : NoDup (a ++ b) -> NoDup a.
Proof. induction a as [|x a IH]; cbn; intros H; [constructor|]. inversion H; subst. constructor; [|auto]. intros X. apply H2. apply in_or_app. auto. Qed.
Lemma P_step o s l k s' r : P s l k -> writes (s_mode (s_o s)) = true -> op_ok o -> tidy s o -> legal_op o ->
  NoDup (map w_name (s_vars (s_o s)) ++ registered [(o, r)]) -> Forall (fun n => legal_name n = true) (registered [(o, r)]) -> step o s = (s', r) ->
  exists l' k', P s' l' k' /\ map w_name (s_vars (s_o s')) = map w_name (s_vars (s_o s)) ++ registered [(o, r)] /\ writes (s_mode (s_o s')) = true.
Proof.
  intros [H HV Lg Dt] W Vo T Lo Nd Ln E. destruct (step_spec o s l k H Vo T) as (s1 & r1 & l1 & k1 & E1 & H1 & M1 & _). rewrite E in E1. injection E1 as <- <-.
  assert (Lg1 := step_legal o s l k s' r H Vo T Lo Lg E). assert (Cr : no_register o \/ exists vs, o = Register vs) by (destruct o; cbn; eauto). destruct Cr as [Nr|(vs & ->)].
  - assert (Rg : registered [(o, r)] = []) by (destruct o; [contradiction|reflexivity..]). rewrite Rg, app_nil_r.
    destruct (quiet_step o s l k s' r H (V_ok _ _ HV) Vo T Nr E) as (A & _). destruct (V_step o s l k s' r H HV Vo T Nr E) as (l' & L' & V').
    assert (l' = l1) by (rewrite (I_lib _ _ _ H1) in L'; congruence). subst l'. exists l1, k1. split; [|split; [congruence|congruence]].
    constructor; [exact H1|exact V'|exact Lg1|]. destruct Dt as [Dt|Dt]; [left|right; congruence].
    destruct (J_step o s l k s' r (mk_J _ _ _ H Lg (V_set _ _ HV) (V_ok _ _ HV) Dt) Vo T Lo Nr E) as (l2 & k2 & H2 & _). assert (X := I_lib _ _ _ (J_I _ _ _ H2)). rewrite (I_lib _ _ _ H1) in X. injection X as ->. exact (J_def _ _ _ H2).
  - cbn [registered flat_map fst] in *. rewrite app_nil_r in *. cbn [step] in E.
    assert (Ln' : Forall (fun p => legal_name (fst p) = true) vs) by (rewrite Forall_map in Ln; exact Ln).
    destruct (register_ok vs s l k H HV W Nd Ln') as (s2 & l2 & E2 & V2 & L2 & N2). rewrite E in E2. injection E2 as <- ->.
    assert (l2 = l1) by (rewrite (I_lib _ _ _ H1) in L2; congruence). subst l2. exists l1, k1. split; [|split; [exact N2|congruence]]. constructor; [exact H1|exact V2|exact Lg1|left].
    apply (I_data _ _ _ H1). apply (register_done vs s s' E). exact W.
Qed.
Lemma registered_cons o r h : registered ((o, r) :: h) = registered [(o, r)] ++ registered h.
Proof. unfold registered. cbn [flat_map]. rewrite app_nil_r. reflexivity. Qed.
Lemma P_runs s h s' : tidy_runs s h s' -> Forall (fun p => legal_op (fst p)) h -> forall l k, P s l k -> writes (s_mode (s_o s)) = true ->
  NoDup (map w_name (s_vars (s_o s)) ++ registered h) -> Forall (fun n => legal_name n = true) (registered h) ->
  exists l' k', P s' l' k' /\ map w_name (s_vars (s_o s')) = map w_name (s_vars (s_o s)) ++ registered h /\ writes (s_mode (s_o s')) = true.
Proof.
  induction 1 as [s|s o s1 r h s2 Ho Ht E Hr IH]; intros F l k H W Nd Ln; [exists l, k; cbn; rewrite app_nil_r; auto|]. inversion F as [|? ? F1 F']; subst. cbn [fst] in *.
  rewrite registered_cons in *. apply Forall_app in Ln. destruct Ln as [Ln1 Ln2]. rewrite app_assoc in Nd.
  destruct (P_step o s l k s1 r H W Ho Ht F1 (NoDup_app_l _ _ Nd) Ln1 E) as (l1 & k1 & H1 & N1 & W1). rewrite <- N1 in Nd. destruct (IH F' l1 k1 H1 W1 Nd Ln2) as (l2 & k2 & H2 & N2 & W2).
  exists l2, k2. split; [exact H2|]. split; [rewrite N2, N1, app_assoc; reflexivity|exact W2].
Qed.
Lemma opened_P m disk s : writes m = true -> opened m disk s -> exists l, P s l 0 /\ s_vars (s_o s) = [] /\ l_c l = nothing /\ s_mode (s_o s) = m /\ s_lib s = Some l.
Proof.
  intros W O. destruct (opened_new m disk s W O) as (l & H & Mo & Lg). assert (L := I_lib _ _ _ H). exists l.
  assert (X : s_vars (s_o s) = [] /\ s_lib s = Some (mk_lib true true nothing)).
  { destruct O as (info & hash & descr & dirty & date & time & d & Hc & E). unfold open in E. destruct m; cbn in W; try discriminate; [destruct disk; [discriminate|]|]; injection E as <- _; auto. }
  destruct X as [X1 X2]. rewrite L in X2. injection X2 as ->. split; [|auto]. constructor; [exact H| |exact Lg|right; exact X1].
  constructor; rewrite ?X1; [reflexivity|intros w; rewrite X1; intros []|intros l0 w i _; rewrite X1; intros []|constructor|intros w m0 []].
Qed.
Lemma P_write f x ns s l k : P s l k -> incl ns (map w_name (s_vars (s_o s))) -> exists s', step (Write f x ns) s = (s', Ok tt).
Proof.
  intros [H HV Lg Dt] Hn. cbn [step]. destruct Dt as [Dt|Dt]; [exact (write_ok f x ns s l k (mk_J _ _ _ H Lg (V_set _ _ HV) (V_ok _ _ HV) Dt) Hn)|].
  rewrite Dt in Hn. destruct ns as [|n ns]; [|destruct (Hn n (or_introl eq_refl))]. unfold write. destruct (save_call s l k H) as (s1 & r1 & E1 & _ & _ & _ & l1 & k1 & H1 & R).
  destruct R as [(-> & _)|(-> & W & m & Hm & Lm)]; [|exfalso; exact (legal_not s m Lg Hm Lm)]. rewrite (bind_ok _ _ _ _ _ E1). cbn [each]. rewrite (bind_ok _ _ s1 s1 tt) by reflexivity.
  destruct (changes_lib s1) as [_ C]. destruct (netcdf_file_changes s1) as [s3 r3]. cbn [snd] in C. subst r3. eauto.
Qed.
