(** Proofs about registering any number of variables in any number of calls. *)
From Coq Require Import String.
From Verif Require Import Base AttModel AttSpec AttAgainSpec LayoutProofs AttProofs AttProofs2 AttProofs8 AttProofs11 AttProofs12 AttAgainProofs.
Local Open Scope string_scope.
Local Open Scope Z_scope.
Local Open Scope list_scope.

Definition item_new (d : item) : mvar := new_var (v_name (it_var d), it_unit d).
Definition item_found (d : item) : mvar := mk_mvar (v_name (it_var d)) (Some (it_at d)) [new_matt "unit" TChar (it_unit d)].
Definition item_held (d : item) : mvar := held_var (it_var d) (it_at d) (it_unit d) (it_extra d).
Definition item_nan (d : item) : bool := existsb nan_att (it_extra d).

Lemma mid_nth {A} (pre : list A) w post : nth_error (pre ++ w :: post) (List.length pre) = Some w.
Proof. induction pre as [|a pre IH]; [reflexivity|exact IH]. Qed.
Lemma mid_upd {A} (pre : list A) w w' post : upd (pre ++ w :: post) (List.length pre) w' = pre ++ w' :: post.
Proof. induction pre as [|a pre IH]; cbn; [reflexivity|now rewrite IH]. Qed.
Lemma snoc_len {A} (pre : list A) w : List.length (pre ++ [w]) = Datatypes.S (List.length pre).
Proof. rewrite app_length. cbn. lia. Qed.

Section Loops.
Context (s : st) (l : lib) (L : s_lib s = Some l) (Nd : NoDup (map v_name (c_vars (l_c l)))).
Lemma ids_held ds : forall pre post, each register_var_id (seq (List.length pre) (List.length ds)) (with_vars s (pre ++ map item_held ds ++ post)) = (with_vars s (pre ++ map item_held ds ++ post), Ok tt).
Proof using.
  clear L Nd l. induction ds as [|d ds IH]; intros pre post; cbn [List.length seq each map app]; [reflexivity|].
  rewrite (bind_ok _ _ _ _ _ (id_set _ _ (item_held d) (it_at d) s (mid_nth pre _ _) eq_refl)).
  specialize (IH (pre ++ [item_held d]) post). rewrite snoc_len, <- app_assoc in IH. exact IH.
Qed.
Lemma ids_new ds : Forall (in_file (l_c l)) ds -> forall pre, each register_var_id (seq (List.length pre) (List.length ds)) (with_vars s (pre ++ map item_new ds)) = (with_vars s (pre ++ map item_found ds), Ok tt).
Proof using L Nd.
  induction 1 as [|d ds [Nv D] F IH]; intros pre; cbn [List.length seq each map]; [reflexivity|].
  assert (P : position (fun w => String.eqb (v_name w) (w_name (item_new d))) (c_vars (l_c l)) = Some (it_at d)) by (apply position_at; [exact Nd|rewrite nth_error_map, Nv; reflexivity]).
  rewrite (bind_ok _ _ _ _ _ (id_new _ _ (item_new d) (it_at d) s l L (mid_nth pre _ _) eq_refl P)). rewrite mid_upd.
  specialize (IH (pre ++ [item_found d])). rewrite snoc_len, <- !app_assoc in IH. exact IH.
Qed.
Lemma vatts_held ds : Forall (in_file (l_c l)) ds -> forall pre post, each register_vatts (seq (List.length pre) (List.length ds)) (with_vars s (pre ++ map item_held ds ++ post)) =
  (with_vars s (pre ++ map item_held ds ++ post), if existsb item_nan ds then Err FileIOError else Ok tt).
Proof using L.
  induction 1 as [|d ds [Nv D] F IH]; intros pre post; cbn [List.length seq each map app existsb]; [reflexivity|].
  destruct (second_reading _ _ _ D) as [R1 R2].
  assert (E := vatts_any _ _ (item_held d) (it_at d) _ s l _ _ L (mid_nth pre (item_held d) (map item_held ds ++ post)) eq_refl Nv R1 R2). fold (item_nan d) in E.
  destruct (item_nan d); cbn [orb]; [exact (bind_err _ _ _ _ _ E)|]. cbv iota beta in E. rewrite mid_upd in E. rewrite (bind_ok _ _ _ _ _ E).
  specialize (IH (pre ++ [item_held d]) post). rewrite snoc_len, <- app_assoc in IH. exact IH.
Qed.
Lemma vatts_new ds : Forall (in_file (l_c l)) ds -> forall pre, each register_vatts (seq (List.length pre) (List.length ds)) (with_vars s (pre ++ map item_found ds)) = (with_vars s (pre ++ map item_held ds), Ok tt).
Proof using L.
  induction 1 as [|d ds [Nv D] F IH]; intros pre; cbn [List.length seq each map]; [reflexivity|].
  destruct (first_reading _ _ _ D) as (lst & R1 & R2).
  assert (E := vatts_any _ _ (item_found d) (it_at d) _ s l _ _ L (mid_nth pre (item_found d) (map item_found ds)) eq_refl Nv R1 R2). cbv iota beta in E. rewrite mid_upd in E. rewrite (bind_ok _ _ _ _ _ E).
  specialize (IH (pre ++ [item_held d])). rewrite snoc_len, <- !app_assoc in IH. exact IH.
Qed.
End Loops.

Lemma apart_left {A} (a b : list A) : NoDup (a ++ b) -> NoDup a.
Proof. induction a as [|x a IH]; intros H; [constructor|]. inversion H as [|? ? Hx H']; subst. constructor; [|exact (IH H')]. intros X. apply Hx. apply in_or_app. auto. Qed.
Lemma names_apart c ds : NoDup (map v_name (c_vars c)) -> Forall (in_file c) ds -> NoDup (map it_at ds) -> NoDup (map (fun d => v_name (it_var d)) ds).
Proof.
  intros Nd. induction ds as [|d ds IH]; intros F N; cbn [map] in *; [constructor|]. inversion F as [|? ? [Nv _] F']; subst. inversion N as [|? ? Hn N']; subst. constructor; [|exact (IH F' N')].
  intros H. apply Hn. apply in_map_iff in H. destruct H as (e & En & He). apply in_map_iff. exists e. split; [|exact He]. rewrite Forall_forall in F'. destruct (F' e He) as [Ne _].
  assert (P1 : position (fun w => String.eqb (v_name w) (v_name (it_var d))) (c_vars c) = Some (it_at d)) by (apply position_at; [exact Nd|rewrite nth_error_map, Nv; reflexivity]).
  assert (P2 : position (fun w => String.eqb (v_name w) (v_name (it_var d))) (c_vars c) = Some (it_at e)) by (apply position_at; [exact Nd|rewrite nth_error_map, Ne; cbn; congruence]). congruence.
Qed.
Lemma enough c ds : Forall (in_file c) ds -> NoDup (map it_at ds) -> (List.length ds <= List.length (c_vars c))%nat.
Proof.
  intros F N. rewrite <- (map_length it_at ds), <- (seq_length (List.length (c_vars c)) 0). apply NoDup_incl_length; [exact N|]. intros i Hi. apply in_map_iff in Hi. destruct Hi as (d & <- & Hd).
  rewrite Forall_forall in F. destruct (F d Hd) as [Nv _]. apply in_seq. split; [lia|]. apply nth_error_Some. congruence.
Qed.
Lemma register_next m c s ds ds' : m = ORead \/ m = OAppend -> opened m (Some c) s -> NoDup (map v_name (c_vars c)) -> Forall (in_file c) (ds ++ ds') -> NoDup (map it_at (ds ++ ds')) ->
  exists s', step (register_items ds') (with_vars s (map item_held ds)) = (s', if existsb item_nan ds then Err FileIOError else Ok tt) /\
  (existsb item_nan ds = false -> s' = with_vars s (map item_held (ds ++ ds'))).
Proof.
  intros Hm O Nd F N. destruct (open_keeps_atts m c s Hm O) as (L & Vs & Fl & Mo). assert (Ap := names_apart c _ Nd F N). assert (En := enough c _ F N). apply Forall_app in F. destruct F as [F F'].
  unfold register_items. rewrite (register_loops _ (with_vars s (map item_held ds)) _ L Fl); [|change (writes (s_mode (s_o s)) = false); rewrite Mo; destruct Hm as [-> | ->]; reflexivity| |].
  2:{ change (s_vars (s_o (with_vars s (map item_held ds)))) with (map item_held ds). rewrite !map_map. rewrite map_app in Ap. exact Ap. }
  2:{ change (s_vars (s_o (with_vars s (map item_held ds)))) with (map item_held ds). rewrite !map_length. rewrite app_length in En. exact En. }
  change (s_vars (s_o (with_vars s (map item_held ds)))) with (map item_held ds). rewrite with_with, map_map. change (map (fun x => new_var (v_name (it_var x), it_unit x)) ds') with (map item_new ds').
  rewrite app_length, !map_length, seq_app, Nat.add_0_l.
  assert (A1 := ids_held s ds [] (map item_new ds')). cbn [app List.length] in A1.
  assert (A2 := ids_new s _ L Nd ds' F' (map item_held ds)). rewrite map_length in A2.
  assert (A3 := vatts_held s _ L ds F [] (map item_found ds')). cbn [app List.length] in A3.
  assert (A4 := vatts_new s _ L ds' F' (map item_held ds)). rewrite map_length in A4.
  assert (B1 : each register_var_id (seq 0 (List.length ds) ++ seq (List.length ds) (List.length ds')) (with_vars s (map item_held ds ++ map item_new ds')) = (with_vars s (map item_held ds ++ map item_found ds'), Ok tt)) by (rewrite each_app, (bind_ok _ _ _ _ _ A1); exact A2).
  rewrite (bind_ok _ _ _ _ _ B1), each_app. destruct (existsb item_nan ds).
  - rewrite (bind_err _ _ _ _ _ A3). eexists. split; [reflexivity|discriminate].
  - rewrite (bind_ok _ _ _ _ _ A3), A4, map_app. eexists. split; [reflexivity|reflexivity].
Qed.
Lemma item_nan_iff c ds : Forall (in_file c) ds -> existsb item_nan ds = true <-> nan_among ds.
Proof.
  intros F. unfold nan_among. rewrite existsb_exists, Exists_exists. rewrite Forall_forall in F.
  split; intros (d & Hd & X); exists d; (split; [exact Hd|]); destruct (F d Hd) as [_ D]; apply (nan_exists _ _ _ D); exact X.
Qed.
Lemma register_calls m c s dss : m = ORead \/ m = OAppend -> opened m (Some c) s -> NoDup (map v_name (c_vars c)) -> forall ds, Forall (in_file c) (ds ++ concat dss) -> NoDup (map it_at (ds ++ concat dss)) ->
  (~ nan_among (ds ++ concat dss) -> runs (with_vars s (map item_held ds)) (history dss) (with_vars s (map item_held (ds ++ concat dss)))) /\
  forall s', runs (with_vars s (map item_held ds)) (history dss) s' -> s' = with_vars s (map item_held (ds ++ concat dss)).
Proof.
  intros Hm O Nd. induction dss as [|d dss IH]; intros ds F N; cbn [concat history map] in *.
  - rewrite app_nil_r. split; [constructor|]. intros s' R. inversion R. reflexivity.
  - rewrite app_assoc in *. assert (F1 : Forall (in_file c) (ds ++ d)) by (apply Forall_app in F; apply F).
    assert (N1 : NoDup (map it_at (ds ++ d))) by (rewrite map_app in N; exact (apart_left _ _ N)).
    destruct (register_next m c s ds d Hm O Nd F1 N1) as (s1 & E & X). destruct (IH (ds ++ d) F N) as [I1 I2]. split.
    + intros Hn. assert (Z : existsb item_nan ds = false).
      { destruct (existsb item_nan ds) eqn:Y; [|reflexivity]. exfalso. apply Hn. apply (item_nan_iff c) in Y; [|apply Forall_app in F1; apply F1]. unfold nan_among in *. rewrite <- app_assoc. apply Exists_app. auto. }
      rewrite Z in E. rewrite (X Z) in E. econstructor; [exact E|]. exact (I1 Hn).
    + intros s' R. inversion R as [|? ? s2 ? ? ? E2 R2]; subst. rewrite E in E2. destruct (existsb item_nan ds); [discriminate|]. injection E2 as <-. rewrite (X eq_refl) in R2. exact (I2 s' R2).
Qed.
