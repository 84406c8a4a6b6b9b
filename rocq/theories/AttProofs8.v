(** Proofs about attributes and modes of files: the values in the file. *)
From Coq Require Import String.
From Verif Require Import Base AttModel AttSpec LayoutProofs AttProofs AttProofs2 AttProofs3 AttProofs4 AttProofs5 AttProofs6 AttProofs7.
Local Open Scope Z_scope.
Local Open Scope list_scope.

Lemma position_at vs i n : NoDup (map v_name vs) -> nth_error (map v_name vs) i = Some n -> position (fun v => String.eqb (v_name v) n) vs = Some i.
Proof.
  revert i. induction vs as [|v vs IH]; intros [|i] N E; cbn in *; try discriminate; inversion N as [|? ? Hn N']; subst.
  - injection E as ->. now rewrite String.eqb_refl.
  - destruct (String.eqb_spec (v_name v) n) as [X|X]; [exfalso; apply Hn; rewrite X; exact (nth_error_In _ _ E)|]. now rewrite (IH i N' E).
Qed.
Lemma position_here vs i n : position (fun v => String.eqb (v_name v) n) vs = Some i -> nth_error (map v_name vs) i = Some n.
Proof. intros P. apply position_some in P. destruct P as (v & E & X). apply String.eqb_eq in X. rewrite nth_error_map, E. cbn. congruence. Qed.
Definition lastv (d : list (nat * Z * Z)) (i : nat) (f : Z) : option Z :=
  match find (fun e => (fst (fst e) =? i)%nat && (snd (fst e) =? f)) (rev d) with Some e => Some (snd e) | None => None end.
Lemma find_none {A} (p : A -> bool) l : (forall a, In a l -> p a = false) -> find p l = None.
Proof. intros H. induction l as [|a l IH]; cbn; [reflexivity|]. rewrite (H a (or_introl eq_refl)). apply IH. intros b Hb. apply H. right. exact Hb. Qed.
Lemma find_app {A} (p : A -> bool) l l' : find p (l ++ l') = match find p l with Some a => Some a | None => find p l' end.
Proof. induction l as [|a l IH]; cbn; [reflexivity|]. destruct (p a); [reflexivity|exact IH]. Qed.
Lemma lastv_none d i f : Forall (fun e => fst (fst e) <> i \/ snd (fst e) <> f) d -> lastv d i f = None.
Proof.
  intros H. unfold lastv. rewrite find_none; [reflexivity|]. intros e He. apply in_rev in He. rewrite Forall_forall in H. specialize (H e He).
  destruct (Nat.eqb_spec (fst (fst e)) i); [|reflexivity]. destruct (Z.eqb_spec (snd (fst e)) f); [|reflexivity]. tauto.
Qed.
Lemma lastv_app d e i f : lastv (d ++ e) i f = match lastv e i f with Some x => Some x | None => lastv d i f end.
Proof. unfold lastv. rewrite rev_app_distr, find_app. destruct (find _ (rev e)); reflexivity. Qed.
Lemma lastv_some e i f x : (forall t, In t e -> snd t = x) -> In (i, f, x) e -> lastv e i f = Some x.
Proof.
  intros H Hi. unfold lastv. destruct (find _ (rev e)) as [t|] eqn:F.
  - apply find_some in F. destruct F as [F _]. apply in_rev in F. now rewrite (H t F).
  - exfalso. apply in_rev in Hi. assert (Y := List.find_none _ _ F _ Hi). cbn in Y. rewrite Nat.eqb_refl, Z.eqb_refl in Y. discriminate.
Qed.
Lemma held_def c n f : held c n f = match position (fun v => String.eqb (v_name v) n) (c_vars c) with None => None | Some i => lastv (c_data c) i f end.
Proof. reflexivity. Qed.

(** More variables. *)
Lemma held_more c c' ns n f : sound c -> sound c' -> vnames c' = vnames c ++ ns -> c_data c' = c_data c -> held c' n f = held c n f.
Proof.
  intros [N D] [N' D'] V E. rewrite !held_def, E. destruct (position (fun v => String.eqb (v_name v) n) (c_vars c)) as [i|] eqn:P.
  - apply position_here in P. rewrite (position_at (c_vars c') i n N'); [reflexivity|]. change (nth_error (vnames c') i = Some n). rewrite V. apply nth_prefix. exact P.
  - destruct (position (fun v => String.eqb (v_name v) n) (c_vars c')) as [i|] eqn:P'; [|reflexivity]. apply lastv_none. eapply Forall_impl; [|exact D]. cbn. intros e He. left. intros X. subst i.
    apply position_here in P'. change (nth_error (vnames c') (fst (fst e)) = Some n) in P'. rewrite V, nth_error_app1 in P' by (unfold vnames; rewrite map_length; exact He).
    unfold vnames in P'. rewrite nth_error_map in P'. destruct (nth_error (c_vars c) (fst (fst e))) as [v|] eqn:Ev; [|discriminate]. injection P' as P'.
    assert (Y := position_none _ _ P v (nth_error_In _ _ Ev)). cbn in Y. rewrite P', String.eqb_refl in Y. discriminate.
Qed.
(** More values. *)
Definition entries (c : content) (f x : Z) (ns : list string) (e : list (nat * Z * Z)) : Prop :=
  Forall (fun t => snd (fst t) = f /\ snd t = x /\ exists n, In n ns /\ nth_error (vnames c) (fst (fst t)) = Some n) e.
Lemma held_others c c' g x ns e n f : sound c -> c_vars c' = c_vars c -> c_data c' = c_data c ++ e -> entries c g x ns e -> (g =? f) && existsb (String.eqb n) ns = false -> held c' n f = held c n f.
Proof.
  intros [N D] V E F T. rewrite !held_def, V, E. destruct (position _ _) as [i|] eqn:P; [|reflexivity]. rewrite lastv_app, (lastv_none e); [reflexivity|].
  eapply Forall_impl; [|exact F]. cbn. intros t (X1 & X2 & m & Hm & X3). destruct (Nat.eq_dec (fst (fst t)) i) as [Y|Y]; [right|left; exact Y]. intros Z. subst i. apply position_here in P.
  unfold vnames in X3. rewrite P in X3. injection X3 as <-. rewrite <- X1, Z, Z.eqb_refl in T. cbn [andb] in T.
  assert (W : existsb (String.eqb n) ns = true) by (apply existsb_exists; exists n; split; [exact Hm|apply String.eqb_refl]). congruence.
Qed.
Lemma held_this c c' g x ns e n : sound c -> c_vars c' = c_vars c -> c_data c' = c_data c ++ e -> entries c g x ns e ->
  (exists i, nth_error (vnames c) i = Some n /\ In (i, g, x) e) -> held c' n g = Some x.
Proof.
  intros [N D] V E F (i & Hi & He). rewrite held_def, V, E, (position_at (c_vars c) i n N Hi), lastv_app, (lastv_some e i g x); [reflexivity| |exact He].
  intros t Ht. unfold entries in F. rewrite Forall_forall in F. apply (F t Ht).
Qed.

Definition put_one (f x : Z) (n : string) : M unit := do w <- get_variable n; check (lib_put_var (w_id w) f x).
Definition with_data (l : lib) (e : list (nat * Z * Z)) : lib :=
  mk_lib (l_rw l) (l_def l) (mk_content (c_gatts (l_c l)) (c_vars (l_c l)) (c_data (l_c l) ++ e)).
Lemma with_data_nil l : with_data l [] = l.
Proof. unfold with_data. rewrite app_nil_r. destruct l as [r d [g v da]]. reflexivity. Qed.
Lemma put_all f x ns : forall s l s' r, s_lib s = Some l -> ids_ok s -> each (put_one f x) ns s = (s', r) ->
  exists e, s_o s' = s_o s /\ s_disk s' = s_disk s /\ s_lib s' = Some (with_data l e) /\ entries (l_c l) f x ns e /\
    (r = Ok tt -> forall n, In n ns -> exists i, nth_error (vnames (l_c l)) i = Some n /\ In (i, f, x) e).
Proof.
  induction ns as [|n ns IH]; intros s l s' r L Hi E; cbn [each] in E.
  { injection E as <- <-. exists []. rewrite with_data_nil. split; [reflexivity|]. split; [reflexivity|]. split; [exact L|]. split; [constructor|]. intros _ n []. }
  unfold put_one at 1 in E. rewrite bind_assoc in E. unfold get_variable in E. rewrite bind_assoc, bind_obj in E.
  destruct (find (fun w => String.eqb (w_name w) n) (s_vars (s_o s))) as [w|] eqn:Fw.
  2:{ cbn in E. injection E as <- <-. exists []. rewrite with_data_nil. split; [reflexivity|]. split; [reflexivity|]. split; [exact L|]. split; [constructor|]. discriminate. }
  rewrite (bind_ok _ _ s s w) in E by reflexivity. apply find_some in Fw. destruct Fw as [Hw Nw]. apply String.eqb_eq in Nw.
  destruct (lib_put_var (w_id w) f x l) as [e|l1] eqn:P.
  { rewrite (bind_err _ _ _ _ _ (check_inl _ _ _ _ L P)) in E. injection E as <- <-. exists []. rewrite with_data_nil. split; [reflexivity|]. split; [reflexivity|]. split; [exact L|]. split; [constructor|]. discriminate. }
  rewrite (bind_ok _ _ _ _ _ (check_inr _ _ _ _ L P)) in E. unfold lib_put_var in P. destruct (negb (l_rw l)); [discriminate|]. destruct (l_def l) eqn:D; [discriminate|].
  destruct (w_id w) as [i|] eqn:Wi; [|discriminate]. destruct (_ <? _)%nat; [|discriminate]. injection P as <-.
  assert (Hn : nth_error (vnames (l_c l)) i = Some n) by (rewrite <- Nw; exact (Hi l w i L Hw Wi)).
  assert (Hi2 : ids_ok (mk_st (s_o s) (Some (mk_lib (l_rw l) false (mk_content (c_gatts (l_c l)) (c_vars (l_c l)) (c_data (l_c l) ++ [(i, f, x)])))) (s_disk s))).
  { intros l0 w0 j El Hw0 Hj. cbn [s_lib s_o] in *. injection El as <-. exact (Hi l w0 j L Hw0 Hj). }
  eapply IH in E; [|reflexivity|exact Hi2]. destruct E as (e & A1 & A2 & A3 & A4 & A5).
  exists ((i, f, x) :: e). split; [exact A1|]. split; [exact A2|]. split; [rewrite A3; unfold with_data; pj; rewrite D, <- app_assoc; reflexivity|]. split.
  - constructor; [cbn; split; [reflexivity|]; split; [reflexivity|]; exists n; auto|]. eapply Forall_impl; [|exact A4]. cbn. intros t (X1 & X2 & m & Hm & X3). split; [exact X1|]. split; [exact X2|]. exists m. auto.
  - intros -> m [<-|Hm]; [exists i; cbn; auto|]. destruct (A5 eq_refl m Hm) as (j & Hj & Ej). exists j. split; [exact Hj|right; exact Ej].
Qed.

Lemma grows_at d s s' l : grows d s s' -> s_lib s = Some l -> exists l', s_lib s' = Some l' /\ lgrow d (s_mode (s_o s)) l l'.
Proof. intros (_ & _ & X & _) L. rewrite L in X. destruct (s_lib s') as [l'|]; [|contradiction]. eauto. Qed.
Lemma changes_lib s : s_lib (fst (netcdf_file_changes s)) = s_lib s /\ snd (netcdf_file_changes s) = Ok tt.
Proof. unfold netcdf_file_changes. rewrite bind_obj. destruct (s_mode (s_o s)); split; reflexivity. Qed.

Lemma write_held g x ns s s' r l : step (Write g x ns) s = (s', r) -> s_lib s = Some l -> ids_ok s -> sound (l_c l) ->
  exists l', s_lib s' = Some l' /\ sound (l_c l') /\ ids_ok s' /\
    (forall n f, (g =? f) && existsb (String.eqb n) ns = false -> held (l_c l') n f = held (l_c l) n f) /\
    (forall n, In n ns -> r = Ok tt -> held (l_c l') n g = Some x).
Proof.
  cbn [step]. intros E L Hi Sd. assert (Gr := G_write g x ns s eq_refl). rewrite E in Gr. cbn [fst] in Gr. destruct (grows_at _ _ _ _ Gr L) as (l' & L' & Lg).
  assert (Sd' : sound (l_c l')) by (destruct Lg as (_ & _ & _ & _ & _ & X); exact (X Sd)). assert (Hi' : ids_ok s') by (destruct Gr as (_ & _ & _ & _ & X); exact (X Hi)).
  exists l'. split; [exact L'|]. split; [exact Sd'|]. split; [exact Hi'|].
  unfold write in E. assert (X := G_define (fun _ => true) false s eq_refl). destruct (define_global_attributes_save_call s) as [s1 r1] eqn:E1. cbn [fst] in X.
  destruct (grows_at _ _ _ _ X L) as (l1 & L1 & (_ & _ & _ & (n1 & V1) & D1 & S1)).
  assert (Hm : forall n f, held (l_c l1) n f = held (l_c l) n f) by (intros n f; exact (held_more _ _ _ n f Sd (S1 Sd) V1 D1)).
  destruct r1 as [[]|e|].
  2:{ rewrite (bind_err _ _ _ _ _ E1) in E. injection E as <- <-. rewrite L1 in L'. injection L' as <-. split; [auto|discriminate]. }
  2:{ rewrite (bind_ub _ _ _ _ E1) in E. injection E as <- <-. rewrite L1 in L'. injection L' as <-. split; [auto|discriminate]. }
  rewrite (bind_ok _ _ _ _ _ E1) in E. fold (put_one g x) in E. assert (Hi1 : ids_ok s1) by (destruct X as (_ & _ & _ & _ & X); exact (X Hi)).
  change (each (fun n : string => do w <- get_variable n; check (lib_put_var (w_id w) g x)) ns) with (each (put_one g x) ns) in E.
  destruct (each (put_one g x) ns s1) as [s2 r2] eqn:E2. destruct (put_all g x ns s1 l1 s2 r2 L1 Hi1 E2) as (e & A1 & A2 & A3 & A4 & A5).
  assert (C : s_lib s' = s_lib s2 /\ (r = Ok tt -> r2 = Ok tt)).
  { destruct r2 as [[]|e2|].
    - rewrite (bind_ok _ _ _ _ _ E2) in E. destruct (changes_lib s2) as [C1 _]. rewrite E in C1. cbn [fst] in C1. auto.
    - rewrite (bind_err _ _ _ _ _ E2) in E. injection E as <- <-. split; [reflexivity|discriminate].
    - rewrite (bind_ub _ _ _ _ E2) in E. injection E as <- <-. split; [reflexivity|discriminate]. }
  destruct C as [C1 C2]. rewrite C1, A3 in L'. injection L' as <-. split.
  - intros n f T. rewrite <- Hm. eapply held_others; [exact (S1 Sd)| | |exact A4|exact T]; reflexivity.
  - intros n Hn ->. eapply held_this; [exact (S1 Sd)| | |exact A4|exact (A5 (C2 eq_refl) n Hn)]; reflexivity.
Qed.

Lemma step_held o s s' r l : step o s = (s', r) -> s_lib s = Some l -> ids_ok s -> sound (l_c l) ->
  exists l', s_lib s' = Some l' /\ sound (l_c l') /\ ids_ok s' /\
    forall n f, (r = Ok tt \/ targets o n f = false) -> held (l_c l') n f = latest [(o, r)] n f (held (l_c l) n f).
Proof.
  intros E L Hi Sd. assert (Cw : is_write o = false \/ exists g x ns, o = Write g x ns) by (destruct o; cbn; eauto). destruct Cw as [Nw|(g & x & ns & ->)].
  - assert (X := G_step o s eq_refl). rewrite E, Nw in X. cbn [fst] in X. destruct (grows_at _ _ _ _ X L) as (l1 & L1 & (_ & _ & _ & (n1 & V1) & D1 & S1)).
    exists l1. split; [exact L1|]. split; [exact (S1 Sd)|]. split; [destruct X as (_ & _ & _ & _ & X); exact (X Hi)|]. intros n f _.
    rewrite (held_more _ _ _ n f Sd (S1 Sd) V1 D1). destruct o; cbn in *; try discriminate; destruct r; reflexivity.
  - destruct (write_held g x ns s s' r l E L Hi Sd) as (l' & L' & Sd' & Hi' & Ho & Ht). exists l'. split; [exact L'|]. split; [exact Sd'|]. split; [exact Hi'|].
    intros n f C. cbn [latest targets] in *. destruct ((g =? f) && existsb (String.eqb n) ns) eqn:T.
    + destruct C as [->|C]; [|discriminate]. apply andb_true_iff in T. destruct T as [T1 T2]. apply Z.eqb_eq in T1. subst g. apply existsb_exists in T2. destruct T2 as (m & Hm & T2). apply String.eqb_eq in T2. subst m.
      apply Ht; auto.
    + rewrite Ho by exact T. destruct r; reflexivity.
Qed.
Lemma latest_app o r t n f d : latest ((o, r) :: t) n f d = latest t n f (latest [(o, r)] n f d).
Proof. destruct o, r; reflexivity. Qed.
Lemma runs_held s h s' : runs s h s' -> forall l n f, s_lib s = Some l -> ids_ok s -> sound (l_c l) -> undisturbed h n f ->
  exists l', s_lib s' = Some l' /\ sound (l_c l') /\ held (l_c l') n f = latest h n f (held (l_c l) n f).
Proof.
  induction 1 as [s|s o s1 r h s2 E _ IH]; intros l n f L Hi Sd U.
  - exists l. auto.
  - inversion U as [|? ? U1 U2]; subst. destruct (step_held o s s1 r l E L Hi Sd) as (l1 & L1 & Sd1 & Hi1 & H1). destruct (IH l1 n f L1 Hi1 Sd1 U2) as (l2 & L2 & Sd2 & H2).
    exists l2. split; [exact L2|]. split; [exact Sd2|]. rewrite H2, latest_app, H1 by exact U1. reflexivity.
Qed.
Lemma close_held date time s s' l : close date time s = (s', Ok tt) -> s_lib s = Some l -> l_rw l = true -> sound (l_c l) ->
  exists c, s_disk s' = Some c /\ sound c /\ forall n f, held c n f = held (l_c l) n f.
Proof.
  intros E L R Sd. destruct (close_grows _ _ _ _ E) as (s1 & l1 & Gr & L1 & _ & D). destruct (grows_at _ _ _ _ Gr L) as (l1' & L1' & (R1 & _ & _ & (n1 & V1) & D1 & S1)). rewrite L1 in L1'. injection L1' as <-.
  rewrite R1, R in D. exists (l_c l1). split; [exact D|]. split; [exact (S1 Sd)|]. intros n f. exact (held_more _ _ _ n f Sd (S1 Sd) V1 D1).
Qed.
