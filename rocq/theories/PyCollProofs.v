(** Proofs about the constructors of collections in Python. *)
From Coq Require Import String.
From Verif Require Import Base CIntModel GridModel GridSpec GridProofs GridProofs2 StridedModel LayoutModel LayoutProofs2 CoordModel FieldModel RegistryModel RegistrySpec RegistryProofs RegistryProofs2 RegistryProofs4.
From Verif Require Import LayoutProofs PyCommModel PyCommProofs PyArgModel PyArgSpec PyArgProofs PyCollModel PyCollSpec.
Local Open Scope Z_scope.
Local Open Scope list_scope.

(** ** What does not fit *)
Lemma fits_unknown ps pos kw c k v : In (k, v) kw -> known_keyword ps k = false -> fits ps pos kw c = None.
Proof.
  intros I K. unfold fits. destruct (forallb _ kw) eqn:F; [|reflexivity]. rewrite forallb_forall in F. specialize (F _ I). cbn [fst] in F. congruence.
Qed.
Lemma fits_badpos ps : forall pos kw c i v p, nth_error pos i = Some v -> nth_error ps i = Some p -> load c (p_type p) v = None -> fits ps pos kw c = None.
Proof.
  intros pos kw c i v p Hv Hp L. unfold fits. destruct (forallb _ kw); [|reflexivity]. destruct (fill ps pos kw) as [vs|] eqn:F; [|reflexivity].
  revert pos i vs Hv Hp F. induction ps as [|q ps IH]; intros pos i vs Hv Hp F; [destruct i; discriminate|].
  destruct pos as [|w pos]; [destruct i; discriminate|]. cbn [fill] in F. destruct (lookup (p_name q) kw); [discriminate|].
  destruct (fill ps pos kw) as [r|] eqn:F'; [|discriminate]. cbn in F. injection F as <-. cbn [load_args].
  destruct i as [|i]; cbn in Hv, Hp; [injection Hv as ->; injection Hp as ->; now rewrite L|].
  rewrite (IH pos i r Hv Hp F'). now destruct (load c (p_type q) w).
Qed.
Lemma fits_missing ps : forall pos kw c i p, nth_error ps i = Some p -> p_default p = None -> (length pos <= i)%nat -> lookup (p_name p) kw = None -> fits ps pos kw c = None.
Proof.
  intros pos kw c i p Hp D Li Lk. unfold fits. destruct (forallb _ kw); [|reflexivity].
  assert (E : fill ps pos kw = None); [|now rewrite E].
  revert pos i Hp Li. induction ps as [|q ps IH]; intros pos i Hp Li; [destruct i; discriminate|].
  destruct i as [|i]; cbn in Hp.
  - injection Hp as ->. destruct pos; [|cbn in Li; lia]. cbn [fill]. now rewrite Lk, D.
  - destruct pos as [|w pos]; cbn [fill].
    + rewrite (IH [] i Hp (Nat.le_0_l i)). destruct (lookup (p_name q) kw), (p_default q); reflexivity.
    + cbn in Li. rewrite (IH pos i Hp) by lia. now destruct (lookup (p_name q) kw).
Qed.
Lemma fits_first_kw ps p rest : ps = p :: rest -> forall kw c v, lookup (p_name p) kw = Some v -> load c (p_type p) v = None -> fits ps [] kw c = None.
Proof.
  intros -> kw c v Lk L. unfold fits. destruct (forallb _ kw); [|reflexivity]. cbn [fill]. rewrite Lk. destruct (fill rest [] kw); [|reflexivity]. cbn. now rewrite L.
Qed.

(** ** What fits *)
Definition loads (t : ptype) (v : pyobj) (x : loaded) : Prop := load true t v = Some x /\ forall y, load false t v = Some y -> y = x.
Fixpoint args_ok (ps : list param) (pos : list pyobj) (kw : list (string * pyobj)) (xs : list loaded) : Prop :=
  match ps, xs with
  | [], [] => pos = []
  | p :: ps', x :: xs' =>
      match pos with
      | v :: pos' => lookup (p_name p) kw = None /\ loads (p_type p) v x /\ args_ok ps' pos' kw xs'
      | [] => match lookup (p_name p) kw with Some v => loads (p_type p) v x | None => exists v, p_default p = Some v /\ loads (p_type p) v x end /\ args_ok ps' [] kw xs'
      end
  | _, _ => False
  end.
Lemma args_fit ps : forall pos kw xs, args_ok ps pos kw xs -> exists vs, fill ps pos kw = Some vs /\ load_args true ps vs = Some xs /\ (forall ys, load_args false ps vs = Some ys -> ys = xs).
Proof.
  induction ps as [|p ps IH]; intros pos kw [|x xs]; cbn [args_ok]; try contradiction.
  - intros ->. exists []. cbn. repeat split. intros ys H. now injection H as <-.
  - destruct pos as [|v pos].
    + intros [H R]. destruct (IH _ _ _ R) as (vs & F & L1 & L2). cbn [fill]. destruct (lookup (p_name p) kw) as [v|].
      * exists (v :: vs). rewrite F. cbn [option_map load_args]. destruct H as [H1 H2]. rewrite H1, L1. repeat split. intros ys E.
        destruct (load false (p_type p) v) eqn:E1; [|discriminate]. destruct (load_args false ps vs) eqn:E2; [|discriminate]. injection E as <-. f_equal; auto.
      * destruct H as (v & D & H1 & H2). rewrite D. exists (v :: vs). rewrite F. cbn [option_map load_args]. rewrite H1, L1. repeat split. intros ys E.
        destruct (load false (p_type p) v) eqn:E1; [|discriminate]. destruct (load_args false ps vs) eqn:E2; [|discriminate]. injection E as <-. f_equal; auto.
    + intros (K & [H1 H2] & R). destruct (IH _ _ _ R) as (vs & F & L1 & L2). cbn [fill]. rewrite K, F. exists (v :: vs). cbn [option_map load_args]. rewrite H1, L1.
      repeat split. intros ys E. destruct (load false (p_type p) v) eqn:E1; [|discriminate]. destruct (load_args false ps vs) eqn:E2; [|discriminate]. injection E as <-. f_equal; auto.
Qed.
Lemma known_all ps pos kw : well_formed (map p_name ps) pos kw -> forallb (fun p => known_keyword ps (fst p)) kw = true.
Proof.
  intros [_ F]. apply forallb_forall. intros [k v] I. rewrite Forall_forall in F. specialize (F _ I). cbn [fst] in *.
  assert (J : In k (map p_name ps)) by (rewrite <- (firstn_skipn (length pos)); apply in_or_app; now right).
  apply in_map_iff in J as (p & E & J). unfold known_keyword. apply existsb_exists. exists p. split; [exact J|]. rewrite <- E. apply String.eqb_refl.
Qed.
Lemma fits_ok ps pos kw xs : well_formed (map p_name ps) pos kw -> args_ok ps pos kw xs -> fits ps pos kw true = Some xs /\ (fits ps pos kw false = None \/ fits ps pos kw false = Some xs).
Proof.
  intros W K. unfold fits. rewrite (known_all _ _ _ W). destruct (args_fit _ _ _ _ K) as (vs & F & L1 & L2). rewrite F. split; [exact L1|].
  destruct (load_args false ps vs) eqn:E; [right; now rewrite (L2 _ eq_refl)|now left].
Qed.

(** ** Arguments in the usual forms *)
Lemma coord_loads v l : coord_arg v l -> loads TCoord v (LCoord l).
Proof.
  assert (S : forall s, Forall index64 s -> (length s <= 3)%nat -> exists c, c_of_list 3 s = Ok c /\ c_to_vector c = Ok s).
  { intros s R L. destruct s as [|x [|y [|z [|w s]]]]; cbn in L; try lia; eexists; split; reflexivity. }
  intros [->|([->| ->] & R & L)].
  - split; [reflexivity|]. intros y H. now injection H as <-.
  - split; [|discriminate]. cbn [load load_coord int_seq]. rewrite load_all_ints by exact R. destruct (S l R L) as (c & -> & ->). reflexivity.
  - split; [|discriminate]. cbn [load load_coord int_seq]. rewrite load_all_ints by exact R. destruct (S l R L) as (c & -> & ->). reflexivity.
Qed.
Lemma load_sub_ints c m : Forall (fun p => index64 (snd p)) m -> load_sub c (map (fun p => (fst p, int_arg (snd p))) m) = Some m.
Proof. induction 1 as [|[k n] m H _ IH]; [reflexivity|]. cbn [map load_sub fst snd]. cbn [load_index int_arg]. rewrite load64_int by exact H. now rewrite IH. Qed.
Lemma sub_loads v m : sub_arg v m -> loads TSub v (LSub m).
Proof. intros [-> F]. split; cbn [load]; rewrite load_sub_ints by exact F; [reflexivity|]. cbn. intros y H. now injection H as <-. Qed.
Lemma order_loads v o : order_arg v o -> loads TOrder v (LOrder o).
Proof. intros ->. split; [reflexivity|]. cbn. intros y H. now injection H as <-. Qed.
Lemma dim_loads d : index64 d -> loads TDim (OArg (int_arg d)) (LDim d).
Proof. intros R. split; cbn [load load_index int_arg]; rewrite load64_int by exact R; [reflexivity|]. cbn. intros y H. now injection H as <-. Qed.
Lemma name_loads s : loads TName (OStr s) (LName s).
Proof. split; [reflexivity|]. cbn. intros y H. now injection H as <-. Qed.

Lemma coord_not_dim c v l : coord_arg v l -> load c TDim v = None.
Proof. intros [->|([->| ->] & _)]; reflexivity. Qed.
Lemma coord_not_sub c v l : coord_arg v l -> load c TSub v = None.
Proof. intros [->|([->| ->] & _)]; reflexivity. Qed.
Lemma coord_not_order c v l : coord_arg v l -> load c TOrder v = None.
Proof. intros [->|([->| ->] & _)]; reflexivity. Qed.

(** ** Choice of the overload *)
Definition unfit (ps : list param) pos kw : Prop := forall c, fits ps pos kw c = None.
Lemma select_nth sigs pos kw ps xs : (exists i, nth_error sigs i = Some ps /\ forall j q, j <> i -> nth_error sigs j = Some q -> unfit q pos kw) ->
  well_formed (map p_name ps) pos kw -> args_ok ps pos kw xs -> exists i, select sigs pos kw = Some (i, xs).
Proof.
  intros (i & N & U) W K. destruct (fits_ok _ _ _ _ W K) as [F1 F2]. exists i. unfold select, overloads.
  assert (G : forall c s k, nth_error s (i - k) = Some ps -> (k <= i)%nat -> (forall j q, j <> (i - k)%nat -> nth_error s j = Some q -> unfit q pos kw) ->
    first_fit c (map (fun p c => option_map (pair (fst p)) (fits (snd p) pos kw c)) (combine (seq k (length s)) s)) = option_map (pair i) (fits ps pos kw c)).
  { intros c. induction s as [|q s IH]; intros k Ns Lk Us; [destruct (i - k)%nat; discriminate|]. cbn [length seq combine map first_fit fst snd].
    destruct (Nat.eq_dec (i - k) 0) as [Z|Z].
    - rewrite Z in Ns. cbn in Ns. injection Ns as ->. replace k with i by lia. destruct (fits ps pos kw c) as [r|] eqn:Fc; [reflexivity|]. cbn [option_map].
      assert (T : forall s' k', (forall q', In q' s' -> unfit q' pos kw) ->
        first_fit c (map (fun p c => option_map (pair (fst p)) (fits (snd p) pos kw c)) (combine (seq k' (length s')) s')) = None).
      { induction s' as [|q' s' IH']; intros k' H; [reflexivity|]. cbn [length seq combine map first_fit fst snd]. rewrite (H q' (or_introl eq_refl) c). cbn [option_map].
        apply IH'. intros q'' I. apply H. now right. }
      apply T. intros q' I. apply In_nth_error in I as (j & Hj). apply (Us (S j) q'); [lia|exact Hj].
    - rewrite (Us 0%nat q ltac:(lia) eq_refl c). cbn [option_map]. apply IH; [|lia|].
      + replace (i - k)%nat with (S (i - S k)) in Ns by lia. exact Ns.
      + intros j q' Nj Hj. apply (Us (S j) q'); [lia|exact Hj]. }
  assert (N0 : nth_error sigs (i - 0) = Some ps) by now rewrite Nat.sub_0_r.
  assert (U0 : forall j q, j <> (i - 0)%nat -> nth_error sigs j = Some q -> unfit q pos kw) by (intros j q Hj; apply U; lia).
  rewrite !(G _ sigs 0%nat N0 (Nat.le_0_l i) U0), F1. destruct F2 as [->| ->]; reflexivity.
Qed.

(** ** From arguments to parameters *)
Definition arg_ok (pos : list pyobj) (kw : list (string * pyobj)) (i : nat) (p : param) (x : loaded) : Prop :=
  match argument pos kw i (p_name p) with Some v => loads (p_type p) v x | None => exists v, p_default p = Some v /\ loads (p_type p) v x end.
Lemma lookup_not_key {V} k (kw : list (string * V)) : ~ In k (map fst kw) -> lookup k kw = None.
Proof.
  induction kw as [|[k' v] kw IH]; intros N; [reflexivity|]. cbn [map fst] in N. cbn [lookup]. destruct (String.eqb_spec k k') as [->|_]; [exfalso; apply N; now left|].
  apply IH. intros I. apply N. now right.
Qed.
Lemma lookup_key {V} k (kw : list (string * V)) v : lookup k kw = Some v -> In (k, v) kw.
Proof. induction kw as [|[k' w] kw IH]; cbn [lookup]; [discriminate|]. destruct (String.eqb_spec k k') as [->|_]; [intros H; injection H as ->; now left|right; auto]. Qed.
Lemma args_keywords ps : forall kw xs i, length xs = length ps ->
  (forall j p x, nth_error ps j = Some p -> nth_error xs j = Some x -> arg_ok [] kw (i + j) p x) -> args_ok ps [] kw xs.
Proof.
  induction ps as [|p ps IH]; intros kw [|x xs] i L H; try discriminate; [reflexivity|]. cbn [args_ok]. split.
  - pose proof (H 0%nat p x eq_refl eq_refl) as H0. unfold arg_ok, argument in H0. destruct (i + 0)%nat; exact H0.
  - apply (IH kw xs (S i)); [now injection L|]. intros j q y Hq Hy. pose proof (H (S j) q y Hq Hy) as Hj. now replace (S i + j)%nat with (i + S j)%nat by lia.
Qed.
Lemma args_given ps : forall pos kw xs, NoDup (map p_name ps) -> well_formed (map p_name ps) pos kw -> length xs = length ps ->
  (forall i p x, nth_error ps i = Some p -> nth_error xs i = Some x -> arg_ok pos kw i p x) -> args_ok ps pos kw xs.
Proof.
  induction ps as [|p ps IH]; intros pos kw [|x xs] N [W1 W2] L H; try discriminate.
  - destruct pos; [reflexivity|cbn in W1; lia].
  - destruct pos as [|v pos]; [exact (args_keywords (p :: ps) kw (x :: xs) 0 L H)|].
    cbn [map] in N. inversion N as [|? ? N1 N2]; subst. cbn [map length skipn] in W1, W2. cbn [args_ok]. split; [|split].
    + apply lookup_not_key. intros I. apply in_map_iff in I as ([k w] & E & I). cbn [fst] in E. subst k. rewrite Forall_forall in W2. specialize (W2 _ I). cbn [fst] in W2.
      apply N1. rewrite <- (firstn_skipn (length pos)). apply in_or_app. now right.
    + exact (H 0%nat p x eq_refl eq_refl).
    + apply IH; [exact N2|split; [lia|exact W2]|now injection L|]. intros i q y Hq Hy. exact (H (S i) q y Hq Hy).
Qed.
Lemma arg_given {B} (P : pyobj -> B -> Prop) (d x : B) pos kw i p (y : loaded) : given_or P d x (argument pos kw i (p_name p)) ->
  (forall v, P v x -> loads (p_type p) v y) -> (exists v, p_default p = Some v /\ P v d) -> arg_ok pos kw i p y.
Proof.
  intros G H (v & D & Pv). unfold arg_ok, given_or in *. destruct (argument pos kw i (p_name p)); [auto|]. subst d. exists v. auto.
Qed.
Lemma arg_needed {B} (P : pyobj -> B -> Prop) x pos kw i p y : given P x (argument pos kw i (p_name p)) -> (forall v, P v x -> loads (p_type p) v y) -> arg_ok pos kw i p y.
Proof. intros G H. unfold arg_ok, given in *. destruct (argument pos kw i (p_name p)); [auto|contradiction]. Qed.
(** A parameter of another type at the same place, or not there *)
Lemma unfit_at ps pos kw i name p (P : pyobj -> Prop) : match argument pos kw i name with Some v => P v | None => False end ->
  nth_error ps i = Some p -> (forall v c, P v -> load c (p_type p) v = None) -> p_name p <> name -> known_keyword ps name = false -> unfit ps pos kw.
Proof.
  intros G N L _ K c. unfold argument in G. destruct (nth_error pos i) as [v|] eqn:E; [exact (fits_badpos ps pos kw c i v p E N (L v c G))|].
  destruct (lookup name kw) as [v|] eqn:F; [|contradiction]. exact (fits_unknown ps pos kw c name v (lookup_key _ _ _ F) K).
Qed.
Lemma unfit_more ps pos kw i name : match argument pos kw i name with Some _ => True | None => False end -> (length ps <= i)%nat -> known_keyword ps name = false -> unfit ps pos kw.
Proof.
  intros G L K c. unfold argument in G. destruct (nth_error pos i) as [v|] eqn:E.
  - unfold fits. destruct (forallb _ kw); [|reflexivity].
    assert (Lp : (length ps < length pos)%nat) by (assert (i < length pos)%nat by (apply nth_error_Some; congruence); lia).
    assert (F : fill ps pos kw = None); [|now rewrite F]. clear - Lp. revert pos Lp. induction ps as [|p ps IH]; intros [|w pos] Lp; cbn in Lp; try lia; [reflexivity|].
    cbn [fill]. destruct (lookup (p_name p) kw); [reflexivity|]. now rewrite IH by lia.
  - destruct (lookup name kw) as [v|] eqn:F; [|contradiction]. exact (fits_unknown ps pos kw c name v (lookup_key _ _ _ F) K).
Qed.
Lemma unfit_needed names ps pos kw i p : well_formed names pos kw -> ~ In (p_name p) names -> nth_error ps i = Some p -> p_default p = None -> (length pos <= i)%nat -> unfit ps pos kw.
Proof.
  intros [W1 W2] N Hp D L c. apply (fits_missing ps pos kw c i p Hp D L). apply lookup_not_key. intros I. apply in_map_iff in I as ([k v] & E & I). cbn [fst] in E. subst k.
  rewrite Forall_forall in W2. specialize (W2 _ I). cbn [fst] in W2. apply N. rewrite <- (firstn_skipn (length pos)). apply in_or_app. now right.
Qed.

(** ** The calls *)
Ltac indices H := intros [|[|[|[|[|[|i]]]]]] p x Hp Hx; cbn in Hp, Hx; try discriminate; try (destruct i; discriminate); injection Hp as <-; injection Hx as <-; H.
Ltac nodup := repeat constructor; cbn; intuition discriminate.
Lemma given_present {B} (P : pyobj -> B -> Prop) x a : given P x a -> match a with Some _ => True | None => False end.
Proof. unfold given. destruct a; auto. Qed.
Section Calls.
Context {A : Type} (zero : A).
Local Open Scope string_scope.

Lemma built_made d o m f (op : op A) : (forall c, c_glob c = true -> step zero c op = f c) ->
  built d (new_coll true o m) f = made zero d "" (new_coll true o m) (Some op).
Proof.
  intros S. unfold built, made. destruct (new_coll true o m) as [c|e|] eqn:N; cbn [bind]; try reflexivity.
  destruct (new_coll_spec _ _ _ _ N) as (_ & _ & _ & G & _). rewrite (S c G). destruct (f c) as [c' [[]| |]]; reflexivity.
Qed.

Lemma unfit_dims pos kw nd j q : given coord_arg nd (argument pos kw 0 "nb_domain_grid_pts") -> (j < 2)%nat -> nth_error global_sigs j = Some q -> unfit q pos kw.
Proof.
  intros G L N. destruct j as [|[|j]]; [| |lia]; cbn in N; injection N as <-.
  - apply (unfit_at _ pos kw 0 "nb_domain_grid_pts" (need "spatial_dimension" TDim) (fun v => coord_arg v nd)); try reflexivity; [exact G| |discriminate].
    intros v c H. exact (coord_not_dim c v nd H).
  - apply (unfit_at _ pos kw 0 "nb_domain_grid_pts" (need "spatial_dimension" TDim) (fun v => coord_arg v nd)); try reflexivity; [exact G| |discriminate].
    intros v c H. exact (coord_not_dim c v nd H).
Qed.

Lemma call_domain pos kw nd nsd loc m o : well_formed domain_names pos kw -> given coord_arg nd (argument pos kw 0 "nb_domain_grid_pts") ->
  given_or coord_arg [] nsd (argument pos kw 1 "nb_subdomain_grid_pts") -> given_or coord_arg [] loc (argument pos kw 2 "subdomain_locations") ->
  given_or sub_arg [] m (argument pos kw 3 "sub_pts") -> given_or order_arg ColMajor o (argument pos kw 4 "storage_order") ->
  py_global zero pos kw = Some (made zero (Z.of_nat (length nd)) "" (new_coll true o m) (Some (OInitGlobalOrder nd nsd loc Automatic))).
Proof.
  intros W G0 G1 G2 G3 G4. unfold py_global.
  assert (Sb : forall k, k = TCoord \/ k = TOrder -> forall v c, sub_arg v m -> load c k v = None) by (intros k [->| ->] v c [-> _]; reflexivity).
  assert (U : forall name k q, (name = "pixels_strides" /\ k = TCoord) \/ (name = "pixels_storage_order" /\ k = TOrder) -> nth_error q 3 = Some (need name k) -> unfit q pos kw).
  { intros name k q K N. destruct (Nat.le_gt_cases (length pos) 3) as [Lp|Lp].
    - apply (unfit_needed domain_names q pos kw 3 (need name k) W); try exact N; try reflexivity; [|exact Lp]. cbn. destruct K as [[-> _]|[-> _]]; intuition discriminate.
    - destruct (nth_error pos 3) as [v|] eqn:E; [|apply nth_error_None in E; lia]. unfold argument in G3. rewrite E in G3. intros c.
      apply (fits_badpos q pos kw c 3 v (need name k) E N). cbn [need p_type]. apply Sb; [destruct K as [[_ ->]|[_ ->]]; auto|exact G3]. }
  destruct (select_nth global_sigs pos kw (nth 2 global_sigs []) [LCoord nd; LCoord nsd; LCoord loc; LSub m; LOrder o]) as (i & ->).
  - exists 2%nat. split; [reflexivity|]. intros j q Nj Hq. destruct (Nat.lt_ge_cases j 2) as [Lj|Lj]; [exact (unfit_dims pos kw nd j q G0 Lj Hq)|].
    destruct j as [|[|[|[|[|j]]]]]; try lia; cbn in Hq; try (destruct j; discriminate); injection Hq as <-.
    + apply (U "pixels_strides" TCoord); [auto|reflexivity].
    + apply (U "pixels_storage_order" TOrder); [auto|reflexivity].
  - exact W.
  - apply args_given; [nodup|exact W|reflexivity|].
    indices idtac.
    + apply (arg_needed coord_arg nd); [exact G0|]. intros v. apply coord_loads.
    + apply (arg_given coord_arg [] nsd); [exact G1|intros v; apply coord_loads|]. exists no_coord. split; [reflexivity|now left].
    + apply (arg_given coord_arg [] loc); [exact G2|intros v; apply coord_loads|]. exists no_coord. split; [reflexivity|now left].
    + apply (arg_given sub_arg [] m); [exact G3|intros v; apply sub_loads|]. exists (ODict []). split; [reflexivity|]. split; [reflexivity|constructor].
    + apply (arg_given order_arg ColMajor o); [exact G4|intros v; apply order_loads|]. exists (OOrder ColMajor). split; reflexivity.
  - cbn [make_global snd]. f_equal. apply built_made. intros c Gc. cbn [step]. now rewrite Gc.
Qed.

Lemma call_strides pos kw nd nsd loc s m o : well_formed strides_names pos kw -> given coord_arg nd (argument pos kw 0 "nb_domain_grid_pts") ->
  given coord_arg nsd (argument pos kw 1 "nb_subdomain_grid_pts") -> given coord_arg loc (argument pos kw 2 "subdomain_locations") ->
  given coord_arg s (argument pos kw 3 "pixels_strides") -> given sub_arg m (argument pos kw 4 "sub_pts") -> given_or order_arg ColMajor o (argument pos kw 5 "storage_order") ->
  py_global zero pos kw = Some (made zero (Z.of_nat (length nd)) "" (new_coll true o m) (Some (OInitGlobal nd nsd loc s))).
Proof.
  intros W G0 G1 G2 G3 G4 G5. unfold py_global.
  destruct (select_nth global_sigs pos kw (nth 3 global_sigs []) [LCoord nd; LCoord nsd; LCoord loc; LCoord s; LSub m; LOrder o]) as (i & ->).
  - exists 3%nat. split; [reflexivity|]. intros j q Nj Hq. destruct (Nat.lt_ge_cases j 2) as [Lj|Lj]; [exact (unfit_dims pos kw nd j q G0 Lj Hq)|].
    destruct j as [|[|[|[|[|j]]]]]; try lia; cbn in Hq; try (destruct j; discriminate); injection Hq as <-.
    + apply (unfit_at _ pos kw 3 "pixels_strides" (dflt "sub_pts" TSub (ODict [])) (fun v => coord_arg v s)); try reflexivity; [exact G3| |discriminate].
      intros v c H. exact (coord_not_sub c v s H).
    + apply (unfit_at _ pos kw 3 "pixels_strides" (need "pixels_storage_order" TOrder) (fun v => coord_arg v s)); try reflexivity; [exact G3| |discriminate].
      intros v c H. exact (coord_not_order c v s H).
  - exact W.
  - apply args_given; [nodup|exact W|reflexivity|].
    indices idtac.
    + apply (arg_needed coord_arg nd); [exact G0|]. intros v. apply coord_loads.
    + apply (arg_needed coord_arg nsd); [exact G1|]. intros v. apply coord_loads.
    + apply (arg_needed coord_arg loc); [exact G2|]. intros v. apply coord_loads.
    + apply (arg_needed coord_arg s); [exact G3|]. intros v. apply coord_loads.
    + apply (arg_needed sub_arg m); [exact G4|]. intros v. apply sub_loads.
    + apply (arg_given order_arg ColMajor o); [exact G5|intros v; apply order_loads|]. exists (OOrder ColMajor). split; reflexivity.
  - cbn [make_global snd]. f_equal. apply built_made. intros c Gc. cbn [step]. now rewrite Gc.
Qed.

Lemma call_pixorder pos kw nd nsd loc po m o : well_formed pixorder_names pos kw -> given coord_arg nd (argument pos kw 0 "nb_domain_grid_pts") ->
  given coord_arg nsd (argument pos kw 1 "nb_subdomain_grid_pts") -> given coord_arg loc (argument pos kw 2 "subdomain_locations") ->
  given order_arg po (argument pos kw 3 "pixels_storage_order") -> given sub_arg m (argument pos kw 4 "sub_pts") -> given_or order_arg ColMajor o (argument pos kw 5 "storage_order") ->
  py_global zero pos kw = Some (made zero (Z.of_nat (length nd)) "" (new_coll true o m) (Some (OInitGlobalOrder nd nsd loc po))).
Proof.
  intros W G0 G1 G2 G3 G4 G5. unfold py_global.
  destruct (select_nth global_sigs pos kw (nth 4 global_sigs []) [LCoord nd; LCoord nsd; LCoord loc; LOrder po; LSub m; LOrder o]) as (i & ->).
  - exists 4%nat. split; [reflexivity|]. intros j q Nj Hq. destruct (Nat.lt_ge_cases j 2) as [Lj|Lj]; [exact (unfit_dims pos kw nd j q G0 Lj Hq)|].
    destruct j as [|[|[|[|[|j]]]]]; try lia; cbn in Hq; try (destruct j; discriminate); injection Hq as <-.
    + apply (unfit_at _ pos kw 3 "pixels_storage_order" (dflt "sub_pts" TSub (ODict [])) (fun v => order_arg v po)); try reflexivity; [exact G3| |discriminate].
      intros v c ->. reflexivity.
    + apply (unfit_at _ pos kw 3 "pixels_storage_order" (need "pixels_strides" TCoord) (fun v => order_arg v po)); try reflexivity; [exact G3| |discriminate].
      intros v c ->. reflexivity.
  - exact W.
  - apply args_given; [nodup|exact W|reflexivity|].
    indices idtac.
    + apply (arg_needed coord_arg nd); [exact G0|]. intros v. apply coord_loads.
    + apply (arg_needed coord_arg nsd); [exact G1|]. intros v. apply coord_loads.
    + apply (arg_needed coord_arg loc); [exact G2|]. intros v. apply coord_loads.
    + apply (arg_needed order_arg po); [exact G3|]. intros v. apply order_loads.
    + apply (arg_needed sub_arg m); [exact G4|]. intros v. apply sub_loads.
    + apply (arg_given order_arg ColMajor o); [exact G5|intros v; apply order_loads|]. exists (OOrder ColMajor). split; reflexivity.
  - cbn [make_global snd]. f_equal. apply built_made. intros c Gc. cbn [step]. now rewrite Gc.
Qed.

Lemma dim_not_coord c v d : dim_arg v d -> load c TCoord v = None.
Proof. intros [-> _]. reflexivity. Qed.
Lemma unfit_coords pos kw d j q : given dim_arg d (argument pos kw 0 "spatial_dimension") -> (2 <= j)%nat -> nth_error global_sigs j = Some q -> unfit q pos kw.
Proof.
  intros G L N. destruct j as [|[|[|[|[|j]]]]]; try lia; cbn in N; try (destruct j; discriminate); injection N as <-;
  (apply (unfit_at _ pos kw 0 "spatial_dimension" (need "nb_domain_grid_pts" TCoord) (fun v => dim_arg v d)); try reflexivity; [exact G| |discriminate];
   intros v c H; exact (dim_not_coord c v d H)).
Qed.
Lemma call_dim pos kw d : well_formed ["spatial_dimension"] pos kw -> given dim_arg d (argument pos kw 0 "spatial_dimension") ->
  py_global zero pos kw = Some (made zero d "" (new_coll true ColMajor []) None).
Proof.
  intros W G. unfold py_global.
  destruct (select_nth global_sigs pos kw (nth 0 global_sigs []) [LDim d]) as (i & ->).
  - exists 0%nat. split; [reflexivity|]. intros j q Nj Hq. destruct (Nat.lt_ge_cases j 2) as [Lj|Lj]; [|exact (unfit_coords pos kw d j q G Lj Hq)].
    destruct j as [|[|j]]; try lia. cbn in Hq. injection Hq as <-.
    apply (unfit_needed ["spatial_dimension"] _ pos kw 1 (need "sub_pts" TSub) W); try reflexivity; [cbn; intuition discriminate|exact (proj1 W)].
  - exact W.
  - apply args_given; [nodup|exact W|reflexivity|]. indices idtac. apply (arg_needed dim_arg d); [exact G|]. intros v [-> R]. now apply dim_loads.
  - cbn [make_global snd]. apply f_equal. unfold built, made. now destruct (new_coll true ColMajor []).
Qed.
Lemma call_dim_sub pos kw d m o : well_formed ["spatial_dimension"; "sub_pts"; "storage_order"] pos kw -> given dim_arg d (argument pos kw 0 "spatial_dimension") ->
  given sub_arg m (argument pos kw 1 "sub_pts") -> given_or order_arg ColMajor o (argument pos kw 2 "storage_order") ->
  py_global zero pos kw = Some (made zero d "" (new_coll true o m) None).
Proof.
  intros W G G1 G2. unfold py_global.
  destruct (select_nth global_sigs pos kw (nth 1 global_sigs []) [LDim d; LSub m; LOrder o]) as (i & ->).
  - exists 1%nat. split; [reflexivity|]. intros j q Nj Hq. destruct (Nat.lt_ge_cases j 2) as [Lj|Lj]; [|exact (unfit_coords pos kw d j q G Lj Hq)].
    destruct j as [|[|j]]; try lia. cbn in Hq. injection Hq as <-.
    apply (unfit_more _ pos kw 1 "sub_pts" (given_present _ _ _ G1)); [cbn; lia|reflexivity].
  - exact W.
  - apply args_given; [nodup|exact W|reflexivity|]. indices idtac.
    + apply (arg_needed dim_arg d); [exact G|]. intros v [-> R]. now apply dim_loads.
    + apply (arg_needed sub_arg m); [exact G1|]. intros v. apply sub_loads.
    + apply (arg_given order_arg ColMajor o); [exact G2|intros v; apply order_loads|]. exists (OOrder ColMajor). split; reflexivity.
  - cbn [make_global snd]. apply f_equal. unfold built, made. now destruct (new_coll true o m).
Qed.

(** [initialise] *)
Lemma call_init_strides (y : pycoll A) pos kw nd nsd loc s : well_formed ["nb_domain_grid_pts"; "nb_subdomain_grid_pts"; "subdomain_locations"; "pixels_strides"] pos kw ->
  given coord_arg nd (argument pos kw 0 "nb_domain_grid_pts") -> given coord_arg nsd (argument pos kw 1 "nb_subdomain_grid_pts") -> given coord_arg loc (argument pos kw 2 "subdomain_locations") ->
  given coord_arg s (argument pos kw 3 "pixels_strides") -> py_initialise zero y pos kw = Some (with_coll y (init_global zero (y_coll y) nd nsd loc s)).
Proof.
  intros W G0 G1 G2 G3. unfold py_initialise.
  destruct (select_nth init_sigs pos kw (nth 0 init_sigs []) [LCoord nd; LCoord nsd; LCoord loc; LCoord s]) as (i & ->).
  - exists 0%nat. split; [reflexivity|]. intros j q Nj Hq. destruct j as [|[|j]]; try lia; cbn in Hq; [|destruct j; discriminate]. injection Hq as <-.
    apply (unfit_at _ pos kw 3 "pixels_strides" (dflt "pixels_storage_order" TOrder (OOrder Automatic)) (fun v => coord_arg v s)); try reflexivity; [exact G3| |discriminate].
    intros v c H. exact (coord_not_order c v s H).
  - exact W.
  - apply args_given; [nodup|exact W|reflexivity|].
    indices idtac.
    + apply (arg_needed coord_arg nd); [exact G0|]. intros v. apply coord_loads.
    + apply (arg_needed coord_arg nsd); [exact G1|]. intros v. apply coord_loads.
    + apply (arg_needed coord_arg loc); [exact G2|]. intros v. apply coord_loads.
    + apply (arg_needed coord_arg s); [exact G3|]. intros v. apply coord_loads.
  - reflexivity.
Qed.
Lemma call_init_order (y : pycoll A) pos kw nd nsd loc po : well_formed ["nb_domain_grid_pts"; "nb_subdomain_grid_pts"; "subdomain_locations"; "pixels_storage_order"] pos kw ->
  given coord_arg nd (argument pos kw 0 "nb_domain_grid_pts") -> given_or coord_arg [] nsd (argument pos kw 1 "nb_subdomain_grid_pts") -> given_or coord_arg [] loc (argument pos kw 2 "subdomain_locations") ->
  given_or order_arg Automatic po (argument pos kw 3 "pixels_storage_order") -> py_initialise zero y pos kw = Some (with_coll y (init_global_order zero (y_coll y) nd nsd loc po)).
Proof.
  intros W G0 G1 G2 G3. unfold py_initialise.
  destruct (select_nth init_sigs pos kw (nth 1 init_sigs []) [LCoord nd; LCoord nsd; LCoord loc; LOrder po]) as (i & ->).
  - exists 1%nat. split; [reflexivity|]. intros j q Nj Hq. destruct j as [|[|j]]; try lia; cbn in Hq; [|destruct j; discriminate]. injection Hq as <-.
    destruct (Nat.le_gt_cases (length pos) 3) as [Lp|Lp].
    + apply (unfit_needed ["nb_domain_grid_pts"; "nb_subdomain_grid_pts"; "subdomain_locations"; "pixels_storage_order"] _ pos kw 3 (need "pixels_strides" TCoord) W); try reflexivity; [|exact Lp].
      cbn. intuition discriminate.
    + destruct (nth_error pos 3) as [v|] eqn:E; [|apply nth_error_None in E; lia]. unfold argument in G3. rewrite E in G3. intros c.
      apply (fits_badpos _ pos kw c 3 v (need "pixels_strides" TCoord) E); [reflexivity|]. cbn in G3. red in G3. subst v. reflexivity.
  - exact W.
  - apply args_given; [nodup|exact W|reflexivity|].
    indices idtac.
    + apply (arg_needed coord_arg nd); [exact G0|]. intros v. apply coord_loads.
    + apply (arg_given coord_arg [] nsd); [exact G1|intros v; apply coord_loads|]. exists no_coord. split; [reflexivity|now left].
    + apply (arg_given coord_arg [] loc); [exact G2|intros v; apply coord_loads|]. exists no_coord. split; [reflexivity|now left].
    + apply (arg_given order_arg Automatic po); [exact G3|intros v; apply order_loads|]. exists (OOrder Automatic). split; reflexivity.
  - reflexivity.
Qed.

(** [LocalFieldCollection] *)
Lemma call_local pos kw d m : well_formed ["spatial_dimension"; "nb_sub_pts"] pos kw -> given dim_arg d (argument pos kw 0 "spatial_dimension") ->
  given_or sub_arg [] m (argument pos kw 1 "nb_sub_pts") -> py_local pos kw = Some (made zero d "LocalFieldCollectionName" (new_coll false ColMajor m) None).
Proof.
  intros W G G1. unfold py_local.
  destruct (select_nth local_sigs pos kw (nth 0 local_sigs []) [LDim d; LSub m]) as (i & ->).
  - exists 0%nat. split; [reflexivity|]. intros j q Nj Hq. destruct j as [|[|j]]; try lia; cbn in Hq; [|destruct j; discriminate]. injection Hq as <-.
    destruct (Nat.le_gt_cases (length pos) 1) as [Lp|Lp].
    + apply (unfit_needed ["spatial_dimension"; "nb_sub_pts"] _ pos kw 1 (need "name" TName) W); try reflexivity; [|exact Lp]. cbn. intuition discriminate.
    + destruct (nth_error pos 1) as [v|] eqn:E; [|apply nth_error_None in E; lia]. unfold argument in G1. rewrite E in G1. intros c.
      apply (fits_badpos _ pos kw c 1 v (need "name" TName) E); [reflexivity|]. destruct G1 as [-> _]. reflexivity.
  - exact W.
  - apply args_given; [nodup|exact W|reflexivity|]. indices idtac.
    + apply (arg_needed dim_arg d); [exact G|]. intros v [-> R]. now apply dim_loads.
    + apply (arg_given sub_arg [] m); [exact G1|intros v; apply sub_loads|]. exists (ODict []). split; [reflexivity|]. split; [reflexivity|constructor].
  - reflexivity.
Qed.
Lemma call_local_name pos kw d s m : well_formed ["spatial_dimension"; "name"; "nb_sub_pts"] pos kw -> given dim_arg d (argument pos kw 0 "spatial_dimension") ->
  given name_arg s (argument pos kw 1 "name") -> given_or sub_arg [] m (argument pos kw 2 "nb_sub_pts") -> py_local pos kw = Some (made zero d s (new_coll false ColMajor m) None).
Proof.
  intros W G G1 G2. unfold py_local.
  destruct (select_nth local_sigs pos kw (nth 1 local_sigs []) [LDim d; LName s; LSub m]) as (i & ->).
  - exists 1%nat. split; [reflexivity|]. intros j q Nj Hq. destruct j as [|[|j]]; try lia; cbn in Hq; [|destruct j; discriminate]. injection Hq as <-.
    apply (unfit_at _ pos kw 1 "name" (dflt "nb_sub_pts" TSub (ODict [])) (fun v => name_arg v s)); try reflexivity; [exact G1| |discriminate].
    intros v c ->. reflexivity.
  - exact W.
  - apply args_given; [nodup|exact W|reflexivity|]. indices idtac.
    + apply (arg_needed dim_arg d); [exact G|]. intros v [-> R]. now apply dim_loads.
    + apply (arg_needed name_arg s); [exact G1|]. intros v ->. apply name_loads.
    + apply (arg_given sub_arg [] m); [exact G2|intros v; apply sub_loads|]. exists (ODict []). split; [reflexivity|]. split; [reflexivity|constructor].
  - reflexivity.
Qed.

(** ** What the collection looks like *)
Local Close Scope string_scope.
Lemma pixels_ok n s loc : length s = length n -> (loc = [] \/ length loc = length n) -> exists p, pixels_strided n loc s = Ok p.
Proof.
  intros L K. unfold pixels_strided, pixels_strided_with.
  assert (C : exists b, is_buffer_contiguous_ax n s (compute_axes_order n s) = Ok b).
  { unfold is_buffer_contiguous_ax. destruct (length n =? 0)%nat; [eauto|]. destruct (compute_volume n =? 0); [eauto|]. rewrite L, Nat.eqb_refl. cbn [negb]. eauto. }
  destruct C as (b & ->). cbn [bind]. assert (D : length (default_loc n loc) = length n).
  { unfold default_loc. destruct K as [->|K]; [apply repeat_length|]. destruct (length loc =? 0)%nat; [apply repeat_length|exact K]. }
  rewrite D, L, Nat.eqb_refl. cbn [negb]. eauto.
Qed.
Lemma init_succeeds c nd loc o : c_init c = false -> c_fields c = [] -> (1 <= length nd <= 3)%nat -> Forall (fun x => 0 < x) nd -> zprod nd < 2 ^ 31 ->
  (loc = [] \/ length loc = length nd) -> snd (init_global_order zero c nd [] loc o) = Ok tt.
Proof.
  intros I F D P V K. unfold init_global_order. cbn [length Nat.eqb]. set (o' := match o with Automatic => c_order c | _ => o end).
  assert (S : exists s, pixel_strides_for o' nd = Ok s /\ length s = length nd).
  { assert (Dm : dyn_dim_ok nd = true) by (unfold dyn_dim_ok; destruct nd as [|a [|b [|d [|e nd]]]]; cbn in D |- *; try reflexivity; lia).
    unfold pixel_strides_for, get_col_major_strides, get_row_major_strides. rewrite Dm.
    destruct o'; eexists; split; try reflexivity; (apply col_major_strides_length || apply row_major_strides_length). }
  destruct S as (s & -> & Ls). unfold init_global. assert (Ne : (length nd =? 0)%nat = false) by (apply Nat.eqb_neq; lia). rewrite Ne.
  rewrite nb_from_shape_exact by assumption. pose proof (zprod_pos nd P). destruct (zprod nd <=? 0) eqn:E1; [apply Z.leb_le in E1; lia|]. destruct (zprod nd <? 0) eqn:E2; [apply Z.ltb_lt in E2; lia|].
  rewrite I. destruct (pixels_ok nd s loc Ls K) as (p & ->). unfold get_buffer_size. rewrite Ls, Nat.eqb_refl. cbn [negb].
  unfold finish_init, with_pixels, sync, with_fields, map_fields. cbn [c_fields]. rewrite F. reflexivity.
Qed.
Lemma init_result c nd loc o c' : snd (init_global_order zero c nd [] loc o) = Ok tt -> fst (init_global_order zero c nd [] loc o) = c' -> inv c -> c_fields c = [] -> nd <> [] ->
  c_fields c' = [] /\ c_pix c' = nd /\ match match o with Automatic => c_order c | _ => o end with ColMajor => first_fastest nd (c_pstr c') | _ => last_fastest nd (c_pstr c') end.
Proof.
  intros H E I F Ne. unfold init_global_order in H, E. cbn [length Nat.eqb] in H, E. set (o' := match o with Automatic => c_order c | _ => o end) in *.
  destruct (pixel_strides_for o' nd) as [s|e|] eqn:Es; try discriminate.
  destruct (init_global_facts zero c nd nd loc s I H) as (_ & E2 & E3 & _). rewrite E in E2, E3. cbn zeta in E2.
  assert (N0 : (if (length nd =? 0)%nat then nd else nd) = nd) by (destruct (length nd =? 0)%nat; reflexivity). rewrite N0 in E2.
  split; [|split; [exact E2|]].
  - unfold init_global in H, E. rewrite N0 in H, E. destruct (_ <=? 0); [discriminate|]. destruct (_ <? 0); [discriminate|]. destruct (c_init c); [discriminate|].
    destruct (pixels_strided nd loc s); try discriminate; destruct (get_buffer_size nd s); try discriminate.
    unfold finish_init, with_pixels, sync, with_fields, map_fields in E. cbn [c_fields] in E. rewrite F in E. rewrite <- E. reflexivity.
  - rewrite E3. unfold pixel_strides_for, get_col_major_strides, get_row_major_strides in Es. destruct (dyn_dim_ok nd); [|destruct o'; discriminate].
    destruct o'; apply Ok_inj in Es; subst s; (split; [apply col_major_strides_length || apply row_major_strides_length|]; intros k Hk; (now apply zn_col_major || now apply zn_row_major)).
Qed.
Lemma new_coll_plain o : exists c, @new_coll A true o [] = Ok c /\ inv c /\ c_glob c = true /\ c_init c = false /\ c_fields c = [] /\ c_order c = o.
Proof.
  assert (N : exists c, @new_coll A true o [] = Ok c) by (unfold new_coll; cbn; eauto). destruct N as (c & N). exists c.
  destruct (new_coll_spec _ _ _ _ N) as (I & _ & F & G & O & Ini & _). auto 6.
Qed.
End Calls.
Lemma select_none sigs pos kw : (forall q, In q sigs -> unfit q pos kw) -> select sigs pos kw = None.
Proof.
  intros U. unfold select, overloads.
  assert (G : forall c s k, (forall q, In q s -> unfit q pos kw) -> first_fit c (map (fun p c => option_map (pair (fst p)) (fits (snd p) pos kw c)) (combine (seq k (length s)) s)) = None).
  { intros c. induction s as [|q s IH]; intros k H; [reflexivity|]. cbn [length seq combine map first_fit fst snd]. rewrite (H q (or_introl eq_refl) c). cbn [option_map].
    apply IH. intros q' I. apply H. now right. }
  now rewrite !G.
Qed.
Lemma four_coords {A} (zero : A) v0 v1 v2 v3 nd s : coord_arg v0 nd -> coord_arg v3 s \/ (exists o, order_arg v3 o) -> py_global zero [v0; v1; v2; v3] [] = None.
Proof.
  intros C0 C3. unfold py_global. rewrite select_none; [reflexivity|]. intros q I.
  assert (G : given coord_arg nd (argument [v0; v1; v2; v3] [] 0 "nb_domain_grid_pts"%string)) by exact C0.
  cbn in I. destruct I as [<-|[<-|[<-|[<-|[<-|[]]]]]].
  - exact (unfit_dims _ _ nd 0 _ G ltac:(lia) eq_refl).
  - exact (unfit_dims _ _ nd 1 _ G ltac:(lia) eq_refl).
  - intros c. apply (fits_badpos _ _ _ c 3 v3 (dflt "sub_pts"%string TSub (ODict []))); try reflexivity. destruct C3 as [C3|(o & ->)]; [exact (coord_not_sub c v3 s C3)|reflexivity].
  - intros c. apply (fits_missing _ _ _ c 4 (need "sub_pts"%string TSub)); reflexivity.
  - intros c. apply (fits_missing _ _ _ c 4 (need "sub_pts"%string TSub)); reflexivity.
Qed.
Lemma array_dim {A} (zero : A) n : index64 n -> py_global zero [OArg (ASeq KArray [NInt n])] [] = py_global zero [OArg (int_arg n)] [].
Proof.
  intros R. rewrite (call_dim zero [OArg (int_arg n)] [] n); [|split; [cbn; lia|constructor]|split; [reflexivity|exact R]].
  unfold py_global, select, overloads, global_sigs. cbn [length seq combine map first_fit fst snd fits forallb fill need dflt p_order p_name p_default p_type lookup option_map load_args load load_index load_coord].
  rewrite load64_int by exact R. cbn [option_map make_global snd]. apply f_equal. unfold built, made. now destruct (new_coll true ColMajor []).
Qed.
Lemma array_none {A} (zero : A) l : length l <> 1%nat -> py_global zero [OArg (ASeq KArray l)] [] = None.
Proof.
  intros L. unfold py_global. rewrite select_none; [reflexivity|]. intros q I. cbn in I.
  assert (T : forall c, load c TDim (OArg (ASeq KArray l)) = None) by (intros c; destruct l as [|x [|y l]]; [reflexivity|cbn in L; lia|destruct x; reflexivity]).
  destruct I as [<-|[<-|[<-|[<-|[<-|[]]]]]]; intros c.
  1,2: apply (fits_badpos _ _ _ c 0 (OArg (ASeq KArray l)) (need "spatial_dimension"%string TDim)); [reflexivity|reflexivity|apply T].
  all: apply (fits_badpos _ _ _ c 0 (OArg (ASeq KArray l)) (need "nb_domain_grid_pts"%string TCoord)); reflexivity.
Qed.
