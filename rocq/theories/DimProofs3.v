(** Registration of collections one after the other. *)
From Coq Require Import String Ascii.
From Verif Require Import Base CIntModel GridModel LayoutModel LayoutProofs NetCDFModel NetCDFSpec NetCDFProofs NetCDFProofs2 NetCDFProofs3 NetCDFProofs4 NetCDFProofs7.
From Verif Require Import DimModel DimSpec DimProofs DimProofs2.
Local Open Scope Z_scope.
Local Open Scope list_scope.

Section Collections.
Variable var : string -> ncvar.
Variable dom : list Z.
Variable all : list string.
Variable q : nfield.
Hypothesis PF : forall d d', Pd var all d -> Pd var all d' -> d_name d = d_name d' -> d = d'.

(** The object after the variables [done] and the state fields with [subs]. *)
Record inv (done subs : list string) (o : fobj) : Prop := mk_inv {
  in_dims : dinv var dom all o;
  in_names : map vname (o_vars o) = done;
  in_vars : forall x, In x (o_vars o) -> vo_var x = var (vname x) /\ points o (vo_refs x) (v_dims (vo_var x));
  in_subs : o_subs o = subs
}.
Definition hid (px : option (nfield * list string)) : list string := match px with Some (_, l) => l | None => [] end.
Definition ext (o o' : fobj) : Prop :=
  (exists ds, o_dims o' = o_dims o ++ map un ds) /\ (exists vs, o_vars o' = o_vars o ++ vs /\ forall x, In x vs -> vo_id x = None).
Lemma ext_refl o : ext o o.
Proof. split; [exists []; now rewrite app_nil_r|exists []; split; [now rewrite app_nil_r|intros x []]]. Qed.
Lemma ext_trans a b c : ext a b -> ext b c -> ext a c.
Proof.
  intros ((ds & E) & (vs & F & V)) ((ds' & E') & (vs' & F' & V')). split.
  - exists (ds ++ ds'). now rewrite E', E, map_app, app_assoc.
  - exists (vs ++ vs'). split; [now rewrite F', F, app_assoc|]. intros x I. apply in_app_or in I. destruct I; auto.
Qed.
Lemma extd_ext o o' : extd o o' -> ext o o'.
Proof. intros (E & V & _). split; [exact E|]. exists []. split; [now rewrite V, app_nil_r|intros x []]. Qed.

Lemma get_names_in o n : In n (get_names o) -> In n (map vname (o_vars o)).
Proof. unfold get_names. intros I. apply in_map_iff in I. destruct I as (x & <- & I). apply filter_In in I. apply in_map_iff. exists x. split; [reflexivity|tauto]. Qed.

(** A new variable with dimensions that are there. *)
Lemma add_var_inv done subs o o1 r hidden refs :
  inv done subs o -> extd o o1 -> dinv var dom all o1 -> points o1 refs (v_dims (var (rv_name r))) ->
  var (rv_name r) = mk_ncvar (rv_name r) (v_dims (var (rv_name r))) (rv_hist r) ->
  runs (add_var r hidden refs) o1 (fun v o2 => v = var (rv_name r) /\ inv (done ++ [rv_name r]) subs o2 /\ ext o o2 /\ o_pixels o2 = o_pixels o).
Proof.
  intros [I1 I2 I3 I4] E D P V. unfold runs, add_var. rewrite (dims_at_points _ _ _ P), <- V.
  exists (var (rv_name r)), (set_vars (o_vars o1 ++ [mk_varobj (var (rv_name r)) hidden refs None]) o1). split; [reflexivity|]. split; [reflexivity|].
  destruct E as ((ds & Ed) & Ev & Es & Ep). split; [|split].
  - constructor.
    + destruct D as [D1 D2 D3 D4]. constructor; assumption.
    + cbn [set_vars o_vars]. rewrite map_app, Ev, I2. cbn [map]. unfold vname at 1. cbn [vo_var]. rewrite V. reflexivity.
    + cbn [set_vars o_vars]. intros x I. apply in_app_or in I. destruct I as [I|[<-|[]]].
      * rewrite Ev in I. destruct (I3 x I) as [A B]. split; [exact A|]. change (points o1 (vo_refs x) (v_dims (vo_var x))).
        eapply points_more; [|exact B]. eapply dims_ext; exact Ed.
      * cbn [vo_refs vo_var]. split; [unfold vname; cbn [vo_var]; rewrite V at 2; reflexivity|exact P].
    + cbn. now rewrite Es.
  - split; [exists ds; exact Ed|]. exists [mk_varobj (var (rv_name r)) hidden refs None]. cbn [set_vars o_vars]. rewrite Ev. split; [reflexivity|].
    intros x [<-|[]]. reflexivity.
  - exact Ep.
Qed.
Lemma add_subs_inv done subs o r : inv done subs o ->
  runs (add_subs r) o (fun _ o' => inv done (subs ++ rv_subs r) o' /\ ext o o' /\ o_pixels o' = o_pixels o).
Proof.
  intros [I1 I2 I3 I4]. unfold runs, add_subs. eexists tt, _. split; [reflexivity|]. split; [|split; [|reflexivity]].
  - constructor; [destruct I1; constructor; assumption|exact I2|exact I3|cbn; now rewrite I4].
  - split; [exists []; cbn; now rewrite app_nil_r|]. exists []. split; [cbn; now rewrite app_nil_r|intros x []].
Qed.
Lemma runs_lift {S X} (r : res X) (o : S) (x : X) (Q : X -> S -> Prop) : r = Ok x -> Q x o -> runs (mlift r) o Q.
Proof. intros -> H. exists x, o. now split. Qed.

Lemma dims_global_runs hidden hist name f o : dinv var dom all o -> registered_as hidden hist name f (var name) -> nf_dom f = dom -> In name all ->
  runs (add_dims_global name f) o (fun refs o' => dinv var dom all o' /\ extd o o' /\
    points o' refs (tensor_dims name 0 (l_comp (nf_lay f)) ++ subpt_dims (nf_lay f) (nf_tag f) ++ grid_part dom)).
Proof.
  intros D (V & L3 & _) ED IA.
  assert (P : forall d, In d (tensor_dims name 0 (l_comp (nf_lay f)) ++ subpt_dims (nf_lay f) (nf_tag f) ++ grid_part dom) -> Pd var all d).
  { intros d I. right. exists name. split; [exact IA|]. rewrite V. cbn [v_dims]. rewrite ED. apply in_or_app. right. apply in_or_app. now right. }
  unfold add_dims_global. eapply runs_bind.
  - apply each_dim_runs; [exact PF|exact D|]. intros d I. apply P. rewrite app_assoc. apply in_or_app. now left.
  - intros a o1 (D1 & E1 & P1). eapply runs_bind.
    + rewrite ED. apply (grid_runs var dom all PF ltac:(rewrite <- ED; exact L3) dom grid_names 0 o1 D1); [reflexivity ..|].
      intros d I. apply P. apply in_or_app. right. apply in_or_app. right. exact I.
    + intros b o2 (D2 & E2 & P2). apply runs_ret. split; [exact D2|]. split; [eapply extd_trans; eassumption|].
      rewrite app_assoc. apply points_app; [eapply points_ext; eassumption|exact P2].
Qed.

Lemma runs_self {S X} (g : S -> M S X) (o : S) (Q : X -> S -> Prop) : runs (g o) o Q -> runs (fun o => g o o) o Q.
Proof. intros H. exact H. Qed.

(** One variable of a global collection. *)
Lemma global_var_runs done subs o hn r hidden : inv done subs o -> hidden = has (rv_name r) hn -> (rv_hist r <> None -> hidden = false) ->
  In (rv_name r) all -> ~ In (rv_name r) done -> nf_dom (rv_field r) = dom -> (rv_hist r = None -> ~ In (rv_name r) subs) ->
  (exists seen s, register_global seen hidden (rv_hist r) (rv_name r) (rv_field r) = (s, Ok (var (rv_name r)))) ->
  runs (register_global_var hn r) o (fun _ o' => inv (done ++ [rv_name r]) (subs ++ subs_of [r]) o' /\ ext o o' /\ o_pixels o' = o_pixels o).
Proof.
  intros I EHn HF IA ND ED NS (seen & s & R). apply register_global_inv in R. destruct R as [R C].
  pose proof (in_names _ _ _ I) as IN.
  unfold register_global_var. unfold runs. rewrite (has_not _ (get_names o)) by (intros X; apply get_names_in in X; rewrite IN in X; tauto).
  pose proof (proj1 R) as V.
  assert (VH : var (rv_name r) = mk_ncvar (rv_name r) (v_dims (var (rv_name r))) (rv_hist r)) by (rewrite V at 1; f_equal; rewrite V; reflexivity).
  destruct (rv_hist r) as [nb|] eqn:EH.
  - rewrite HF in * by discriminate.
    assert (H0 : subs_of [r] = rv_subs r) by (unfold subs_of; cbn [flat_map]; rewrite EH; apply app_nil_r). rewrite H0.
    change (runs (do a <- find_dim frame_dim; do b <- add_dim (hist_dim nb); do c <- add_dims_global (rv_name r) (rv_field r);
            do v <- add_var r false (a :: b :: c); do _ <- add_subs r; mlift (consistency_check_global v (rv_field r))) o
            (fun _ o' => inv (done ++ [rv_name r]) (subs ++ rv_subs r) o' /\ ext o o' /\ o_pixels o' = o_pixels o)).
    eapply runs_bind; [apply find_frame_runs with (1 := in_dims _ _ _ I)|]. intros a o0 (-> & Pa).
    eapply runs_bind; [apply (add_dim_runs var dom all PF (hist_dim nb) o (in_dims _ _ _ I))|].
    { right. exists (rv_name r). split; [exact IA|]. rewrite V. cbn [v_dims]. apply in_or_app. right. now left. }
    intros b o1 (D1 & E1 & P1).
    eapply runs_bind; [apply (dims_global_runs false (Some nb) _ _ o1 D1 R ED IA)|]. intros c o2 (D2 & E2 & P2).
    eapply runs_bind.
    { apply (add_var_inv done subs o o2 r false (a :: b :: c) I); [eapply extd_trans; eassumption|exact D2| |].
      - rewrite V. cbn [v_dims]. rewrite ED. change (a :: b :: c) with ([a] ++ [b] ++ c). apply points_app; [|apply (points_app o2 [b] [hist_dim nb] c); [|exact P2]].
        + eapply points_ext; [exact (extd_trans _ _ _ E1 E2)|exact Pa].
        + eapply points_ext; eassumption.
      - rewrite EH. exact VH. }
    intros v o3 (-> & I3 & E3 & EP3). eapply runs_bind; [apply (add_subs_inv _ _ _ r I3)|]. intros _ o4 (I4 & E4 & EP4).
    eapply runs_lift; [exact C|]. split; [exact I4|]. split; [eapply ext_trans; eassumption|congruence].
  - assert (H0 : subs_of [r] = []) by (unfold subs_of; cbn [flat_map]; rewrite EH; reflexivity). rewrite H0, app_nil_r.
    rewrite (has_not _ (o_subs o)) by (rewrite (in_subs _ _ _ I); apply NS; reflexivity).
    rewrite <- EHn.
    change (runs (do a <- meach find_dim (frame_part hidden); do c <- add_dims_global (rv_name r) (rv_field r);
            do v <- add_var r hidden (a ++ c); mlift (consistency_check_global v (rv_field r))) o
            (fun _ o' => inv (done ++ [rv_name r]) subs o' /\ ext o o' /\ o_pixels o' = o_pixels o)).
    eapply runs_bind.
    { instantiate (1 := fun y o0 => points o y (frame_part hidden) /\ o0 = o). destruct hidden; [apply runs_ret; now split|].
      cbn [meach frame_part]. eapply runs_bind; [apply find_frame_runs with (1 := in_dims _ _ _ I)|]. intros a o0 (-> & Pa).
      eapply runs_bind; [apply runs_ret with (Q := fun y o0 => y = [] /\ o0 = o); now split|]. intros y o0 (-> & ->).
      apply runs_ret. split; [exact Pa|reflexivity]. }
    intros a o0 (Pa & ->). eapply runs_bind; [apply (dims_global_runs hidden None _ _ o (in_dims _ _ _ I) R ED IA)|]. intros c o2 (D2 & E2 & P2).
    eapply runs_bind.
    { apply (add_var_inv done subs o o2 r hidden (a ++ c) I); [exact E2|exact D2| |rewrite EH; exact VH].
      rewrite V. cbn [v_dims]. rewrite ED. apply points_app; [eapply points_ext; eassumption|exact P2]. }
    intros v o3 (-> & I3 & E3 & EP3). eapply runs_lift; [exact C|]. now split.
Qed.

(** One variable of a local collection. *)
Lemma local_var_runs done subs o total pixels r : inv done subs o ->
  In (rv_name r) all -> ~ In (rv_name r) done -> (rv_hist r = None -> ~ In (rv_name r) subs) ->
  register_local total (rv_hist r) (rv_name r) (rv_field r) pixels = Ok (var (rv_name r)) ->
  runs (register_local_var total pixels r) o (fun _ o' => inv (done ++ [rv_name r]) (subs ++ subs_of [r]) o' /\ ext o o' /\ o_pixels o' = o_pixels o).
Proof.
  intros I IA ND NS R. apply register_local_inv in R. destruct R as [R C].
  pose proof (in_names _ _ _ I) as IN.
  unfold register_local_var. unfold runs. rewrite (has_not _ (get_names o)) by (intros X; apply get_names_in in X; rewrite IN in X; tauto).
  pose proof (proj1 R) as V.
  assert (VH : var (rv_name r) = mk_ncvar (rv_name r) (v_dims (var (rv_name r))) (rv_hist r)) by (rewrite V at 1; f_equal; rewrite V; reflexivity).
  assert (VD : v_dims (var (rv_name r)) = frame_dim :: hist_part (rv_hist r) ++ add_field_dims_local total (rv_name r) (rv_field r)) by (rewrite V; reflexivity).
  assert (PD : forall d, In d (add_field_dims_local total (rv_name r) (rv_field r)) -> Pd var all d).
  { intros d Id. right. exists (rv_name r). split; [exact IA|]. rewrite VD. right. apply in_or_app. now right. }
  destruct (rv_hist r) as [nb|] eqn:EH.
  - assert (H0 : subs_of [r] = rv_subs r) by (unfold subs_of; cbn [flat_map]; rewrite EH; apply app_nil_r). rewrite H0.
    change (runs (do a <- find_dim frame_dim; do b <- add_dim (hist_dim nb); do c <- add_dims_local total (rv_name r) (rv_field r);
            do v <- add_var r false (a :: b :: c); do _ <- add_subs r; mlift (consistency_check_local v (rv_field r) pixels)) o
            (fun _ o' => inv (done ++ [rv_name r]) (subs ++ rv_subs r) o' /\ ext o o' /\ o_pixels o' = o_pixels o)).
    eapply runs_bind; [apply find_frame_runs with (1 := in_dims _ _ _ I)|]. intros a o0 (-> & Pa).
    eapply runs_bind; [apply (add_dim_runs var dom all PF (hist_dim nb) o (in_dims _ _ _ I))|].
    { right. exists (rv_name r). split; [exact IA|]. rewrite VD. right. now left. }
    intros b o1 (D1 & E1 & P1).
    eapply runs_bind; [apply (each_dim_runs var dom all PF _ o1 D1 PD)|]. intros c o2 (D2 & E2 & P2).
    eapply runs_bind.
    { apply (add_var_inv done subs o o2 r false (a :: b :: c) I); [eapply extd_trans; eassumption|exact D2| |].
      - rewrite VD. change (a :: b :: c) with ([a] ++ [b] ++ c). apply (points_app o2 [a] [frame_dim]); [|apply (points_app o2 [b] [hist_dim nb] c); [|exact P2]].
        + eapply points_ext; [exact (extd_trans _ _ _ E1 E2)|exact Pa].
        + eapply points_ext; eassumption.
      - rewrite EH. exact VH. }
    intros v o3 (-> & I3 & E3 & EP3). eapply runs_bind; [apply (add_subs_inv _ _ _ r I3)|]. intros _ o4 (I4 & E4 & EP4).
    eapply runs_lift; [exact C|]. split; [exact I4|]. split; [eapply ext_trans; eassumption|congruence].
  - assert (H0 : subs_of [r] = []) by (unfold subs_of; cbn [flat_map]; rewrite EH; reflexivity). rewrite H0, app_nil_r.
    rewrite (has_not _ (o_subs o)) by (rewrite (in_subs _ _ _ I); apply NS; reflexivity).
    change (runs (do a <- find_dim frame_dim; do c <- add_dims_local total (rv_name r) (rv_field r);
            do v <- add_var r false (a :: c); mlift (consistency_check_local v (rv_field r) pixels)) o
            (fun _ o' => inv (done ++ [rv_name r]) subs o' /\ ext o o' /\ o_pixels o' = o_pixels o)).
    eapply runs_bind; [apply find_frame_runs with (1 := in_dims _ _ _ I)|]. intros a o0 (-> & Pa).
    eapply runs_bind; [apply (each_dim_runs var dom all PF _ o (in_dims _ _ _ I) PD)|]. intros c o2 (D2 & E2 & P2).
    eapply runs_bind.
    { apply (add_var_inv done subs o o2 r false (a :: c) I); [exact E2|exact D2| |rewrite EH; exact VH].
      rewrite VD. apply (points_app o2 [a] [frame_dim]); [eapply points_ext; eassumption|exact P2]. }
    intros v o3 (-> & I3 & E3 & EP3). eapply runs_lift; [exact C|]. now split.
Qed.

(** Fields of state fields are passed over. *)
Lemma skip_global o hn r done subs : inv done subs o -> rv_hist r = None -> In (rv_name r) subs -> ~ In (rv_name r) all -> incl done all ->
  register_global_var hn r o = (o, Ok tt).
Proof.
  intros I EH IS NA IC. unfold register_global_var. rewrite has_not, EH.
  - rewrite (in_subs _ _ _ I). now rewrite (proj2 (has_in _ _) IS).
  - intros X. apply get_names_in in X. rewrite (in_names _ _ _ I) in X. apply NA, IC, X.
Qed.
Lemma skip_local o total pixels r done subs : inv done subs o -> rv_hist r = None -> In (rv_name r) subs -> ~ In (rv_name r) all -> incl done all ->
  register_local_var total pixels r o = (o, Ok tt).
Proof.
  intros I EH IS NA IC. unfold register_local_var. rewrite has_not, EH.
  - rewrite (in_subs _ _ _ I). now rewrite (proj2 (has_in _ _) IS).
  - intros X. apply get_names_in in X. rewrite (in_names _ _ _ I) in X. apply NA, IC, X.
Qed.

(** All variables of a collection; [one] registers one of them. *)
Lemma vars_runs (one : rvar -> M fobj unit) (good : rvar -> Prop) (px : option (nfield * list string)) :
  (forall done subs o r, inv done subs o -> o_pixels o = px -> incl (hid px) done -> In (rv_name r) all -> ~ In (rv_name r) done -> (rv_hist r = None -> ~ In (rv_name r) subs) -> good r ->
     runs (one r) o (fun _ o' => inv (done ++ [rv_name r]) (subs ++ subs_of [r]) o' /\ ext o o' /\ o_pixels o' = px)) ->
  (forall done subs o r, inv done subs o -> rv_hist r = None -> In (rv_name r) subs -> ~ In (rv_name r) all -> incl done all -> one r o = (o, Ok tt)) ->
  forall vars done subs o, inv done subs o -> o_pixels o = px -> incl (hid px) done -> (forall r, In r (saved subs vars) -> good r) ->
  incl done all -> incl (map rv_name (saved subs vars)) all -> NoDup (done ++ map rv_name (saved subs vars)) ->
  (forall s, In s (subs ++ subs_of vars) -> ~ In s all) ->
  runs (meach one vars) o (fun _ o' => inv (done ++ map rv_name (saved subs vars)) (subs ++ subs_of vars) o' /\ ext o o' /\ o_pixels o' = px).
Proof.
  intros K1 K2. induction vars as [|r vars IH]; intros done subs o I EP HP G IC IS ND NS; cbn [meach saved].
  - apply runs_ret. cbn [map subs_of flat_map]. rewrite !app_nil_r. split; [exact I|]. split; [apply ext_refl|exact EP].
  - assert (ST : forall subs', subs_of (r :: vars) = subs' ++ subs_of vars -> subs' = subs_of [r]).
    { intros subs' E. unfold subs_of in *. cbn [flat_map] in *. rewrite app_nil_r. now apply app_inv_tail in E. }
    assert (SE : subs_of (r :: vars) = subs_of [r] ++ subs_of vars) by (unfold subs_of; cbn [flat_map]; now rewrite app_nil_r).
    assert (STEP : forall rest, saved subs (r :: vars) = r :: rest -> rest = saved (subs ++ subs_of [r]) vars -> (rv_hist r = None -> ~ In (rv_name r) subs) ->
      runs (do y <- one r; do ys <- meach one vars; mret (y :: ys)) o
        (fun _ o' => inv (done ++ map rv_name (r :: rest)) (subs ++ subs_of (r :: vars)) o' /\ ext o o' /\ o_pixels o' = px)).
    { intros rest ES ER HN. rewrite ES in *. cbn [map] in *.
      assert (NI : ~ In (rv_name r) done) by (intros X; apply NoDup_remove_2 in ND; apply ND, in_or_app; now left).
      eapply runs_bind; [apply (K1 done subs o r I EP HP); [apply IS; now left|exact NI|exact HN|apply G; now left]|].
      intros y o1 (I1 & E1 & P1). eapply runs_bind.
      - apply (IH (done ++ [rv_name r]) (subs ++ subs_of [r]) o1 I1 P1); try rewrite <- ER.
        + intros x X. apply in_or_app. left. now apply HP.
        + intros x X. apply G. now right.
        + intros x X. apply in_app_or in X. destruct X as [X|[<-|[]]]; [now apply IC|apply IS; now left].
        + intros x X. apply IS. now right.
        + rewrite <- app_assoc. exact ND.
        + intros s X. apply NS. now rewrite SE, app_assoc.
      - intros ys o2 (I2 & E2 & P2). apply runs_ret. rewrite <- ER in I2. rewrite SE.
        rewrite <- !app_assoc in I2. cbn [app] in I2. split; [exact I2|]. split; [eapply ext_trans; eassumption|exact P2]. }
    destruct (rv_hist r) as [nb|] eqn:EH.
    + apply STEP; [cbn [saved]; now rewrite EH| |discriminate].
      f_equal. f_equal. unfold subs_of. cbn [flat_map]. now rewrite EH, app_nil_r.
    + assert (SN : subs_of [r] = []) by (unfold subs_of; cbn [flat_map]; now rewrite EH).
      destruct (in_dec string_dec (rv_name r) subs) as [IS0|IS0].
      * assert (ES : saved subs (r :: vars) = saved subs vars) by (cbn [saved]; rewrite EH; now destruct (in_dec _ _ _)).
        rewrite ES in *. eapply runs_bind.
        -- exists tt, o. split; [|exact (conj eq_refl eq_refl : (fun (y : unit) o0 => y = tt /\ o0 = o) tt o)].
           apply (K2 done subs o r I EH IS0); [apply NS; apply in_or_app; now left|exact IC].
        -- intros y o0 (_ & ->). rewrite SE, SN in *. cbn [app] in *. eapply runs_bind; [apply (IH done subs o I EP HP G IC IS ND NS)|].
           intros ys o2 H2. apply runs_ret. exact H2.
      * apply STEP; [cbn [saved]; rewrite EH; now destruct (in_dec _ _ _)| |intros _; exact IS0].
        rewrite SN, app_nil_r. reflexivity.
Qed.

(** One collection. *)
Definition op_names (subs : list string) (op : rop) : list string :=
  match op with
  | RGlobal _ vars => map rv_name (saved subs vars)
  | RLocal n _ _ vars => n :: map rv_name (saved subs vars)
  end.
Definition op_good (subs : list string) (op : rop) : Prop :=
  match op with
  | RGlobal g vars => forall r, In r (saved subs vars) -> nf_dom (rv_field r) = dom /\ registered (rv_hist r) (rv_name r) (rv_field r) (var (rv_name r))
  | RLocal n total pixels vars => registered_pixels n (named q n) (var n) /\
      (forall r, In r (saved subs vars) -> register_local total (rv_hist r) (rv_name r) (rv_field r) pixels = Ok (var (rv_name r)))
  end.
Definition op_ready (op : rop) (o : fobj) : Prop :=
  (exists l, o_pixels o = Some (q, l)) \/ (o_pixels o = None /\ exists g vars, op = RGlobal g vars /\ pixels_field g = Ok q).

Lemma global_runs px vars done subs o hn : inv done subs o -> o_pixels o = px -> hn = hid px -> incl (hid px) done ->
  (forall r, In r (saved subs vars) -> nf_dom (rv_field r) = dom /\ registered (rv_hist r) (rv_name r) (rv_field r) (var (rv_name r))) ->
  incl done all -> incl (map rv_name (saved subs vars)) all -> NoDup (done ++ map rv_name (saved subs vars)) ->
  (forall s, In s (subs ++ subs_of vars) -> ~ In s all) ->
  runs (meach (register_global_var hn) vars) o (fun _ o' => inv (done ++ map rv_name (saved subs vars)) (subs ++ subs_of vars) o' /\ ext o o' /\ o_pixels o' = px).
Proof.
  intros I EP -> HP G IC IS ND NS.
  apply (vars_runs (register_global_var (hid px)) (fun r => nf_dom (rv_field r) = dom /\ registered (rv_hist r) (rv_name r) (rv_field r) (var (rv_name r))) px); try assumption.
  - intros done0 subs0 o0 r I0 P0 H0 A0 N0 S0 (D0 & R0).
    assert (F : has (rv_name r) (hid px) = false) by (apply has_not; intros X; apply N0, H0, X).
    eapply runs_weak; [apply (global_var_runs done0 subs0 o0 (hid px) r false); try assumption; [now rewrite F|reflexivity]|].
    cbn beta. rewrite P0. intros _ o1 H1. exact H1.
  - intros done0 subs0 o0 r I0 H0 S0 A0 N0. eapply skip_global; eassumption.
Qed.
Lemma op_runs op done subs o : inv done subs o -> op_ready op o -> incl (hid (o_pixels o)) done -> op_good subs op -> nf_dom q = dom ->
  incl done all -> incl (op_names subs op) all -> NoDup (done ++ op_names subs op) ->
  (forall s, In s (subs ++ subs_of (op_vars op)) -> ~ In s all) ->
  runs (register_op op) o (fun _ o' => inv (done ++ op_names subs op) (subs ++ subs_of (op_vars op)) o' /\ ext o o' /\
    exists l, o_pixels o' = Some (q, l) /\ incl l (done ++ op_names subs op)).
Proof.
  intros I RD HP G QD IC IS ND NS. destruct op as [g vars|n total pixels vars]; cbn [register_op op_names op_vars op_good] in *.
  - unfold register_global_coll.
    change (runs (do _ <- meach (register_global_var (hid (o_pixels o))) vars; initialise_pixels g) o
      (fun _ o' => inv (done ++ map rv_name (saved subs vars)) (subs ++ subs_of vars) o' /\ ext o o' /\
        exists l, o_pixels o' = Some (q, l) /\ incl l (done ++ map rv_name (saved subs vars)))).
    eapply runs_bind; [apply (global_runs (o_pixels o) vars done subs o _ I); try assumption; reflexivity|].
    intros _ o1 (I1 & E1 & P1). unfold runs, initialise_pixels. rewrite P1.
    destruct RD as [(l & EP)|(EP & g' & vars' & EO & EQ)].
    + rewrite EP in *. exists tt, o1. split; [reflexivity|]. split; [exact I1|]. split; [exact E1|]. exists l. split; [exact P1|].
      intros x X. apply in_or_app. left. now apply HP.
    + rewrite EP. injection EO as <- <-. unfold mbind, mlift. rewrite EQ. exists tt, (set_pixels (q, []) o1). split; [reflexivity|].
      split; [|split].
      * destruct I1 as [[X1 X2 X3 X4] Y2 Y3 Y4]. constructor; try assumption. constructor; assumption.
      * exact E1.
      * exists []. split; [reflexivity|intros x []].
  - destruct G as [GP GV]. destruct RD as [(l & EP)|(_ & g' & vars' & EO & _)]; [|discriminate EO].
    rewrite EP in HP. cbn [hid] in HP.
    assert (NI : ~ In n done) by (intros X; apply NoDup_remove_2 in ND; apply ND, in_or_app; now left).
    unfold register_local_coll. eapply runs_bind.
    { unfold runs, register_pixels. rewrite EP, has_not by (intros X; apply NI, HP, X).
      exists (named q n), (set_pixels (q, l ++ [n]) o). split; [reflexivity|].
      instantiate (1 := fun p o1 => p = named q n /\ o1 = set_pixels (q, l ++ [n]) o). now split. }
    intros p o1 (-> & E1).
    assert (I1 : inv done subs o1) by (rewrite E1; destruct I as [[X1 X2 X3 X4] Y2 Y3 Y4]; constructor; try assumption; constructor; assumption).
    assert (P1 : o_pixels o1 = Some (q, l ++ [n])) by now rewrite E1.
    assert (EX1 : ext o o1) by (rewrite E1; exact (ext_refl o)).
    eapply runs_bind.
    { apply (runs_self (fun o => register_global_var (hidden_names o) (mk_rvar n None (named q n) [])) o1). cbn beta.
      apply (global_var_runs done subs o1 (hidden_names o1) (mk_rvar n None (named q n) []) true I1); cbn [rv_name rv_hist rv_field].
      - unfold hidden_names. rewrite P1. symmetry. apply has_in, in_or_app. right. now left.
      - intros X. now elim X.
      - apply IS. now left.
      - exact NI.
      - exact QD.
      - intros _ X. apply (NS n); [apply in_or_app; now left|apply IS; now left].
      - exact GP. }
    intros _ o2 (I2 & E2 & P2). rewrite app_nil_r in I2. rewrite P1 in P2. eapply runs_bind.
    { apply (vars_runs (register_local_var total pixels) (fun r => register_local total (rv_hist r) (rv_name r) (rv_field r) pixels = Ok (var (rv_name r))) (Some (q, l ++ [n])))
        with (done := done ++ [n]) (subs := subs); try assumption.
      - intros done0 subs0 o0 r I0 P0 H0 A0 N0 S0 R0. rewrite <- P0. apply local_var_runs; assumption.
      - intros done0 subs0 o0 r I0 H0 S0 A0 N0. eapply skip_local; eassumption.
      - cbn [hid]. intros x X. apply in_app_or in X. apply in_or_app. destruct X as [X|X]; [left; now apply HP|now right].
      - intros x X. apply in_app_or in X. destruct X as [X|[<-|[]]]; [now apply IC|apply IS; now left].
      - intros x X. apply IS. now right.
      - rewrite <- app_assoc. exact ND. }
    intros _ o3 (I3 & E3 & P3). apply runs_ret. rewrite <- app_assoc in I3. split; [exact I3|].
    split; [eapply ext_trans; [exact EX1|eapply ext_trans; eassumption]|]. exists (l ++ [n]). split; [exact P3|].
    intros x X. apply in_app_or in X. apply in_or_app. destruct X as [X|[<-|[]]]; [left; now apply HP|right; now left].
Qed.
End Collections.
