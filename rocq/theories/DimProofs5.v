(** Files with several collections: created, and opened again. *)
From Coq Require Import String Ascii.
From Verif Require Import Base CIntModel GridModel LayoutModel LayoutProofs NetCDFModel NetCDFSpec NetCDFProofs NetCDFProofs2 NetCDFProofs3 NetCDFProofs4 NetCDFProofs7.
From Verif Require Import DimModel DimSpec DimProofs DimProofs2 DimProofs3 DimProofs4.
From Verif Require AttModel.
Local Open Scope Z_scope.
Local Open Scope list_scope.

Lemma names_cons subs op ops : names subs (op :: ops) = op_names subs op ++ names (subs ++ subs_of (op_vars op)) ops.
Proof. destruct op; reflexivity. Qed.
Lemma registrable_cons var dom q subs op ops : registrable var dom q subs (op :: ops) ->
  op_good var dom q subs op /\ registrable var dom q (subs ++ subs_of (op_vars op)) ops.
Proof. destruct op; cbn; tauto. Qed.
Lemma subs_of_app a b : subs_of (a ++ b) = subs_of a ++ subs_of b.
Proof. apply flat_map_app. Qed.

Lemma op_facts var dom q subs op : op_good var dom q subs op -> nf_dom q = dom -> forall n, In n (op_names subs op) -> fit (var n) ->
  v_name (var n) = n /\ origin dom (var n) /\ tame (var n).
Proof.
  intros G QD n I F. destruct op as [g vars|l total pixels vars]; cbn [op_names op_good] in *.
  - apply in_map_iff in I. destruct I as (r & <- & I). destruct (G r I) as [D (seen & s & R)]. apply register_global_inv in R. destruct R as [R _].
    split; [now rewrite (proj1 R)|]. split; [eapply origin_global; eassumption|eapply tame_global; exact R].
  - destruct G as [(seen & s & GP) GV]. destruct I as [<-|I].
    + apply register_global_inv in GP. destruct GP as [R _]. split; [now rewrite (proj1 R)|]. split; [eapply origin_global; [exact R|exact QD|exact F]|eapply tame_global; exact R].
    + apply in_map_iff in I. destruct I as (r & <- & I). pose proof (GV r I) as R. pose proof R as R0. apply register_local_inv in R0. destruct R0 as [R0 _].
      split; [now rewrite (proj1 R0)|]. split; [eapply origin_local; eassumption|eapply tame_local; exact R0].
Qed.
Lemma all_facts var dom q : nf_dom q = dom -> forall ops subs, registrable var dom q subs ops -> forall n, In n (names subs ops) -> fit (var n) ->
  v_name (var n) = n /\ origin dom (var n) /\ tame (var n).
Proof.
  intros QD ops. induction ops as [|op ops IH]; intros subs R n I F; [destruct I|]. apply registrable_cons in R. destruct R as [G R].
  rewrite names_cons in I. apply in_app_or in I. destruct I as [I|I]; [eapply op_facts; eassumption|eapply IH; eassumption].
Qed.

Lemma NoDup_app_remove_r {X} (a b : list X) : NoDup (a ++ b) -> NoDup a.
Proof. induction a as [|x a IH]; intros H; [constructor|]. cbn in H. inversion H; subst. constructor; [|now apply IH]. intros I. apply H2, in_or_app. now left. Qed.

Section Sessions.
Variable var : string -> ncvar.
Variable dom : list Z.
Variable all : list string.
Variable q : nfield.
Hypothesis QD : nf_dom q = dom.
Hypothesis FT : forall n, In n all -> fit (var n).
Hypothesis VN : forall n, In n all -> v_name (var n) = n.
Hypothesis VO : forall n, In n all -> origin dom (var n).
Hypothesis VT : forall n, In n all -> tame (var n).

Lemma functional d d' : Pd var all d -> Pd var all d' -> d_name d = d_name d' -> d = d'.
Proof.
  intros [->|(n & I & D)] [->|(n' & I' & D')] E.
  - reflexivity.
  - symmetry. apply (origin_frame dom (var n') (VO n' I') d' D'). now rewrite <- E.
  - apply (origin_frame dom (var n) (VO n I) d D). now rewrite E.
  - apply (origin_same dom (var n) (var n') d d' (VO n I) (VO n' I')); try assumption.
    rewrite (VN n I), (VN n' I'). now intros ->.
Qed.
Lemma Pd_filed d : Pd var all d -> AttModel.legal_name (d_name d) = true /\ (d = frame_dim \/ 0 < d_size d).
Proof.
  intros [->|(n & I & D)]; [split; [reflexivity|now left]|]. destruct (FT n I) as [_ F]. rewrite Forall_forall in F. destruct (F d D) as [L S]. split; [exact L|].
  destruct (string_dec (d_name d) "frame") as [E|E]; [left; exact (origin_frame dom (var n) (VO n I) d D E)|right; now apply S].
Qed.
Lemma dims_filed o : dinv var dom all o -> filed (dims o).
Proof. intros [H1 H2 _ _]. split; [exact H2|]. intros d I. apply Pd_filed. now apply H1. Qed.

Lemma refs_bound o refs ds : points o refs ds -> forall i, In i refs -> exists d, nth_error (dims o) i = Some d /\ In d ds.
Proof.
  unfold points. revert ds. induction refs as [|j refs IH]; intros [|d ds] H i I; try discriminate; [destruct I|]. cbn [map] in H. injection H as H1 H2.
  destruct I as [<-|I]; [exists d; split; [exact H1|now left]|]. destruct (IH ds H2 i I) as (e & E & J). exists e. split; [exact E|now right].
Qed.
Lemma inv_vgood done subs o x : inv var dom all done subs o -> incl done all -> In x (o_vars o) -> vgood (dims o) x.
Proof.
  intros I IC X. destruct (in_vars _ _ _ _ _ _ I x X) as [EV P].
  assert (NA : In (vname x) all) by (apply IC; rewrite <- (in_names _ _ _ _ _ _ I); apply in_map_iff; eauto).
  split; [|split].
  - destruct (FT _ NA) as [L _]. now rewrite (VN _ NA) in L.
  - intros i J. destruct (refs_bound _ _ _ P i J) as (d & N & _). apply nth_error_Some. rewrite N. discriminate.
  - intros i d J N. rewrite EV in P.
    destruct (VT _ NA) as (rest & ED & NF).
    assert (P' : exists pre rest', points o (tl (vo_refs x)) rest' /\ pre ++ rest' = v_dims (var (vname x)) /\ length pre = min 1 (length (v_dims (var (vname x))))).
    { unfold points in *. destruct (vo_refs x) as [|j t], (v_dims (var (vname x))) as [|e es]; try discriminate P; [exists [], []; auto|]. cbn [map tl] in *. injection P as _ P. exists [e], es. auto. }
    destruct P' as (pre & rest' & P' & EP & LP). destruct (refs_bound _ _ _ P' i J) as (d' & N' & D'). rewrite N in N'. injection N' as <-.
    assert (ND : d_name d <> "frame"%string).
    { apply NF. destruct ED as [ED|ED]; rewrite ED in EP, LP.
      - rewrite <- EP. apply in_or_app. now right.
      - cbn [length Nat.min] in LP. destruct pre as [|z [|z' pre]]; cbn in LP; try lia. cbn [app] in EP. injection EP as _ <-. exact D'. }
    destruct (FT _ NA) as [_ F]. rewrite Forall_forall in F. destruct (F d) as [_ S]; [rewrite <- EP; apply in_or_app; now right|]. specialize (S ND). lia.
Qed.

(** The object and a file it makes. *)
Definition pix (op : rop) (o : fobj) (done : list string) : Prop := op_ready q op o /\ incl (hid (o_pixels o)) done.
Record cinv (done subs : list string) (s : sess) : Prop := mk_cinv {
  ci_inv : inv var dom all done subs (fst s);
  ci_dims : exists new, o_dims (fst s) = num 0 (lf_dims (snd s)) ++ map un new;
  ci_vars : exists va, o_vars (fst s) = vnum 0 va /\ lf_vars (snd s) = map fv (vnum 0 va)
}.
Lemma sync_inv done subs o ds vs : inv var dom all done subs o -> dims o = ds -> map vname vs = map vname (o_vars o) ->
  (forall y, In y vs -> exists x, In x (o_vars o) /\ vo_var y = vo_var x /\ vo_refs y = vo_refs x) ->
  forall l, map do_dim l = ds -> inv var dom all done subs (set_vars vs (set_dims l o)).
Proof.
  intros [[D1 D2 D3 D4] I2 I3 I4] ED EN EV l EL.
  assert (EX : dims (set_vars vs (set_dims l o)) = dims o) by (rewrite ED; exact EL).
  constructor.
  - constructor; try rewrite EX; assumption.
  - cbn [set_vars o_vars]. congruence.
  - cbn [set_vars o_vars]. intros y Y. destruct (EV y Y) as (x & X & A & B). destruct (I3 x X) as [C D]. unfold vname. rewrite A, B.
    split; [exact C|]. unfold points. rewrite EX. exact D.
  - exact I4.
Qed.
Lemma vnum_in xs : forall k y, In y (vnum k xs) -> exists x, In x xs /\ vo_var y = vo_var x /\ vo_refs y = vo_refs x.
Proof.
  induction xs as [|x xs IH]; intros k y I; [destruct I|]. destruct I as [<-|I]; [exists x; split; [now left|now split]|].
  destruct (IH _ _ I) as (z & Z0 & H). exists z. split; [now right|exact H].
Qed.
Lemma create_op_runs op done subs s : cinv done subs s -> pix op (fst s) done -> op_good var dom q subs op ->
  incl done all -> incl (op_names subs op) all -> NoDup (done ++ op_names subs op) ->
  (forall t, In t (subs ++ subs_of (op_vars op)) -> ~ In t all) ->
  runs (create_op op) s (fun _ s' => cinv (done ++ op_names subs op) (subs ++ subs_of (op_vars op)) s' /\
    (exists l, o_pixels (fst s') = Some (q, l) /\ incl l (done ++ op_names subs op)) /\ lf_dims (snd s') = dims (fst s')).
Proof.
  destruct s as [o [fd fvs]]. intros [I (new & ED) (va & EV & EF)] [RD HP] G IC IS ND NS. cbn [fst snd lf_dims lf_vars] in *. set (f := mk_nclib fd fvs).
  destruct (op_runs var dom all q functional op done subs o I RD HP G QD IC IS ND NS) as (u & o1 & E1 & I1 & X1 & PX).
  unfold create_op. eapply runs_bind.
  { exists u, (o1, f). split; [unfold on_obj; cbn [fst]; rewrite E1; reflexivity|].
    instantiate (1 := fun _ s => s = (o1, f)). reflexivity. }
  intros _ s ->. unfold define_all. cbn [fst]. destruct X1 as ((ds & ED1) & (vs & EV1 & VI)).
  assert (ED2 : o_dims o1 = num 0 fd ++ map un (new ++ ds)) by (rewrite ED1, ED, map_app, app_assoc; reflexivity).
  assert (DF : dims o1 = fd ++ new ++ ds).
  { unfold dims. rewrite ED2, map_app, num_dims, map_map. f_equal. apply map_id. }
  pose proof (dims_filed o1 (in_dims _ _ _ _ _ _ I1)) as FL.
  apply (runs_self (fun s => do _ <- meach define_dim (seq 0 (length (o_dims (fst s)))); do _ <- meach define_var (seq 0 (length (o_vars (fst s)))); mret tt) (o1, f)).
  cbn [fst]. eapply runs_bind.
  { apply (define_dims_runs o1 fd (new ++ ds) fvs ED2). now rewrite <- DF. }
  intros _ s ->. rewrite <- DF. rewrite EV in EV1. set (o2 := set_dims (num 0 (dims o1)) o1).
  assert (EVS : o_vars o2 = vnum 0 va ++ vs) by exact EV1.
  assert (IC1 : incl (done ++ op_names subs op) all) by (intros x X; apply in_app_or in X; destruct X; auto).
  eapply runs_bind.
  { rewrite EF. change (o_vars o1) with (o_vars o2). apply (define_vars_runs (dims o1) o2 va vs).
    - reflexivity.
    - exact EVS.
    - intros x X. split; [now apply VI|]. eapply inv_vgood; [exact I1|exact IC1|]. rewrite EV1. apply in_or_app. now right.
    - change (o_vars o2) with (o_vars o1). rewrite (in_names _ _ _ _ _ _ I1). exact ND. }
  intros _ s ->. apply runs_ret. split; [|split; [exact PX|]].
  - constructor; cbn [fst snd lf_dims lf_vars].
    + apply (sync_inv _ _ o1 (dims o1) _ I1 eq_refl); [apply vnum_map; reflexivity|intros y Y; apply vnum_in in Y; exact Y|apply num_dims].
    + exists []. cbn [map]. rewrite app_nil_r. reflexivity.
    + exists (o_vars o2). split; [reflexivity|]. symmetry. now apply vnum_map.
  - cbn [fst snd lf_dims]. unfold dims. cbn [set_vars o_dims set_dims o2]. unfold o2. cbn. now rewrite num_dims.
Qed.

(** The object and a file that exists. *)
Record oinv (done subs : list string) (f : nclib) (s : sess) : Prop := mk_oinv {
  oi_file : snd s = f;
  oi_inv : inv var dom all done subs (fst s);
  oi_dims : forall x, In x (o_dims (fst s)) -> do_id x = None \/ x = gd f x;
  oi_vars : forall x, In x (o_vars (fst s)) -> vo_id x = None \/ x = gv f x
}.
Lemma Pd_in_file f d : In frame_dim (lf_dims f) -> (forall n, In n all -> file_var f n (v_dims (var n))) -> Pd var all d -> In d (lf_dims f).
Proof.
  intros FR FV [->|(n & I & D)]; [exact FR|]. destruct (FV n I) as (ids & _ & E). revert E D. generalize (v_dims (var n)). induction ids as [|i ids IH]; intros [|e l] E D; try discriminate; [destruct D|].
  cbn [map] in E. injection E as E1 E2. destruct D as [->|D]; [eapply nth_error_In; exact E1|now apply (IH l)].
Qed.
Lemma open_op_runs op done subs f s : proper f -> In frame_dim (lf_dims f) -> (forall n, In n all -> file_var f n (v_dims (var n))) ->
  oinv done subs f s -> pix op (fst s) done -> op_good var dom q subs op ->
  incl done all -> incl (op_names subs op) all -> NoDup (done ++ op_names subs op) ->
  (forall t, In t (subs ++ subs_of (op_vars op)) -> ~ In t all) ->
  runs (open_op op) s (fun _ s' => oinv (done ++ op_names subs op) (subs ++ subs_of (op_vars op)) f s' /\
    (exists l, o_pixels (fst s') = Some (q, l) /\ incl l (done ++ op_names subs op)) /\
    (forall x, In x (o_vars (fst s')) -> x = gv f x)).
Proof.
  intros PR FR FV. destruct s as [o f0]. intros [E0 I OD OV] [RD HP] G IC IS ND NS. cbn [fst snd] in *. subst f0.
  destruct (op_runs var dom all q functional op done subs o I RD HP G QD IC IS ND NS) as (u & o1 & E1 & I1 & X1 & PX).
  unfold open_op. eapply runs_bind.
  { exists u, (o1, f). split; [unfold on_obj; cbn [fst]; rewrite E1; reflexivity|].
    instantiate (1 := fun _ s => s = (o1, f)). reflexivity. }
  intros _ s ->. destruct X1 as ((ds & ED1) & (vs & EV1 & VI)).
  assert (IC1 : incl (done ++ op_names subs op) all) by (intros x X; apply in_app_or in X; destruct X; auto).
  assert (OD1 : forall x, In x (o_dims o1) -> (do_id x = None \/ x = gd f x) /\ In (do_dim x) (lf_dims f)).
  { intros x X. split.
    - rewrite ED1 in X. apply in_app_or in X. destruct X as [X|X]; [now apply OD|]. apply in_map_iff in X. destruct X as (d & <- & _). now left.
    - apply Pd_in_file; [exact FR|exact FV|]. apply (di_all _ _ _ _ (in_dims _ _ _ _ _ _ I1)). now apply in_map. }
  assert (OV1 : forall x, In x (o_vars o1) -> (vo_id x = None \/ x = gv f x) /\ inq_var (vname x) f <> None).
  { intros x X. split.
    - rewrite EV1 in X. apply in_app_or in X. destruct X as [X|X]; [now apply OV|]. left. now apply VI.
    - assert (NA : In (vname x) all) by (apply IC1; rewrite <- (in_names _ _ _ _ _ _ I1); apply in_map_iff; eauto).
      destruct (FV _ NA) as (ids & J & _). destruct PR as (_ & NV & _). destruct (inq_var_in f _ _ NV J) as (i & -> & _). discriminate. }
  assert (LD : (length (o_dims o1) <= length (lf_dims f))%nat).
  { rewrite <- (map_length do_dim). apply NoDup_incl_length.
    - apply (NoDup_map_inv d_name). exact (di_nodup _ _ _ _ (in_dims _ _ _ _ _ _ I1)).
    - intros d D. apply in_map_iff in D. destruct D as (x & <- & X). now apply OD1. }
  assert (LV : (length (o_vars o1) <= length (lf_vars f))%nat).
  { rewrite <- (map_length vname), <- (map_length fst). apply NoDup_incl_length.
    - rewrite (in_names _ _ _ _ _ _ I1). exact ND.
    - intros n N. rewrite (in_names _ _ _ _ _ _ I1) in N. destruct (FV n (IC1 n N)) as (ids & J & _). change n with (fst (n, ids)). now apply in_map. }
  unfold find_all, runs. cbn [fst snd]. rewrite (proj2 (Nat.ltb_ge _ _) LD).
  change (runs (do _ <- meach find_dim_id (seq 0 (length (o_dims o1)));
    fun s : sess => if (length (lf_vars (snd s)) <? length (o_vars (fst s)))%nat then (s, Err FileIOError) else
    (do _ <- meach find_var_id (seq 0 (length (o_vars (fst s)))); mret tt) s) (o1, f)
    (fun _ s' => oinv (done ++ op_names subs op) (subs ++ subs_of (op_vars op)) f s' /\
    (exists l, o_pixels (fst s') = Some (q, l) /\ incl l (done ++ op_names subs op)) /\
    (forall x, In x (o_vars (fst s')) -> x = gv f x))).
  eapply runs_bind; [apply (find_dims_runs o1 f PR OD1)|]. intros _ s ->. set (o2 := set_dims (map (gd f) (o_dims o1)) o1).
  unfold runs. cbn [fst snd]. change (o_vars o2) with (o_vars o1). rewrite (proj2 (Nat.ltb_ge _ _) LV).
  change (runs (do _ <- meach find_var_id (seq 0 (length (o_vars o2))); mret tt) (o2, f)
    (fun _ s' => oinv (done ++ op_names subs op) (subs ++ subs_of (op_vars op)) f s' /\
    (exists l, o_pixels (fst s') = Some (q, l) /\ incl l (done ++ op_names subs op)) /\
    (forall x, In x (o_vars (fst s')) -> x = gv f x))).
  eapply runs_bind; [apply (find_vars_runs o2 f OV1)|]. intros _ s ->. apply runs_ret.
  assert (GV : forall x, In x (map (gv f) (o_vars o1)) -> x = gv f x).
  { intros x X. apply in_map_iff in X. destruct X as (y & <- & _). reflexivity. }
  split; [|split; [exact PX|exact GV]]. constructor; cbn [fst snd].
  - reflexivity.
  - apply (sync_inv _ _ o1 (dims o1) (map (gv f) (o_vars o1)) I1 eq_refl).
    + rewrite map_map. reflexivity.
    + intros y Y. apply in_map_iff in Y. destruct Y as (x & <- & X). exists x. now split.
    + unfold dims. rewrite map_map. reflexivity.
  - intros x X. right. cbn in X. apply in_map_iff in X. destruct X as (y & <- & _). reflexivity.
  - intros x X. right. now apply GV.
Qed.

(** All collections. *)
Lemma create_runs ops : forall done subs s, cinv done subs s ->
  (match ops with op :: _ => pix op (fst s) done | [] => True end) -> registrable var dom q subs ops ->
  incl done all -> incl (names subs ops) all -> NoDup (done ++ names subs ops) ->
  (forall t, In t (subs ++ subs_of (flat_map op_vars ops)) -> ~ In t all) ->
  (ops = [] -> lf_dims (snd s) = dims (fst s)) ->
  runs (meach create_op ops) s (fun _ s' => (exists subs', cinv (done ++ names subs ops) subs' s') /\ lf_dims (snd s') = dims (fst s')).
Proof.
  induction ops as [|op ops IH]; intros done subs s C PX R IC IS ND NS NE; cbn [meach].
  - apply runs_ret. cbn [names]. rewrite app_nil_r. split; [now exists subs|now apply NE].
  - apply registrable_cons in R. destruct R as [G R]. rewrite names_cons in *.
    assert (NS' : forall t, In t ((subs ++ subs_of (op_vars op)) ++ subs_of (flat_map op_vars ops)) -> ~ In t all).
    { intros t T. apply NS. cbn [flat_map]. rewrite subs_of_app, app_assoc. exact T. }
    eapply runs_bind.
    + apply (create_op_runs op done subs s C PX G IC).
      * intros x X. apply IS, in_or_app. now left.
      * rewrite app_assoc in ND. apply NoDup_app_remove_r in ND. exact ND.
      * intros t T. apply NS', in_or_app. now left.
    + intros u s1 (C1 & (l & PL & IL) & E1). eapply runs_bind.
      * apply (IH (done ++ op_names subs op) (subs ++ subs_of (op_vars op)) s1 C1).
        -- destruct ops as [|op' ops]; [exact I|]. split; [left; now exists l|]. rewrite PL. exact IL.
        -- exact R.
        -- intros x X. apply in_app_or in X. destruct X as [X|X]; [now apply IC|apply IS, in_or_app; now left].
        -- intros x X. apply IS, in_or_app. now right.
        -- rewrite <- app_assoc. exact ND.
        -- exact NS'.
        -- intros _. exact E1.
      * intros us s2 H2. apply runs_ret. rewrite <- app_assoc in H2. exact H2.
Qed.
Lemma open_runs f ops : proper f -> In frame_dim (lf_dims f) -> (forall n, In n all -> file_var f n (v_dims (var n))) ->
  forall done subs s, oinv done subs f s ->
  (match ops with op :: _ => pix op (fst s) done | [] => True end) -> registrable var dom q subs ops ->
  incl done all -> incl (names subs ops) all -> NoDup (done ++ names subs ops) ->
  (forall t, In t (subs ++ subs_of (flat_map op_vars ops)) -> ~ In t all) ->
  (ops = [] -> forall x, In x (o_vars (fst s)) -> x = gv f x) ->
  runs (meach open_op ops) s (fun _ s' => (exists subs', oinv (done ++ names subs ops) subs' f s') /\ forall x, In x (o_vars (fst s')) -> x = gv f x).
Proof.
  intros PR FR FV. induction ops as [|op ops IH]; intros done subs s C PX R IC IS ND NS NE; cbn [meach].
  - apply runs_ret. cbn [names]. rewrite app_nil_r. split; [now exists subs|now apply NE].
  - apply registrable_cons in R. destruct R as [G R]. rewrite names_cons in *.
    assert (NS' : forall t, In t ((subs ++ subs_of (op_vars op)) ++ subs_of (flat_map op_vars ops)) -> ~ In t all).
    { intros t T. apply NS. cbn [flat_map]. rewrite subs_of_app, app_assoc. exact T. }
    eapply runs_bind.
    + apply (open_op_runs op done subs f s PR FR FV C PX G IC).
      * intros x X. apply IS, in_or_app. now left.
      * rewrite app_assoc in ND. apply NoDup_app_remove_r in ND. exact ND.
      * intros t T. apply NS', in_or_app. now left.
    + intros u s1 (C1 & (l & PL & IL) & E1). eapply runs_bind.
      * apply (IH (done ++ op_names subs op) (subs ++ subs_of (op_vars op)) s1 C1).
        -- destruct ops as [|op' ops]; [exact I|]. split; [left; now exists l|]. rewrite PL. exact IL.
        -- exact R.
        -- intros x X. apply in_app_or in X. destruct X as [X|X]; [now apply IC|apply IS, in_or_app; now left].
        -- intros x X. apply IS, in_or_app. now right.
        -- rewrite <- app_assoc. exact ND.
        -- exact NS'.
        -- intros _. exact E1.
      * intros us s2 H2. apply runs_ret. rewrite <- app_assoc in H2. exact H2.
Qed.
End Sessions.

Lemma new_inv var dom all : inv var dom all [] [] new_obj.
Proof.
  constructor; [|reflexivity|intros x []|reflexivity]. constructor.
  - intros d [<-|[]]. now left.
  - repeat constructor. intros [].
  - now left.
  - split; [reflexivity|]. intros i Li. left. destruct i as [|[|[|i]]]; try reflexivity. now destruct i.
Qed.

Lemma orderly_parts var dom ops : orderly var dom ops -> exists g vars rest q, ops = RGlobal g vars :: rest /\ pixels_field g = Ok q /\ nf_dom q = dom /\
  registrable var dom q [] ops /\ NoDup (names [] ops) /\ (forall s, In s (subs_of (flat_map op_vars ops)) -> ~ In s (names [] ops)) /\
  (forall n, In n (names [] ops) -> fit (var n)) /\
  (forall n, In n (names [] ops) -> v_name (var n) = n) /\ (forall n, In n (names [] ops) -> origin dom (var n)) /\ (forall n, In n (names [] ops) -> tame (var n)).
Proof.
  intros ((g & vars & rest & q & E & EQ & GD & R) & ND & NS & F). exists g, vars, rest, q.
  assert (QD : nf_dom q = dom).
  { revert EQ. unfold pixels_field. destruct (global_layout_order _ _ _ _ _ _); cbn [bind]; intros X; [|discriminate|discriminate]. apply Ok_inj in X. rewrite <- X. exact GD. }
  pose proof (all_facts var dom q QD ops [] R) as A.
  repeat match goal with |- _ /\ _ => split end; try assumption; intros n I; destruct (A n I (F n I)) as (? & ? & ?); assumption.
Qed.

Lemma inv_var var dom all done subs o n : inv var dom all done subs o -> In n done -> exists i x, nth_error (o_vars o) i = Some x /\ vname x = n /\ vo_var x = var n /\ points o (vo_refs x) (v_dims (var n)).
Proof.
  intros [_ I2 I3 _] I. rewrite <- I2 in I. apply in_map_iff in I. destruct I as (x & <- & X). destruct (I3 x X) as [A B].
  apply In_nth_error in X. destruct X as (i & X). exists i, x. rewrite <- A. auto.
Qed.

Lemma created var dom ops : orderly var dom ops -> exists o f us, create_all ops = ((o, f), Ok us) /\ proper f /\ In frame_dim (lf_dims f) /\
  (forall d, In d (lf_dims f) -> d = frame_dim \/ exists n, In n (names [] ops) /\ In d (v_dims (var n))) /\
  map fst (lf_vars f) = names [] ops /\
  forall n, In n (names [] ops) -> file_var f n (v_dims (var n)) /\ uses (o, f) n (var n).
Proof.
  intros H. destruct (orderly_parts _ _ _ H) as (g & vars & rest & q & EO & EQ & QD & R & ND & NS & FT & VN & VO & VT).
  destruct (create_runs var dom (names [] ops) q QD FT VN VO VT ops [] [] (new_obj, empty_lib)) as (us & [o f] & E & (subs' & C) & ED).
  - constructor; [apply new_inv| |].
    + exists [frame_dim]. reflexivity.
    + exists []. split; reflexivity.
  - rewrite EO. split; [right; split; [reflexivity|exists g, vars; now split]|intros x []].
  - exact R.
  - intros x [].
  - apply incl_refl.
  - exact ND.
  - exact NS.
  - rewrite EO. discriminate.
  - cbn [app fst snd] in *. destruct C as [I (new & CD) (va & EV & EF)]. cbn [fst snd] in *.
    assert (EN : map fst (lf_vars f) = names [] ops).
    { rewrite EF, <- EV, map_map, <- (in_names _ _ _ _ _ _ I). reflexivity. }
    exists o, f, us. split; [exact E|]. pose proof (in_dims _ _ _ _ _ _ I) as [D1 D2 D3 _]. split; [|split; [now rewrite ED|split; [|split; [exact EN|]]]].
    + split; [now rewrite ED|]. split; [now rewrite EN|]. rewrite ED. intros d Id Z0.
      destruct (Pd_filed var dom (names [] ops) FT VO d (D1 d Id)) as [_ [X|X]]; [exact X|lia].
    + rewrite ED. exact D1.
    + intros n N. destruct (inv_var _ _ _ _ _ _ n I N) as (i & x & Nx & En & Ex & P).
      assert (NF : nth_error (lf_vars f) i = Some (n, vo_refs x)).
      { rewrite EF, <- EV, nth_error_map, Nx. cbn [option_map fv]. unfold fv. now rewrite En. }
      split.
      * exists (vo_refs x). split; [eapply nth_error_In; exact NF|]. rewrite ED. exact P.
      * exists x, i, (vo_refs x). split; [eapply nth_error_In; exact Nx|]. split; [exact Ex|]. split; [|split; [exact NF|cbn [snd]; rewrite ED; exact P]].
        rewrite EV, vnum_nth in Nx. destruct (nth_error va i) as [y|]; [|discriminate]. cbn [option_map] in Nx. injection Nx as <-. reflexivity.
Qed.

Lemma opened var dom ops f : orderly var dom ops -> proper f -> In frame_dim (lf_dims f) ->
  (forall n, In n (names [] ops) -> file_var f n (v_dims (var n))) ->
  exists o us, open_all f ops = ((o, f), Ok us) /\ map (fun x => v_name (vo_var x)) (o_vars o) = names [] ops /\
    forall n, In n (names [] ops) -> uses (o, f) n (var n).
Proof.
  intros H PR FR FV. destruct (orderly_parts _ _ _ H) as (g & vars & rest & q & EO & EQ & QD & R & ND & NS & FT & VN & VO & VT).
  destruct (open_runs var dom (names [] ops) q QD VN VO f ops PR FR FV [] [] (new_obj, f)) as (us & [o f'] & E & (subs' & C) & EG).
  - constructor; [reflexivity|apply new_inv|intros x [<-|[]]; now left|intros x []].
  - rewrite EO. split; [right; split; [reflexivity|exists g, vars; now split]|intros x []].
  - exact R.
  - intros x [].
  - apply incl_refl.
  - exact ND.
  - exact NS.
  - rewrite EO. discriminate.
  - cbn [app fst snd] in *. destruct C as [EF I CD CV]. cbn [fst snd] in *. subst f'.
    exists o, us. split; [exact E|]. split; [exact (in_names _ _ _ _ _ _ I)|].
    intros n N. destruct (inv_var _ _ _ _ _ _ n I N) as (i & x & Nx & En & Ex & P).
    destruct (FV n N) as (ids & J & EI). destruct PR as (PD & PV & _). destruct (inq_var_in f n ids PV J) as (k & EK & NK).
    exists x, k, ids. split; [eapply nth_error_In; exact Nx|]. split; [exact Ex|]. split; [|split; [exact NK|exact EI]].
    rewrite (EG x) by (eapply nth_error_In; exact Nx). unfold gv. cbn [vo_id]. now rewrite En.
Qed.

Lemma uses_number s n v : uses s n v -> exists i ids, number s v i /\ nth_error (lf_vars (snd s)) i = Some (n, ids).
Proof. intros (x & i & ids & X & V & N & F & _). exists i, ids. split; [exists x; auto|exact F]. Qed.
Lemma reopened var dom ops var' dom' ops' : orderly var dom ops -> orderly var' dom' ops' ->
  (forall n, In n (names [] ops') -> In n (names [] ops) /\ v_dims (var' n) = v_dims (var n)) ->
  exists o f us o' us', create_all ops = ((o, f), Ok us) /\ open_all f ops' = ((o', f), Ok us') /\
    forall n, In n (names [] ops') -> exists i, number (o, f) (var n) i /\ number (o', f) (var' n) i.
Proof.
  intros H H' K. destruct (created var dom ops H) as (o & f & us & E & PR & FR & _ & _ & V).
  destruct (opened var' dom' ops' f H' PR FR) as (o' & us' & E' & _ & V').
  { intros n N. destruct (K n N) as [I D]. rewrite D. now apply V. }
  exists o, f, us, o', us'. split; [exact E|]. split; [exact E'|]. intros n N. destruct (K n N) as [I _].
  destruct (uses_number _ _ _ (proj2 (V n I))) as (i & ids & A & B). destruct (uses_number _ _ _ (V' n N)) as (j & ids' & A' & B'). cbn [snd] in *.
  assert (i = j); [|subst j; now exists i]. destruct PR as (_ & PV & _). rewrite NoDup_nth_error in PV. apply PV.
  - rewrite map_length. apply nth_error_Some. rewrite B. discriminate.
  - rewrite !nth_error_map, B, B'. reflexivity.
Qed.

Definition fitb (v : ncvar) : bool :=
  AttModel.legal_name (v_name v) && forallb (fun d => AttModel.legal_name (d_name d) && (String.eqb (d_name d) "frame" || (0 <? d_size d))) (v_dims v).
Lemma fit_check v : fitb v = true -> fit v.
Proof.
  unfold fitb, fit. intros H. apply andb_true_iff in H. destruct H as [A B]. split; [exact A|]. apply Forall_forall. intros d D.
  rewrite forallb_forall in B. specialize (B d D). apply andb_true_iff in B. destruct B as [B C]. split; [exact B|]. intros N.
  apply orb_true_iff in C. destruct C as [C|C]; [apply String.eqb_eq in C; contradiction|now apply Z.ltb_lt].
Qed.
