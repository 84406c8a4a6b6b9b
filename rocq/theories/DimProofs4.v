(** Dimensions and variables in the file. *)
From Coq Require Import String Ascii.
From Verif Require Import Base CIntModel GridModel LayoutModel LayoutProofs NetCDFModel NetCDFSpec NetCDFProofs NetCDFProofs2 NetCDFProofs3 NetCDFProofs4 NetCDFProofs7.
From Verif Require Import DimModel DimSpec DimProofs DimProofs2 DimProofs3.
From Verif Require AttModel.
Local Open Scope Z_scope.
Local Open Scope list_scope.

Lemma runs_app {S X Y} (g : X -> M S Y) a b s (Q R : S -> Prop) : runs (meach g a) s (fun _ => Q) -> (forall s', Q s' -> runs (meach g b) s' (fun _ => R)) ->
  runs (meach g (a ++ b)) s (fun _ => R).
Proof.
  revert s. induction a as [|x a IH]; intros s (xs & s1 & E & HQ) K; cbn [app meach] in *.
  - unfold mret in E. injection E as <- <-. now apply K.
  - unfold mbind in E. destruct (g x s) as [s2 [y|e|]] eqn:EG; try discriminate. destruct (meach g a s2) as [s3 [ys|e|]] eqn:EA; try discriminate.
    unfold mret in E. injection E as <- <-.
    destruct (IH s2 (ex_intro _ ys (ex_intro _ s3 (conj EA HQ))) K) as (zs & s4 & E4 & H4).
    exists (y :: zs), s4. split; [|exact H4]. unfold mbind. rewrite EG, E4. reflexivity.
Qed.
Lemma runs_cons {S X} (g : X -> M S unit) x l s s1 (R : S -> Prop) : g x s = (s1, Ok tt) -> runs (meach g l) s1 (fun _ => R) -> runs (meach g (x :: l)) s (fun _ => R).
Proof. intros E (ys & s2 & E2 & H). exists (tt :: ys), s2. split; [|exact H]. cbn [meach]. unfold mbind. now rewrite E, E2. Qed.
Lemma runs_skip {S} (g : nat -> M S unit) l s : (forall i, In i l -> g i s = (s, Ok tt)) -> runs (meach g l) s (fun _ s' => s' = s).
Proof.
  induction l as [|i l IH]; intros H; [now apply runs_ret|]. eapply runs_cons; [apply H; now left|]. apply IH. intros j J. apply H. now right.
Qed.
Lemma upd_middle {X} (a b : list X) x y : upd (a ++ x :: b) (length a) y = (a ++ [y]) ++ b.
Proof. induction a as [|z a IH]; cbn; [reflexivity|]. now rewrite IH. Qed.
Lemma nth_middle' {X} (a b : list X) x : nth_error (a ++ x :: b) (length a) = Some x.
Proof. rewrite nth_error_app2, Nat.sub_diag by lia. reflexivity. Qed.

(** ** Definition *)
Fixpoint num (k : nat) (ds : list ncdim) : list dimobj :=
  match ds with [] => [] | d :: t => mk_dimobj d (Some k) :: num (S k) t end.
Definition setid (x : varobj) (k : nat) : varobj := mk_varobj (vo_var x) (vo_hidden x) (vo_refs x) (Some k).
Fixpoint vnum (k : nat) (xs : list varobj) : list varobj :=
  match xs with [] => [] | x :: t => setid x k :: vnum (S k) t end.
Definition fv (x : varobj) : string * list nat := (vname x, vo_refs x).
Lemma num_app a b : forall k, num k (a ++ b) = num k a ++ num (k + length a) b.
Proof. induction a as [|d a IH]; intros k; cbn [num app length]; [f_equal; lia|]. rewrite IH. cbn [app]. do 3 f_equal. lia. Qed.
Lemma num_length ds : forall k, length (num k ds) = length ds.
Proof. induction ds; intros k; cbn; auto. Qed.
Lemma num_dims ds : forall k, map do_dim (num k ds) = ds.
Proof. induction ds as [|d ds IH]; intros k; cbn; [reflexivity|]. now rewrite IH. Qed.
Lemma num_nth ds : forall k i, nth_error (num k ds) i = option_map (fun d => mk_dimobj d (Some (k + i)%nat)) (nth_error ds i).
Proof.
  induction ds as [|d ds IH]; intros k i; [now destruct i|]. destruct i as [|i]; cbn [num nth_error option_map]; [do 3 f_equal; lia|].
  rewrite IH. destruct (nth_error ds i); cbn; [do 3 f_equal; lia|reflexivity].
Qed.
Lemma vnum_app a b : forall k, vnum k (a ++ b) = vnum k a ++ vnum (k + length a) b.
Proof. induction a as [|d a IH]; intros k; cbn [vnum app length]; [f_equal; lia|]. rewrite IH. cbn [app]. do 3 f_equal. lia. Qed.
Lemma vnum_length xs : forall k, length (vnum k xs) = length xs.
Proof. induction xs; intros k; cbn; auto. Qed.
Lemma vnum_nth xs : forall k i, nth_error (vnum k xs) i = option_map (fun x => setid x (k + i)) (nth_error xs i).
Proof.
  induction xs as [|d ds IH]; intros k i; [now destruct i|]. destruct i as [|i]; cbn [vnum nth_error option_map]; [do 2 f_equal; lia|].
  rewrite IH. destruct (nth_error ds i); cbn [option_map]; [do 2 f_equal; lia|reflexivity].
Qed.
Lemma vnum_map {Y} (g : varobj -> Y) : (forall x k, g (setid x k) = g x) -> forall xs k, map g (vnum k xs) = map g xs.
Proof. intros H. induction xs as [|x xs IH]; intros k; cbn; [reflexivity|]. now rewrite H, IH. Qed.
Lemma vnum_vnum xs : forall k j, vnum k (vnum j xs) = vnum k xs.
Proof. induction xs as [|x xs IH]; intros k j; cbn; [reflexivity|]. now rewrite IH. Qed.

(** Dimensions the library accepts together. *)
Definition filed (l : list ncdim) : Prop :=
  NoDup (map d_name l) /\ forall d, In d l -> AttModel.legal_name (d_name d) = true /\ (d = frame_dim \/ 0 < d_size d).
Lemma def_dim_ok a d b vs : filed (a ++ d :: b) -> lib_def_dim d (mk_nclib a vs) = Some (mk_nclib (a ++ [d]) vs, length a).
Proof.
  intros [ND F]. unfold lib_def_dim. cbn [lf_dims lf_vars].
  destruct (F d) as [L S]; [apply in_or_app; right; now left|]. rewrite L. cbn [negb orb].
  assert (NI : forall e, In e a -> d_name e <> d_name d).
  { intros e I E. rewrite map_app in ND. cbn [map] in ND. apply NoDup_remove_2 in ND. apply ND, in_or_app. left. rewrite <- E. now apply in_map. }
  assert (E1 : existsb (fun e => String.eqb (d_name e) (d_name d)) a = false).
  { apply not_true_is_false. intros E. apply existsb_exists in E. destruct E as (e & I & E). apply String.eqb_eq in E. now apply (NI e). }
  rewrite E1. cbn [orb].
  assert (E2 : (d_size d <? 0) = false) by (apply Z.ltb_ge; destruct S as [->|S]; [cbn; lia|lia]). rewrite E2. cbn [orb].
  assert (E3 : (d_size d =? 0) && existsb (fun e => d_size e =? 0) a = false).
  { apply not_true_is_false. intros E. apply andb_true_iff in E. destruct E as [Ea Eb]. apply Z.eqb_eq in Ea.
    destruct S as [->|S]; [|lia]. apply existsb_exists in Eb. destruct Eb as (e & I & Ee). apply Z.eqb_eq in Ee.
    destruct (F e) as [_ [-> | Se]]; [apply in_or_app; now left| |lia]. now apply (NI frame_dim). }
  rewrite E3. reflexivity.
Qed.
Lemma define_new_dims vs : forall new a o, o_dims o = num 0 a ++ map un new -> filed (a ++ new) ->
  runs (meach define_dim (seq (length a) (length new))) (o, mk_nclib a vs) (fun _ s => s = (set_dims (num 0 (a ++ new)) o, mk_nclib (a ++ new) vs)).
Proof.
  induction new as [|d new IH]; intros a o E F; cbn [length seq].
  - apply runs_ret. rewrite app_nil_r. cbn [map] in E. rewrite app_nil_r in E. rewrite <- E. now destruct o.
  - set (o1 := set_dims (num 0 (a ++ [d]) ++ map un new) o). eapply runs_cons with (s1 := (o1, mk_nclib (a ++ [d]) vs)).
    + unfold define_dim. cbn [fst snd]. rewrite E. cbn [map]. rewrite <- (num_length a 0) at 1. rewrite nth_middle'. cbn [un do_id do_dim].
      rewrite (def_dim_ok a d new vs F). do 3 f_equal. unfold o1. f_equal. rewrite <- (num_length a 0) at 1. rewrite upd_middle. rewrite num_app. reflexivity.
    + replace (S (length a)) with (length (a ++ [d])) by (rewrite app_length; cbn; lia).
      assert (EA : a ++ d :: new = (a ++ [d]) ++ new) by now rewrite <- app_assoc. rewrite EA in *.
      destruct (IH (a ++ [d]) o1 eq_refl F) as (ys & s' & H1 & ->). exists ys. eexists. split; [exact H1|]. reflexivity.
Qed.
Lemma define_dims_runs o a new vs : o_dims o = num 0 a ++ map un new -> filed (a ++ new) ->
  runs (meach define_dim (seq 0 (length (o_dims o)))) (o, mk_nclib a vs) (fun _ s => s = (set_dims (num 0 (a ++ new)) o, mk_nclib (a ++ new) vs)).
Proof.
  intros E F. replace (length (o_dims o)) with (length a + length new)%nat by (rewrite E, app_length, num_length, map_length; reflexivity).
  rewrite seq_app. eapply runs_app.
  - apply runs_skip. intros i I. apply in_seq in I. unfold define_dim. cbn [fst snd].
    rewrite E, nth_error_app1, num_nth by (rewrite num_length; lia). destruct (nth_error a i) eqn:N; reflexivity.
  - intros s ->. now apply define_new_dims.
Qed.

Lemma ids_numbered o ds refs : o_dims o = num 0 ds -> (forall i, In i refs -> (i < length ds)%nat) -> ids_at o refs = Some refs.
Proof.
  intros E. induction refs as [|i refs IH]; intros H; [reflexivity|]. cbn [ids_at fold_right]. unfold ids_at in IH. rewrite IH by (intros; apply H; now right).
  rewrite E, num_nth. destruct (nth_error ds i) as [d|] eqn:N; [reflexivity|]. apply nth_error_None in N. specialize (H i (or_introl eq_refl)). lia.
Qed.
(** A variable the library accepts with these dimensions. *)
Definition vgood (ds : list ncdim) (x : varobj) : Prop :=
  AttModel.legal_name (vname x) = true /\ (forall i, In i (vo_refs x) -> (i < length ds)%nat) /\
  (forall i d, In i (tl (vo_refs x)) -> nth_error ds i = Some d -> d_size d <> 0).
Lemma def_var_ok ds x vs : vgood ds x -> ~ In (vname x) (map fst vs) ->
  lib_def_var (vname x) (vo_refs x) (mk_nclib ds vs) = Some (mk_nclib ds (vs ++ [fv x]), length vs).
Proof.
  intros (L & R & T) N. unfold lib_def_var. cbn [lf_dims lf_vars]. rewrite L. cbn [negb orb].
  assert (E1 : existsb (fun e => String.eqb (fst e) (vname x)) vs = false).
  { apply not_true_is_false. intros E. apply existsb_exists in E. destruct E as (e & I & E). apply String.eqb_eq in E. apply N. rewrite <- E. now apply in_map. }
  rewrite E1. cbn [orb].
  assert (E2 : forallb (fun i => (i <? length ds)%nat) (vo_refs x) = true) by (apply forallb_forall; intros i I; apply Nat.ltb_lt; now apply R).
  rewrite E2. cbn [negb orb].
  assert (E3 : existsb (fun i => match nth_error ds i with Some d => d_size d =? 0 | None => false end) (tl (vo_refs x)) = false).
  { apply not_true_is_false. intros E. apply existsb_exists in E. destruct E as (i & I & E). destruct (nth_error ds i) as [d|] eqn:Nd; [|discriminate].
    apply Z.eqb_eq in E. exact (T i d I Nd E). }
  rewrite E3. reflexivity.
Qed.
Lemma define_new_vars ds : forall new a o, o_dims o = num 0 ds -> o_vars o = a ++ new -> (forall x, In x new -> vo_id x = None /\ vgood ds x) ->
  NoDup (map vname (a ++ new)) ->
  runs (meach define_var (seq (length a) (length new))) (o, mk_nclib ds (map fv a))
    (fun _ s => s = (set_vars (a ++ vnum (length a) new) o, mk_nclib ds (map fv (a ++ new)))).
Proof.
  induction new as [|x new IH]; intros a o ED EV G ND; cbn [length seq vnum].
  - apply runs_ret. rewrite app_nil_r in *. rewrite <- EV. now destruct o.
  - set (y := setid x (length a)). set (o1 := set_vars ((a ++ [y]) ++ new) o).
    destruct (G x (or_introl eq_refl)) as [Gi Gx]. eapply runs_cons with (s1 := (o1, mk_nclib ds (map fv (a ++ [y])))).
    + unfold define_var. cbn [fst snd]. rewrite EV, nth_middle', Gi.
      rewrite (ids_numbered o ds) by (exact ED || (intros i I; now apply Gx)). change (v_name (vo_var x)) with (vname x).
      rewrite (def_var_ok ds x (map fv a) Gx).
      * do 2 f_equal; [|now rewrite map_app]. unfold o1. f_equal. rewrite upd_middle, map_length. reflexivity.
      * rewrite map_map. cbn [fv fst]. rewrite map_app in ND. cbn [map] in ND. apply NoDup_remove_2 in ND. intros I. apply ND, in_or_app. now left.
    + replace (S (length a)) with (length (a ++ [y])) by (rewrite app_length; cbn; lia).
      destruct (IH (a ++ [y]) o1 ED eq_refl) as (ys & s' & H1 & ->).
      * intros z I. apply G. now right.
      * rewrite !map_app in *. cbn [map] in *. rewrite <- app_assoc. exact ND.
      * exists ys. eexists. split; [exact H1|]. unfold o1, set_vars. cbn [o_dims o_grid o_subs o_pixels]. rewrite <- app_assoc. rewrite !map_app. cbn [map app]. rewrite <- app_assoc. reflexivity.
Qed.
Lemma define_vars_runs ds o a new : o_dims o = num 0 ds -> o_vars o = vnum 0 a ++ new -> (forall x, In x new -> vo_id x = None /\ vgood ds x) ->
  NoDup (map vname (o_vars o)) ->
  runs (meach define_var (seq 0 (length (o_vars o)))) (o, mk_nclib ds (map fv (vnum 0 a)))
    (fun _ s => s = (set_vars (vnum 0 (o_vars o)) o, mk_nclib ds (map fv (o_vars o)))).
Proof.
  intros ED EV G ND. rewrite EV in *. rewrite app_length, seq_app. eapply runs_app.
  - apply runs_skip. intros i I. apply in_seq in I. unfold define_var. cbn [fst snd].
    rewrite EV, nth_error_app1, vnum_nth by lia. destruct (nth_error a i); reflexivity.
  - intros s ->. cbn [plus]. eapply runs_weak; [apply (define_new_vars ds new (vnum 0 a) o ED EV G ND)|].
    intros ys s' ->. rewrite vnum_app, vnum_vnum. reflexivity.
Qed.

(** ** Finding again *)
Lemma loop_runs {S X} (step : nat -> M S unit) (get : S -> list X) (set : list X -> S -> S) (g : X -> X) :
  (forall l s, get (set l s) = l) -> (forall l l' s, set l (set l' s) = set l s) -> (forall s, set (get s) s = s) ->
  forall s0, (forall l i x, nth_error l i = Some x -> In x (get s0) -> step i (set l s0) = (set (upd l i (g x)) s0, Ok tt)) ->
  runs (meach step (seq 0 (length (get s0)))) s0 (fun _ s => s = set (map g (get s0)) s0).
Proof.
  intros H1 H2 H3 s0 ST.
  assert (K : forall new a, incl new (get s0) -> runs (meach step (seq (length a) (length new))) (set (a ++ new) s0) (fun _ s => s = set (a ++ map g new) s0)).
  { induction new as [|x new IH]; intros a I; cbn [length seq map].
    - now apply runs_ret.
    - eapply runs_cons; [apply (ST _ _ x); [apply nth_middle'|apply I; now left]|]. rewrite upd_middle.
      replace (Datatypes.S (length a)) with (length (a ++ [g x])) by (rewrite app_length; cbn; lia).
      eapply runs_weak; [apply IH; intros z Z0; apply I; now right|]. intros ys s ->. now rewrite <- app_assoc. }
  specialize (K (get s0) [] (incl_refl _)). cbn [app length] in K. now rewrite H3 in K.
Qed.

Lemma inq_dim_in f d : NoDup (map d_name (lf_dims f)) -> In d (lf_dims f) ->
  exists i, inq_dim (d_name d) f = Some i /\ nth_error (lf_dims f) i = Some d.
Proof.
  intros ND I. unfold inq_dim. destruct (position (fun e => String.eqb (d_name e) (d_name d)) (lf_dims f)) as [i|] eqn:E.
  - exists i. split; [reflexivity|]. apply position_some in E. destruct E as (e & N & E). apply String.eqb_eq in E. rewrite N. f_equal.
    apply nth_error_In in N. revert ND N I E. generalize (lf_dims f). induction l as [|z l IH]; intros ND N I E; [destruct N|]. cbn [map] in ND. inversion ND; subst.
    destruct N as [->|N], I as [->|I]; [reflexivity| | |now apply IH].
    + exfalso. apply H1. rewrite E. now apply in_map.
    + exfalso. apply H1. rewrite <- E. now apply in_map.
  - exfalso. pose proof (position_none _ _ E _ I) as F. cbn in F. now rewrite String.eqb_refl in F.
Qed.
Lemma inq_var_in f n ids : NoDup (map fst (lf_vars f)) -> In (n, ids) (lf_vars f) ->
  exists i, inq_var n f = Some i /\ nth_error (lf_vars f) i = Some (n, ids).
Proof.
  intros ND I. unfold inq_var. destruct (position (fun e => String.eqb (fst e) n) (lf_vars f)) as [i|] eqn:E.
  - exists i. split; [reflexivity|]. apply position_some in E. destruct E as (e & N & E). apply String.eqb_eq in E. rewrite N. f_equal.
    apply nth_error_In in N. revert ND N I E. generalize (lf_vars f). induction l as [|z l IH]; intros ND N I E; [destruct N|]. cbn [map] in ND. inversion ND; subst.
    destruct N as [->|N], I as [->|I]; [reflexivity| | |now apply IH].
    + exfalso. apply H1. change (fst e) with (fst (fst e, ids)). now apply in_map.
    + exfalso. apply H1. change (fst (fst e, ids)) with (fst e). now apply in_map.
  - exfalso. pose proof (position_none _ _ E _ I) as F. cbn in F. now rewrite String.eqb_refl in F.
Qed.
Definition gd (f : nclib) (x : dimobj) : dimobj := mk_dimobj (do_dim x) (inq_dim (d_name (do_dim x)) f).
Definition gv (f : nclib) (x : varobj) : varobj := mk_varobj (vo_var x) (vo_hidden x) (vo_refs x) (inq_var (vname x) f).
Lemma upd_same {X} (l : list X) : forall i x, nth_error l i = Some x -> upd l i x = l.
Proof. induction l as [|y l IH]; intros [|i] x H; cbn in *; try discriminate; [congruence|]. now rewrite IH. Qed.
Lemma set_dims_id o : set_dims (o_dims o) o = o. Proof. now destruct o. Qed.
Lemma set_vars_id o : set_vars (o_vars o) o = o. Proof. now destruct o. Qed.
Lemma frame_name_dim f d : proper f -> In d (lf_dims f) -> In frame_dim (lf_dims f) -> d_name d = "frame"%string -> d = frame_dim.
Proof.
  intros (ND & _) I J E. destruct (inq_dim_in f d ND I) as (i & E1 & N1). destruct (inq_dim_in f frame_dim ND J) as (j & E2 & N2).
  rewrite E in E1. cbn [d_name frame_dim] in E2. congruence.
Qed.
Lemma find_dims_runs o f : proper f ->
  (forall x, In x (o_dims o) -> (do_id x = None \/ x = gd f x) /\ In (do_dim x) (lf_dims f)) ->
  runs (meach find_dim_id (seq 0 (length (o_dims o)))) (o, f) (fun _ s => s = (set_dims (map (gd f) (o_dims o)) o, f)).
Proof.
  intros (ND & NV & U) H.
  refine (loop_runs find_dim_id (fun s : sess => o_dims (fst s)) (fun l (s : sess) => (set_dims l (fst s), snd s)) (gd f) _ _ _ (o, f) _); try reflexivity.
  - intros [o' f']. cbn [fst snd]. now rewrite set_dims_id.
  - intros l i x N I. cbn [fst snd] in *. unfold find_dim_id. cbn [fst snd set_dims o_dims]. rewrite N.
    destruct (H x I) as [A B]. destruct (inq_dim_in f (do_dim x) ND B) as (k & E1 & N1).
    destruct (do_id x) as [id|] eqn:EI.
    + destruct A as [A|A]; [discriminate|]. rewrite <- A, (upd_same _ _ _ N). reflexivity.
    + unfold gd. rewrite E1. change (set_dims (upd (o_dims (set_dims l o)) i (mk_dimobj (do_dim x) (Some k))) (set_dims l o)) with (set_dims (upd l i (mk_dimobj (do_dim x) (Some k))) o).
      destruct (unlimited f) as [u|] eqn:EU; [|reflexivity].
      destruct (Nat.eqb_spec k u) as [->|NE]; [|reflexivity].
      unfold unlimited in EU. apply position_some in EU. destruct EU as (e & Ne & Ze). rewrite N1 in Ne. injection Ne as <-.
      apply Z.eqb_eq in Ze. assert (ED : do_dim x = frame_dim) by (apply U; assumption). rewrite ED. cbn [d_name frame_dim]. rewrite String.eqb_refl. cbn [negb andb]. reflexivity.
Qed.
Lemma find_vars_runs o f : (forall x, In x (o_vars o) -> (vo_id x = None \/ x = gv f x) /\ inq_var (vname x) f <> None) ->
  runs (meach find_var_id (seq 0 (length (o_vars o)))) (o, f) (fun _ s => s = (set_vars (map (gv f) (o_vars o)) o, f)).
Proof.
  intros H.
  refine (loop_runs find_var_id (fun s : sess => o_vars (fst s)) (fun l (s : sess) => (set_vars l (fst s), snd s)) (gv f) _ _ _ (o, f) _); try reflexivity.
  - intros [o' f']. cbn [fst snd]. now rewrite set_vars_id.
  - intros l i x N I. cbn [fst snd] in *. unfold find_var_id. cbn [fst snd set_vars o_vars]. rewrite N.
    destruct (H x I) as [A B]. destruct (vo_id x) as [id|] eqn:EI.
    + destruct A as [A|A]; [discriminate|]. rewrite <- A, (upd_same _ _ _ N). reflexivity.
    + unfold gv. change (v_name (vo_var x)) with (vname x). destruct (inq_var (vname x) f); [reflexivity|now elim B].
Qed.
