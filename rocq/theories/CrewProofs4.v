(** Registration of a collection by all processes. *)
From Coq Require Import String.
From Verif Require Import Base GridModel StridedModel LayoutModel LayoutProofs CommModel.
From Verif Require Import NetCDFModel NetCDFProofs4 NetCDFProofs6 NetCDFProofs7 DimModel DimProofs2 CrewModel CrewSpec CrewProofs CrewProofs2 CrewProofs3.
Local Open Scope Z_scope.
Local Open Scope list_scope.

(** ** One process *)

Lemma find_dim_points d o o' i : find_dim d o = (o', Ok i) -> o' = o /\ points o [i] [d].
Proof.
  unfold find_dim. destruct (position (dim_equal d) (o_dims o)) as [j|] eqn:E; intros H; [|discriminate]. injection H as <- <-.
  split; [reflexivity|]. unfold points. cbn [map]. now rewrite (found _ _ _ E).
Qed.
Lemma add_dim_points d o o' i : add_dim d o = (o', Ok i) -> points o' [i] [d] /\ exists l, dims o' = dims o ++ l.
Proof.
  unfold add_dim. destruct (position (dim_equal d) (o_dims o)) as [j|] eqn:E; intros H; injection H as <- <-.
  - split; [|exists []; now rewrite app_nil_r]. unfold points. cbn [map]. now rewrite (found _ _ _ E).
  - unfold points, dims. cbn [set_dims o_dims map]. rewrite map_app. cbn [map do_dim]. split; [|eexists; reflexivity].
    rewrite nth_error_app2; rewrite map_length; [|lia]. now rewrite Nat.sub_diag.
Qed.
Lemma add_dims_points ds : forall o o' refs, meach add_dim ds o = (o', Ok refs) -> points o' refs ds /\ exists l, dims o' = dims o ++ l.
Proof.
  induction ds as [|d ds IH]; intros o o' refs H; cbn [meach] in H.
  - unfold mret in H. injection H as <- <-. split; [reflexivity|exists []; now rewrite app_nil_r].
  - unfold mbind in H. destruct (add_dim d o) as [o1 [i|e|]] eqn:E1; [|discriminate ..].
    destruct (meach add_dim ds o1) as [o2 [rs|e|]] eqn:E2; [|discriminate ..]. unfold mret in H. injection H as <- <-.
    apply add_dim_points in E1. destruct E1 as [P1 [l1 D1]]. destruct (IH _ _ _ E2) as [P2 [l2 D2]].
    split; [|exists (l1 ++ l2); now rewrite D2, D1, app_assoc]. apply (points_app o2 [i] [d]); [eapply points_more; eassumption|exact P2].
Qed.
Lemma on_obj_inv {X} (m : M fobj X) s s' r : on_obj m s = (s', r) -> m (fst s) = (fst s', r) /\ snd s' = snd s.
Proof. unfold on_obj. destruct (m (fst s)) as [o a]. intros H. injection H as <- <-. split; reflexivity. Qed.
Lemma on_obj_bind {X Y} (m : M fobj X) (k : X -> M fobj Y) s : on_obj (mbind m k) s = mbind (on_obj m) (fun x => on_obj (k x)) s.
Proof. unfold on_obj, mbind. destruct (m (fst s)) as [o [x|e|]]; reflexivity. Qed.
Lemma mbind_ext {S X Y} (m : M S X) (f g : X -> M S Y) s : (forall x s', f x s' = g x s') -> mbind m f s = mbind m g s.
Proof. intros H. unfold mbind. destruct (m s) as [s' [x|e|]]; [apply H|reflexivity ..]. Qed.
Lemma mbind_ret {S X Y Z} (m : M S X) (f : X -> Y) (k : Y -> M S Z) s : mbind (mbind m (fun x => mret (f x))) k s = mbind m (fun x => k (f x)) s.
Proof. unfold mbind, mret. destruct (m s) as [s' [x|e|]]; reflexivity. Qed.
Lemma on_obj_ext {X} (m m' : M fobj X) s : m (fst s) = m' (fst s) -> on_obj m s = on_obj m' s.
Proof. unfold on_obj. now intros ->. Qed.
Lemma fill_offsets_ok ids : forall o l, Forall (fun id => 0 <= id < Z.of_nat (length l)) ids -> exists r, fill_offsets ids o l = Ok r.
Proof.
  induction ids as [|id ids IH]; intros o l F; [eexists; reflexivity|]. inversion F as [|? ? B F']; subst. cbn [fill_offsets].
  unfold wr. replace ((id <? 0) || (Z.of_nat (length l) <=? id)) with false by lia.
  cbn [bind]. apply IH. revert F'. apply Forall_impl. intros z. rewrite upd_length. auto.
Qed.

Section Together.
Variables (n : nat) (size : nat -> Z) (W : bool -> head -> Prop).
Hypothesis some : (0 < n)%nat.
Notation together := (together n size W).
Notation agrees := (agrees n size W).
Notation agrees_at := (agrees_at n size W).
Notation all_alike := (all_alike n).

Lemma agrees_lift_eq {X} (v : nat -> res X) : (forall i k, (i < n)%nat -> (k < n)%nat -> v i = v k) -> agrees eq (fun i => clift (v i)) (fun i => mlift (v i)).
Proof. intros H. apply agrees_lift. intros i k Li Lk. apply rres_same. now apply H. Qed.
Lemma agrees_ext {X} (A : X -> X -> Prop) m r r' : (forall i s, (i < n)%nat -> r i s = r' i s) -> agrees A m r -> agrees A m r'.
Proof. intros E H xs T. eapply agrees_at_ext; [|exact (H xs T)]. intros i L. now apply E. Qed.
Lemma agrees_obj_eq {X} (A : X -> X -> Prop) (f : M fobj X) :
  (forall a b, mrel a b A f f) -> agrees A (fun _ => cobj f) (fun _ => on_obj f).
Proof. intros F. exact (agrees_obj n size W A (fun _ => f) (fun i k _ _ => F (size i) (size k))). Qed.

(** ** Local collections *)

Section Local.
Variable ids : nat -> list Z.
Let total := zsum (numbers n ids).

Lemma dims_local_agrees v :
  (forall i, (i < n)%nat -> l_npix (nf_lay (rv_field (v i))) = Z.of_nat (length (ids i))) ->
  (forall i k, (i < n)%nat -> (k < n)%nat -> alike_var (v i) (v k)) ->
  agrees eq (fun i => c_dims_local (v i)) (fun i => on_obj (add_dims_local total (rv_name (v i)) (rv_field (v i)))).
Proof.
  intros N AV. unfold c_dims_local.
  apply agrees_ext with (r := fun i => do t <- mret total; on_obj (add_dims_local t (rv_name (v i)) (rv_field (v i)))); [reflexivity|].
  apply (agrees_bind_eq n size W some).
  - apply agrees_ext with (r := fun _ => mret (zsum (map (fun i => l_npix (nf_lay (rv_field (v i)))) (seq 0 n)))).
    + intros i s _. unfold total, numbers. do 2 f_equal. apply map_below; exact N.
    + apply agrees_sum. exact some.
  - intros t. apply agrees_obj. intros i k Li Lk. destruct (AV i k Li Lk) as (E & _ & _ & F). unfold add_dims_local. rewrite E, (dims_local_alike t _ _ _ F).
    apply each_same. intros d. apply add_dim_same.
Qed.

Lemma local_var_agrees pix v :
  (forall i, (i < n)%nat -> few_axes (v i) /\ l_npix (nf_lay (rv_field (v i))) = Z.of_nat (length (ids i))) ->
  (forall i k, (i < n)%nat -> (k < n)%nat -> alike_var (v i) (v k)) ->
  agrees eq (fun i => c_local_var (pix i) (v i)) (fun i => on_obj (register_local_var total (pix i) (v i))).
Proof.
  intros U AV xs T. assert (T' := T). destruct T' as [TT TW].
  assert (EV : forall i, (i < n)%nat -> has (rv_name (v i)) (get_names (p_obj (xs i))) = has (rv_name (v 0%nat)) (get_names (p_obj (xs 0%nat))) /\
                has (rv_name (v i)) (o_subs (p_obj (xs i))) = has (rv_name (v 0%nat)) (o_subs (p_obj (xs 0%nat))) /\
                rv_hist (v i) = rv_hist (v 0%nat)).
  { intros i L. destruct (TT i 0%nat L some) as ((_ & _ & E3 & E4 & _) & _). destruct (AV i 0%nat L some) as (E & H & _). unfold get_names. rewrite E3, E4, E, H. auto. }
  intros Q K HK. unfold c_local_var, cbind at 1, cget.
  destruct (has (rv_name (v 0%nat)) (get_names (p_obj (xs 0%nat)))) eqn:H1.
  { rewrite (map_below n _ (fun i => K i (xs i) (Err FileIOError))) by (intros i L; destruct (EV i L) as (-> & _); reflexivity).
    apply (HK xs (fun _ => Err FileIOError)); [|exact T|intros i k _ _; reflexivity].
    intros i L. unfold on_obj, register_local_var. cbn [view fst]. destruct (EV i L) as (-> & _). reflexivity. }
  destruct (rv_hist (v 0%nat)) as [nb|] eqn:H2.
  - (* a state field *)
    set (m := fun i => cdo a <- cobj (find_dim frame_dim); cdo b <- cobj (add_dim (hist_dim nb)); cdo c <- c_dims_local (v i);
                       cdo w <- cobj (add_var (v i) false (a :: b :: c)); crun cobj (add_subs (v i)); clift (consistency_check_local w (rv_field (v i)) (pix i))).
    rewrite (map_below n _ (fun i => m i (xs i) (K i))) by (intros i L; destruct (EV i L) as (-> & _ & ->); reflexivity).
    set (r := fun i => do a <- on_obj (find_dim frame_dim); do b <- on_obj (add_dim (hist_dim nb)); do c <- on_obj (add_dims_local total (rv_name (v i)) (rv_field (v i)));
                       do w <- on_obj (add_var (v i) false (a :: b :: c)); do _ <- on_obj (add_subs (v i)); mlift (consistency_check_local w (rv_field (v i)) (pix i))).
    assert (A : agrees_at xs eq m r).
    { apply agrees_at_bind with (A := eq); [exact some|apply agrees_obj_eq; [intros; apply find_dim_same|exact T]|]. intros a xs1 V1 T1 Ea.
      apply agrees_at_bind with (A := eq); [exact some|apply agrees_obj_eq; [intros; apply add_dim_same|exact T1]|]. intros b xs2 V2 T2 Eb.
      apply agrees_at_bind with (A := eq); [exact some|apply dims_local_agrees; [apply U|exact AV|exact T2]|]. intros c xs3 V3 T3 Ec.
      apply agrees_at_bind with (A := eq); [exact some| |].
      { apply agrees_obj; [|exact T3]. intros i k Li Lk. rewrite (Ea i k Li Lk), (Eb i k Li Lk), (Ec i k Li Lk). apply add_var_alike. now apply AV. }
      intros w xs4 V4 T4 Ew.
      apply agrees_at_bind with (A := eq); [exact some|apply agrees_obj; [intros; apply add_subs_alike; now apply AV|exact T4]|]. intros u xs5 V5 T5 Eu.
      apply agrees_lift_eq; [|exact T5].
      assert (EW : forall i, (i < n)%nat -> w i = mk_ncvar (rv_name (v i)) ([frame_dim] ++ hist_part (rv_hist (v i)) ++ add_field_dims_local total (rv_name (v i)) (rv_field (v i))) (rv_hist (v i))).
      { intros i L. destruct (on_obj_inv _ _ _ _ (V1 i L)) as [F1 _]. destruct (on_obj_inv _ _ _ _ (V2 i L)) as [F2 _]. destruct (on_obj_inv _ _ _ _ (V3 i L)) as [F3 _]. destruct (on_obj_inv _ _ _ _ (V4 i L)) as [F4 _].
        apply find_dim_points in F1. destruct F1 as [F1 P1]. apply add_dim_points in F2. destruct F2 as [P2 [l2 D2]]. apply add_dims_points in F3. destruct F3 as [P3 [l3 D3]].
        apply (f_equal snd) in F4. unfold add_var in F4. cbn [snd] in F4. apply Ok_inj in F4. rewrite <- F4. f_equal. apply dims_at_points. destruct (EV i L) as (_ & _ & ->). cbn [hist_part].
        apply (points_app _ [a i] [frame_dim]); [|apply (points_app _ [b i] [hist_dim nb]); [|exact P3]].
        - eapply points_more; [exact D3|]. eapply points_more; [exact D2|]. now rewrite F1.
        - eapply points_more; [exact D3|]. exact P2. }
      intros i k Li Lk. destruct (AV i k Li Lk) as (E & H & _ & F). rewrite (EW i Li), (EW k Lk).
      rewrite <- E, <- H, <- (dims_local_alike total _ _ _ F). apply check_local_alike; [exact F|apply U; exact Li]. }
    apply A. intros xs' rs V. apply HK. intros i L. rewrite <- (V i L). unfold r.
    transitivity (on_obj (do a <- find_dim frame_dim; do b <- add_dim (hist_dim nb); do c <- add_dims_local total (rv_name (v i)) (rv_field (v i));
            do w <- add_var (v i) false (a :: b :: c); do _ <- add_subs (v i); mlift (consistency_check_local w (rv_field (v i)) (pix i))) (view (xs i))).
    { apply on_obj_ext. unfold register_local_var. cbn [view fst]. destruct (EV i L) as (-> & _ & ->). reflexivity. }
    rewrite on_obj_bind. apply mbind_ext. intros a s1. rewrite on_obj_bind. apply mbind_ext. intros b s2. rewrite on_obj_bind. apply mbind_ext. intros c s3.
    rewrite on_obj_bind. apply mbind_ext. intros w s4. rewrite on_obj_bind. apply mbind_ext. intros u s5. destruct s5. reflexivity.
  - (* a field *)
    destruct (has (rv_name (v 0%nat)) (o_subs (p_obj (xs 0%nat)))) eqn:H3.
    { rewrite (map_below n _ (fun i => K i (xs i) (Ok tt))) by (intros i L; destruct (EV i L) as (-> & -> & ->); reflexivity).
      apply (HK xs (fun _ => Ok tt)); [|exact T|intros i k _ _; reflexivity].
      intros i L. unfold on_obj, register_local_var. cbn [view fst]. destruct (EV i L) as (-> & -> & ->). reflexivity. }
    set (m := fun i => cdo a <- cobj (find_dim frame_dim); cdo c <- c_dims_local (v i);
                       cdo w <- cobj (add_var (v i) false (a :: c)); clift (consistency_check_local w (rv_field (v i)) (pix i))).
    rewrite (map_below n _ (fun i => m i (xs i) (K i))) by (intros i L; destruct (EV i L) as (-> & -> & ->); reflexivity).
    set (r := fun i => do a <- on_obj (find_dim frame_dim); do c <- on_obj (add_dims_local total (rv_name (v i)) (rv_field (v i)));
                       do w <- on_obj (add_var (v i) false (a :: c)); mlift (consistency_check_local w (rv_field (v i)) (pix i))).
    assert (A : agrees_at xs eq m r).
    { apply agrees_at_bind with (A := eq); [exact some|apply agrees_obj_eq; [intros; apply find_dim_same|exact T]|]. intros a xs1 V1 T1 Ea.
      apply agrees_at_bind with (A := eq); [exact some|apply dims_local_agrees; [apply U|exact AV|exact T1]|]. intros c xs3 V3 T3 Ec.
      apply agrees_at_bind with (A := eq); [exact some| |].
      { apply agrees_obj; [|exact T3]. intros i k Li Lk. rewrite (Ea i k Li Lk), (Ec i k Li Lk). apply add_var_alike. now apply AV. }
      intros w xs4 V4 T4 Ew. apply agrees_lift_eq; [|exact T4].
      assert (EW : forall i, (i < n)%nat -> w i = mk_ncvar (rv_name (v i)) ([frame_dim] ++ hist_part (rv_hist (v i)) ++ add_field_dims_local total (rv_name (v i)) (rv_field (v i))) (rv_hist (v i))).
      { intros i L. destruct (on_obj_inv _ _ _ _ (V1 i L)) as [F1 _]. destruct (on_obj_inv _ _ _ _ (V3 i L)) as [F3 _]. destruct (on_obj_inv _ _ _ _ (V4 i L)) as [F4 _].
        apply find_dim_points in F1. destruct F1 as [F1 P1]. apply add_dims_points in F3. destruct F3 as [P3 [l3 D3]].
        apply (f_equal snd) in F4. unfold add_var in F4. cbn [snd] in F4. apply Ok_inj in F4. rewrite <- F4. f_equal. apply dims_at_points. destruct (EV i L) as (_ & _ & ->). cbn [hist_part app].
        apply (points_app _ [a i] [frame_dim]); [|exact P3].
        eapply points_more; [exact D3|]. now rewrite F1. }
      intros i k Li Lk. destruct (AV i k Li Lk) as (E & H & _ & F). rewrite (EW i Li), (EW k Lk).
      rewrite <- E, <- H, <- (dims_local_alike total _ _ _ F). apply check_local_alike; [exact F|apply U; exact Li]. }
    apply A. intros xs' rs V. apply HK. intros i L. rewrite <- (V i L). unfold r.
    transitivity (on_obj (do a <- find_dim frame_dim; do c <- add_dims_local total (rv_name (v i)) (rv_field (v i));
            do w <- add_var (v i) false (a :: c); mlift (consistency_check_local w (rv_field (v i)) (pix i))) (view (xs i))).
    { apply on_obj_ext. unfold register_local_var. cbn [view fst]. destruct (EV i L) as (-> & -> & ->). reflexivity. }
    rewrite on_obj_bind. apply mbind_ext. intros a s1. rewrite on_obj_bind. apply mbind_ext. intros c s3.
    rewrite on_obj_bind. apply mbind_ext. intros w s4. destruct s4. reflexivity.
Qed.

(** 698-742 *)
Lemma pixels_agrees writing lname :
  (forall i, (i < n)%nat -> Forall (fun id => 0 <= id < size i) (ids i)) ->
  agrees (fun x y => alike_field (fst x) (fst y)) (fun i => c_pixels writing lname (ids i))
         (fun i => do p <- on_obj (register_pixels lname); mret (p, positions n size writing i ids)).
Proof.
  intros B xs T. unfold c_pixels.
  apply agrees_at_bind with (A := fun p q => alike_field p q); [exact some| |].
  { apply agrees_obj; [|exact T]. intros i k _ _. eapply mrel_weak; [|apply register_pixels_alike]. intros p q H. apply H. }
  intros p xs1 V1 T1 AP.
  assert (NP : forall i, (i < n)%nat -> l_npix (nf_lay (p i)) = size i).
  { intros i L. destruct (on_obj_inv _ _ _ _ (V1 i L)) as [F1 _]. destruct T as [T _]. destruct (T i i L L) as (S & _).
    destruct (register_pixels_alike (size i) (size i) lname _ _ S) as [_ R]. change (p_obj (xs i)) with (fst (view (xs i))) in R. rewrite F1 in R. apply R. }
  destruct writing.
  - apply agrees_at_ext with (r := fun i => do e <- mret (cumulative_sum (numbers n ids) i); do l <- mlift (Ok (positions n size true i ids)); mret (p i, l)); [reflexivity|].
    apply agrees_at_bind with (A := fun _ _ => True); [exact some|apply agrees_scan; [exact some|exact T1]|]. intros e xs2 V2 T2 _.
    assert (EE : forall i, (i < n)%nat -> e i = cumulative_sum (numbers n ids) i).
    { intros i L. specialize (V2 i L). unfold mret in V2. apply (f_equal snd) in V2. cbn [snd] in V2. apply Ok_inj in V2. now rewrite <- V2. }
    intros Q K HK.
    rewrite (map_below n _ (fun i => K i (xs2 i) (Ok (p i, positions n size true i ids)))).
    + apply HK; [reflexivity|exact T2|intros i k Li Lk; exact (AP i k Li Lk)].
    + intros i L. unfold cbind, clift. rewrite (EE i L), (NP i L).
      assert (EN : zn (numbers n ids) i = Z.of_nat (length (ids i))).
      { unfold zn, numbers. apply nth_error_nth. rewrite nth_error_map. rewrite (nth_error_nth' _ 0%nat) by (rewrite seq_length; exact L).
        rewrite seq_nth by exact L. reflexivity. }
      destruct (fill_offsets_ok (ids i) (cumulative_sum (numbers n ids) i - Z.of_nat (length (ids i))) (repeat (-1) (Z.to_nat (size i)))) as [l EL].
      { specialize (B i L). revert B. apply Forall_impl. intros z. rewrite repeat_length. lia. }
      unfold positions, hidden_field. rewrite EN, EL. reflexivity.
  - intros Q K HK. rewrite (map_below n _ (fun i => K i (xs1 i) (Ok (p i, positions n size false i ids)))).
    + apply HK; [reflexivity|exact T1|intros i k Li Lk; exact (AP i k Li Lk)].
    + intros i L. unfold cret, positions. now rewrite (NP i L).
Qed.
Lemma on_obj_each {X Y} (g : X -> M fobj Y) l : forall s, on_obj (meach g l) s = meach (fun x => on_obj (g x)) l s.
Proof.
  induction l as [|x l IH]; intros s; cbn [meach]; [destruct s; reflexivity|]. rewrite on_obj_bind. apply mbind_ext. intros y s1. rewrite on_obj_bind.
  unfold mbind. rewrite IH. destruct (meach (fun x0 => on_obj (g x0)) l s1) as [[o f] [z|e|]]; reflexivity.
Qed.
Lemma Forall2_unary {X} (P : X -> X -> Prop) (U : X -> Prop) l m : Forall2 P l m -> Forall U l -> Forall2 (fun x y => P x y /\ U x) l m.
Proof. induction 1 as [|x y l m Pxy F IH]; intros UL; inversion UL; subst; constructor; auto. Qed.
Lemma local_coll_agrees writing lname vars :
  decomposed n size (JLocal lname ids vars) ->
  agrees eq (fun i => c_local_coll writing lname (ids i) (vars i)) (fun i => on_obj (register_local_coll lname total (positions n size writing i ids) (vars i))).
Proof.
  intros [D1 D2].
  apply agrees_ext with (r := fun i => do x <- (do p <- on_obj (register_pixels lname); mret (p, positions n size writing i ids));
      do _ <- on_obj (fun o => register_global_var (hidden_names o) (mk_rvar lname None (fst x) []) o);
      do _ <- meach (fun r => on_obj (register_local_var total (snd x) r)) (vars i); mret tt).
  { intros i s L. unfold register_local_coll. rewrite on_obj_bind.
    transitivity (mbind (on_obj (register_pixels lname)) (fun p s1 => (do _ <- on_obj (fun o => register_global_var (hidden_names o) (mk_rvar lname None p []) o);
      do _ <- meach (fun r => on_obj (register_local_var total (positions n size writing i ids) r)) (vars i); mret tt) s1) s).
    - apply (mbind_ret (on_obj (register_pixels lname)) (fun p => (p, positions n size writing i ids))).
    - apply mbind_ext. intros p s1. rewrite on_obj_bind. apply mbind_ext. intros _ s2. rewrite on_obj_bind. unfold mbind. rewrite on_obj_each.
      destruct (meach _ (vars i) s2) as [[o f] [z|e|]]; reflexivity. }
  unfold c_local_coll.
  apply agrees_bind with (A := fun x y => alike_field (fst x) (fst y)); [exact some|apply pixels_agrees; intros i L; apply (D1 i L)|].
  intros x AX xs T Q K HK.
  rewrite (map_below n _ (fun i => (crun cobj (fun o => register_global_var (hidden_names o) (mk_rvar lname None (fst (x i)) []) o); ceach (c_local_var (snd (x i))) (vars i)) (xs i) (K i)))
    by (intros i L; destruct (x i); reflexivity).
  revert xs T Q K HK. apply agrees_bind with (A := eq); [exact some| |].
  - apply agrees_obj. intros i k Li Lk o o' S. rewrite (hidden_names_alike _ _ _ _ S). apply global_var_alike; [|exact S].
    split; [reflexivity|]. split; [reflexivity|]. split; [reflexivity|]. exact (AX i k Li Lk).
  - intros _ _. apply (agrees_each n size W some (fun i k r s => alike_var r s /\ (few_axes r /\ l_npix (nf_lay (rv_field r)) = Z.of_nat (length (ids i))))).
    + intros v AV. apply local_var_agrees; [intros i L; apply (AV i i L L)|intros i k Li Lk; apply (AV i k Li Lk)].
    + intros i k Li Lk. apply Forall2_unary; [now apply D2|apply (D1 i Li)].
Qed.
End Local.

(** 467-573, 576-680 *)
Lemma register_agrees writing j : decomposed n size j ->
  agrees eq (fun i => c_register writing (part i j)) (fun i => on_obj (register_op (whole n size writing i j))).
Proof.
  destruct j as [g vars|lname ids vars]; intros D; cbn [part whole c_register register_op].
  - destruct D as [D1 D2]. apply agrees_obj. intros i k Li Lk. destruct (D1 i Li) as (p & P & Np), (D1 k Lk) as (q & Q & Nq). destruct (D2 i k Li Lk) as (E1 & E2 & E3).
    now apply (global_coll_alike (size i) (size k) (g i) (g k) (vars i) (vars k) p q).
  - now apply local_coll_agrees.
Qed.
End Together.
