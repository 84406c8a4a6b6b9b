(** Which arrays are accepted; numpy views and copies of fields; assignment to
    the Python properties. *)
From Verif Require Import Base CIntModel GridModel GridSpec GridProofs GridProofs2 GridProofs3
  StridedModel StridedProofs LayoutModel LayoutSpec LayoutProofs LayoutProofs2
  NumpyModel NumpySpec NumpyProofs NumpyProofs2 NumpyProofs3 NumpyProofs4.

(** ** Accepted arrays *)

Lemma proxy_field_ok order domain n loc pstr comp nsub cs at_ a :
  (order = ColMajor \/ order = RowMajor) -> view comp nsub cs at_ -> proper a -> np_shape a = cs ++ n ->
  n <> [] -> length pstr = length n -> (loc = [] \/ length loc = length n) ->
  Forall (fun x => 0 < x) domain -> zprod domain < 2 ^ 31 ->
  exists w, proxy_field order domain n loc pstr comp nsub [] a = Ok w.
Proof.
  intros Ho Hv (P1 & P2 & P3 & P4) Hsh Hne Lp Hloc Hdom Hdomv.
  rewrite Hsh in P2, P4. pose proof P2 as P2'. apply Forall_app in P2'. destruct P2' as [Pcs Pn].
  pose proof (zprod_pos cs Pcs) as Zcs. pose proof (zprod_pos n Pn) as Zn. rewrite zprod_app in P4.
  assert (Hcs : zprod cs = zprod comp * nsub /\ Forall (fun x => 0 < x) comp /\ 0 < nsub).
  { split; [|split; [|now apply (view_pos comp nsub cs at_)]].
    - destruct Hv as [(-> & _)|(-> & -> & _)]; [rewrite zprod_app; cbn; lia|lia].
    - destruct Hv as [(-> & _)|(-> & -> & _)]; [now apply Forall_app in Pcs|exact Pcs]. }
  destruct Hcs as (Hcs & Pcomp & Hns). pose proof (zprod_pos comp Pcomp) as Zc.
  unfold proxy_field. rewrite (nb_from_shape_exact domain) by assumption. pose proof (zprod_pos domain Hdom).
  destruct (Z.leb_spec (zprod domain) 0); [lia|].
  rewrite (nb_from_shape_exact n) by (assumption || nia). destruct (Z.ltb_spec (zprod n) 0); [lia|].
  assert (Hg : exists f, global_layout order n pstr loc comp nsub = Ok f).
  { unfold global_layout, pixels_strided, pixels_strided_with, is_buffer_contiguous_ax, compute_volume.
    rewrite fold_left_mul, Z.mul_1_l. destruct n as [|x n']; [now elim Hne|]. set (n := x :: n') in *.
    replace (length n =? 0)%nat with false by reflexivity.
    destruct (Z.eqb_spec (zprod n) 0); [lia|]. rewrite Lp, Nat.eqb_refl. cbn [negb bind].
    assert (Ld : length (default_loc n loc) = length n).
    { destruct Hloc as [->|Hl]; [cbn; now rewrite repeat_length|now rewrite default_loc_full]. }
    rewrite Ld, Nat.eqb_refl. cbn [negb bind].
    unfold get_buffer_size. rewrite Lp, Nat.eqb_refl. cbn [negb bind]. eexists; reflexivity. }
  destruct Hg as [f Hg]. rewrite Hg. cbn [bind].
  destruct (global_layout_fields _ _ _ _ _ _ _ Hg) as (F1 & F2 & F3 & F4 & F5 & F6 & F7 & F8).
  unfold wrapped_field. rewrite F2, (nb_from_shape_exact comp) by (assumption || nia).
  destruct (Z.eqb_spec (zprod comp) 0); [lia|].
  assert (Hst : exists s, wrapped_strides (mk_wrapped f [] (np_size a)) SubPt 1 = Ok s /\ length s = length (get_shape f SubPt)).
  { unfold wrapped_strides. cbn [w_custom w_lay]. unfold get_shape, get_sub_pt_shape. rewrite F1, F3, F5.
    destruct Ho as [-> | ->].
    - rewrite (strides_col f F4). eexists. split; [reflexivity|].
      rewrite !app_length, !map_length, running_length, F6, F1. cbn [length]. lia.
    - rewrite (strides_row f F4). eexists. split; [reflexivity|].
      rewrite !app_length, !map_length, !app_length, map_length, rev_length, running_length, rev_length, F6, F1. cbn [length]. lia. }
  destruct Hst as (s & -> & Ls). cbn [bind]. rewrite Ls, Nat.eqb_refl. cbn [negb].
  assert (Esz : np_size a = zprod comp * (nsub * zprod n)) by (unfold np_size; rewrite Hsh, zprod_app, Hcs; ring).
  rewrite Esz. replace (zprod comp * (nsub * zprod n)) with ((nsub * zprod n) * zprod comp) by ring.
  rewrite Z.quot_mul by lia. rewrite (Z.mul_comm (zprod comp)), Z.eqb_refl. cbn [negb].
  rewrite F3, F7, get_size_zprod, Z.eqb_refl. cbn [negb]. eexists; reflexivity.
Qed.

Lemma list_zn_ext (l m : list Z) : length l = length m -> (forall i, (i < length l)%nat -> zn l i = zn m i) -> l = m.
Proof. intros H E. apply (nth_ext _ _ 0 0 H). exact E. Qed.

Lemma mono_last_max c0 cr : (forall i, (S i < length (c0 :: cr))%nat -> zn (c0 :: cr) i <= zn (c0 :: cr) (S i)) ->
  snd (last_max c0 cr) = length cr /\ fst (last_max c0 cr) = zn (c0 :: cr) (length cr).
Proof.
  intros H. destruct (last_max_spec c0 cr) as (H1 & H2 & H3).
  assert (E : zn (c0 :: cr) (length cr) = fst (last_max c0 cr)).
  { destruct (H3 (length cr) ltac:(cbn; lia)) as [H4 _].
    pose proof (adj_le _ _ H (snd (last_max c0 cr)) (length cr) ltac:(cbn [length] in *; lia)). lia. }
  destruct (H3 (length cr) ltac:(cbn; lia)) as [_ H5]. specialize (H5 E). cbn [length] in H1. split; [lia|congruence].
Qed.

Lemma mono_min c0 cr : (forall i, (S i < length (c0 :: cr))%nat -> zn (c0 :: cr) i <= zn (c0 :: cr) (S i)) -> min_elt c0 cr = c0.
Proof.
  intros H. destruct (min_elt_spec c0 cr) as [(i & Hi & Ei) Hall].
  specialize (Hall 0%nat ltac:(cbn; lia)). pose proof (adj_le _ _ H 0 i ltac:(lia)) as H0.
  change (zn (c0 :: cr) 0) with c0 in *. lia.
Qed.

Lemma antimono_last_max c0 cr : (forall i, (S i < length (c0 :: cr))%nat -> zn (c0 :: cr) (S i) < zn (c0 :: cr) i) ->
  last_max c0 cr = (c0, 0%nat).
Proof.
  intros H. destruct (last_max_spec c0 cr) as (H1 & H2 & H3).
  assert (G : forall j, (0 < j < length (c0 :: cr))%nat -> zn (c0 :: cr) j < c0).
  { intros j Hj. induction j as [|j IH]; [lia|]. specialize (H j ltac:(lia)).
    destruct j as [|j]; [cbn in H |- *; lia|]. specialize (IH ltac:(lia)). lia. }
  destruct (H3 0%nat ltac:(cbn; lia)) as [H4 _]. change (zn (c0 :: cr) 0) with c0 in *.
  destruct (snd (last_max c0 cr)) as [|m] eqn:Em.
  - cbn in H2. rewrite (surjective_pairing (last_max c0 cr)), Em, <- H2. reflexivity.
  - specialize (G (S m) ltac:(lia)). lia.
Qed.

Lemma antimono_min c0 cr : (forall i, (S i < length (c0 :: cr))%nat -> zn (c0 :: cr) (S i) <= zn (c0 :: cr) i) ->
  min_elt c0 cr = zn (c0 :: cr) (length cr).
Proof.
  intros H. destruct (min_elt_spec c0 cr) as [(i & Hi & Ei) Hall].
  specialize (Hall (length cr) ltac:(cbn; lia)). pose proof (adj_ge _ _ H i (length cr) ltac:(cbn [length] in *; lia)). lia.
Qed.

Lemma any_decrease_iff l : (forall i, (S i < length l)%nat -> zn l i <= zn l (S i)) -> any_decrease l = false.
Proof.
  induction l as [|x [|y r] IH]; intros H; [reflexivity|reflexivity|].
  cbn [any_decrease]. apply orb_false_iff. split.
  - apply Z.ltb_ge. apply (H 0%nat). cbn; lia.
  - apply IH. intros i Hi. apply (H (S i)). cbn [length] in *; lia.
Qed.
Lemma any_increase_iff l : (forall i, (S i < length l)%nat -> zn l (S i) <= zn l i) -> any_increase l = false.
Proof.
  induction l as [|x [|y r] IH]; intros H; [reflexivity|reflexivity|].
  cbn [any_increase]. apply orb_false_iff. split.
  - apply Z.ltb_ge. apply (H 0%nat). cbn; lia.
  - apply IH. intros i Hi. apply (H (S i)). cbn [length] in *; lia.
Qed.
Lemma zn_tl l i : zn (tl l) i = zn l (S i).
Proof. destruct l as [|x r]; [destruct i; reflexivity|now rewrite zn_cons_S]. Qed.
Lemma tl_length (l : list Z) : length (tl l) = (length l - 1)%nat.
Proof. destruct l; cbn; lia. Qed.

Lemma firstn_app_le {A} (l1 l2 : list A) i : (i <= length l1)%nat -> firstn i (l1 ++ l2) = firstn i l1.
Proof. intros H. rewrite firstn_app. replace (i - length l1)%nat with 0%nat by lia. cbn. now rewrite app_nil_r. Qed.

Lemma zprod_firstn_step n i : Forall (fun x => 0 < x) n -> (i < length n)%nat ->
  zprod (firstn (S i) n) = zprod (firstn i n) * zn n i /\ 0 < zprod (firstn i n) /\ 0 < zn n i.
Proof.
  intros Hp Hi. split; [rewrite firstn_S_zn, zprod_app by assumption; cbn; lia|]. split; [|now apply zn_Forall].
  apply zprod_pos. apply Forall_forall. intros x Hx. rewrite Forall_forall in Hp. apply Hp.
  rewrite <- (firstn_skipn i n). apply in_or_app. now left.
Qed.

Lemma norm_scaled w m l t : 0 < w * m -> length l = length t ->
  (forall i, (i < length l)%nat -> zn l i = w * m * zn t i) -> normalise (w * m) l = t.
Proof.
  intros H Hl E. unfold normalise. replace (0 <? w * m) with true by (symmetry; now apply Z.ltb_lt).
  apply list_zn_ext; [now rewrite map_length|]. rewrite map_length. intros i Hi.
  rewrite zn_map_quot, E by assumption. rewrite Z.mul_comm, Z.quot_mul; lia.
Qed.

Lemma fortran_detect n cs nsub a : proper a -> in_fortran_order a -> np_shape a = cs ++ n -> n <> [] ->
  detect_storage_order n cs nsub a = Ok (ColMajor, col_major_strides n, []).
Proof.
  intros (P1 & P2 & P3 & P4) E Hsh Hne. rewrite Hsh in P2, P4. apply Forall_app in P2. destruct P2 as [Pcs Pn].
  pose proof (zprod_pos cs Pcs) as Zcs. pose proof (zprod_pos n Pn) as Zpn. rewrite zprod_app in P4.
  assert (Hcsv : zprod cs < 2 ^ 31) by nia.
  set (w := np_item a) in *.
  assert (Zs : forall i, (i < length cs + length n)%nat -> zn (np_strides a) i = w * zprod (firstn i (cs ++ n))).
  { intros i Hi. rewrite E, Hsh. fold w. rewrite zn_map_seq; [reflexivity|rewrite app_length; lia]. }
  assert (Ls : length (np_strides a) = (length cs + length n)%nat) by (rewrite P1, Hsh, app_length; reflexivity).
  assert (Hln : (0 < length n)%nat) by (destruct n; [now elim Hne|cbn; lia]).
  unfold detect_storage_order, detect_storage_order_with.
  replace (np_ndim a) with (length cs + length n)%nat by (unfold np_ndim; rewrite Hsh, app_length; reflexivity).
  replace (length n + length cs =? length cs + length n)%nat with true by (symmetry; apply Nat.eqb_eq; lia). cbn [negb].
  replace (length cs + length n - length n)%nat with (length cs) by lia.
  set (cstr := firstn (length cs) (np_strides a)). set (pstr := skipn (length cs) (np_strides a)).
  assert (Lc : length cstr = length cs) by (unfold cstr; rewrite firstn_length; lia).
  assert (Lp : length pstr = length n) by (unfold pstr; rewrite skipn_length; lia).
  assert (Es : np_strides a = cstr ++ pstr) by (symmetry; apply firstn_skipn).
  assert (Zc : forall i, (i < length cs)%nat -> zn cstr i = w * zprod (firstn i cs)).
  { intros i Hi. rewrite <- (zn_app1 cstr pstr) by lia. rewrite <- Es, Zs by lia. now rewrite firstn_app_le by lia. }
  assert (Zp : forall i, (i < length n)%nat -> zn pstr i = w * zprod cs * zprod (firstn i n)).
  { intros i Hi. rewrite <- (zn_app2 cstr pstr), <- Es, Lc, Zs by lia.
    replace (length cs + i)%nat with (length cs + i)%nat by reflexivity.
    rewrite firstn_app_2, zprod_app. ring. }
  assert (Mc : forall i, (S i < length cs)%nat -> zn cstr i <= zn cstr (S i)).
  { intros i Hi. rewrite !Zc by lia. destruct (zprod_firstn_step cs i Pcs ltac:(lia)) as (H1 & H2 & H3). rewrite H1. nia. }
  assert (Mp : forall i, (S i < length n)%nat -> zn pstr i <= zn pstr (S i)).
  { intros i Hi. rewrite !Zp by lia. destruct (zprod_firstn_step n i Pn ltac:(lia)) as (H1 & H2 & H3). rewrite H1.
    assert (0 < w * zprod cs) by (apply Z.mul_pos_pos; lia). nia. }
  destruct pstr as [|p0 pr]; [cbn in Lp; lia|].
  assert (Ep0 : p0 = w * zprod cs * 1) by (specialize (Zp 0%nat Hln); exact Zp).
  assert (Emp : min_elt p0 pr = w * zprod cs) by (rewrite mono_min; [lia|now rewrite Lp]).
  assert (Epn : normalise (min_elt p0 pr) (p0 :: pr) = col_major_strides n).
  { rewrite Emp. apply norm_scaled; [nia|now rewrite Lp, col_major_strides_length|].
    rewrite Lp. intros i Hi. rewrite Zp by assumption. now rewrite zn_col_major. }
  destruct cstr as [|c0 cr] eqn:Ecs.
  { cbn [bind]. rewrite Epn. replace ((1 <? nsub) && storder_eqb ColMajor UnknownOrder) with false by (cbn; now rewrite andb_false_r). reflexivity. }
  assert (Hlcs : (0 < length cs)%nat) by (rewrite <- Lc; cbn; lia).
  assert (Ec0 : c0 = w) by (specialize (Zc 0%nat Hlcs); cbn in Zc; lia).
  assert (Emc : min_elt c0 cr = w * 1) by (rewrite mono_min; [lia|now rewrite Lc]).
  assert (Ecn : normalise (min_elt c0 cr) (c0 :: cr) = col_major_strides cs).
  { rewrite Emc. apply norm_scaled; [lia|now rewrite Lc, col_major_strides_length|].
    rewrite Lc. intros i Hi. rewrite Zc by assumption. rewrite zn_col_major by assumption. ring. }
  assert (Enorm : component_strides_norm cs a = col_major_strides cs).
  { unfold component_strides_norm. replace (firstn (length cs) (np_strides a)) with (c0 :: cr) by (now rewrite <- Ecs). exact Ecn. }
  rewrite Enorm, Ecn. pose proof (col_major_recognised cs Pcs Hcsv) as Hrec. unfold is_buffer_contiguous in Hrec. rewrite Hrec. cbn [bind].
  assert (Hg : guess_order n cs c0 cr p0 pr = ColMajor).
  { unfold guess_order. destruct (mono_last_max c0 cr) as [Q1 Q2]; [now rewrite Lc|].
    destruct (last_max c0 cr) as [cv ci]. cbn [fst snd] in Q1, Q2. subst ci cv.
    destruct (mono_last_max p0 pr) as [Q3 Q4]; [now rewrite Lp|].
    destruct (last_max p0 pr) as [pv pi]. cbn [fst snd] in Q3, Q4. subst pi pv.
    rewrite Emc, Emp.
    assert (Hlast : zn cs (length cr) * zn (c0 :: cr) (length cr) = w * zprod cs).
    { assert (El : length cs = S (length cr)) by (rewrite <- Lc; reflexivity).
      rewrite Zc by lia. destruct (zprod_firstn_step cs (length cr) Pcs ltac:(lia)) as (H1 & _ & _).
      rewrite <- El, firstn_all in H1. rewrite H1. ring. }
    assert (Hcl : zn (c0 :: cr) (length cr) <= w * zprod cs).
    { rewrite <- Hlast. assert (0 < zn cs (length cr)) by (apply zn_Forall; [assumption|rewrite <- Lc; cbn; lia]).
      assert (0 < zn (c0 :: cr) (length cr)).
      { pose proof (adj_le (c0 :: cr) (length cs) Mc 0 (length cr) ltac:(rewrite <- Lc; cbn; lia)) as H0.
        change (zn (c0 :: cr) 0) with c0 in H0. lia. }
      nia. }
    assert (Hpl : w * 1 <= zn (p0 :: pr) (length pr)).
    { pose proof (adj_le (p0 :: pr) (length n) Mp 0 (length pr) ltac:(rewrite <- Lp; cbn; lia)) as H.
      change (zn (p0 :: pr) 0) with p0 in H. assert (w * 1 <= w * zprod cs) by (apply Z.mul_le_mono_nonneg_l; lia). lia. }
    destruct (Z.ltb_spec (zn (p0 :: pr) (length pr)) (w * 1)); [lia|].
    destruct (Z.leb_spec (zn (c0 :: cr) (length cr)) (w * zprod cs)); [|lia].
    rewrite Hlast, Z.eqb_refl. reflexivity. }
  rewrite Hg. cbn [bind].
  assert (Ha : any_decrease (tl (col_major_strides cs)) = false).
  { apply any_decrease_iff. intros i Hi. rewrite tl_length, col_major_strides_length in Hi. rewrite !zn_tl.
    rewrite !zn_col_major by lia. destruct (zprod_firstn_step cs (S i) Pcs ltac:(lia)) as (H1 & H2 & H3). rewrite H1. nia. }
  rewrite Ha, Epn. replace ((1 <? nsub) && storder_eqb ColMajor UnknownOrder) with false by (cbn; now rewrite andb_false_r). reflexivity.
Qed.

Lemma fortran_accepted domain n loc nsub comp a cs at_ :
  view comp nsub cs at_ -> proper a -> in_fortran_order a -> np_shape a = cs ++ n -> n <> [] ->
  (loc = [] \/ length loc = length n) -> Forall (fun x => 0 < x) domain -> zprod domain < 2 ^ 31 ->
  exists pr, proxy_comp domain n loc nsub comp a = Ok pr /\ wrapped_order (pr_field pr) = ColMajor.
Proof.
  intros Hv Hp E Hsh Hne Hloc Hdom Hdv.
  assert (Ecs : sub_pt_shape_of n comp nsub a = cs /\ (has_sub_axis n comp a = true /\ cs = comp ++ [nsub] \/ has_sub_axis n comp a = false /\ cs = comp /\ nsub = 1)).
  { unfold sub_pt_shape_of, has_sub_axis, np_ndim. rewrite Hsh, app_length. destruct Hv as [(-> & _)|(-> & -> & _)].
    - rewrite app_length. cbn [length]. replace (length n + length comp + 1 =? length comp + 1 + length n)%nat with true by (symmetry; apply Nat.eqb_eq; lia). auto.
    - replace (length n + length comp + 1 =? length comp + length n)%nat with false by (symmetry; apply Nat.eqb_neq; lia). auto. }
  destruct Ecs as [Ecs Hcase]. unfold proxy_comp, proxy_comp_with. rewrite Ecs.
  fold (detect_storage_order n cs nsub a). rewrite (fortran_detect n cs nsub a Hp E Hsh Hne).
  assert (Hshape : exists u, (if has_sub_axis n comp a
     then if zlist_eqb n (skipn (np_ndim a - length n) (np_shape a)) && (nsub =? zn (np_shape a) (length comp)) &&
             zlist_eqb comp (firstn (length comp) (np_shape a)) then Ok SubPt else Err NumpyError
     else if (length n + length comp =? np_ndim a)%nat
          then if zlist_eqb n (skipn (np_ndim a - length n) (np_shape a)) && (nsub =? 1) &&
                  zlist_eqb comp (firstn (length comp) (np_shape a)) then Ok Pixel else Err NumpyError
          else Err NumpyError) = Ok u).
  { unfold np_ndim. rewrite Hsh.
    assert (E1 : zlist_eqb n (skipn (length (cs ++ n) - length n) (cs ++ n)) = true).
    { apply zlist_eqb_eq. rewrite app_length. replace (length cs + length n - length n)%nat with (length cs) by lia.
      rewrite skipn_app, skipn_all, Nat.sub_diag. reflexivity. }
    rewrite E1. destruct Hcase as [(-> & ->)|(-> & -> & ->)].
    - assert (E2 : zn ((comp ++ [nsub]) ++ n) (length comp) = nsub).
      { rewrite <- app_assoc. rewrite <- (Nat.add_0_r (length comp)), zn_app2. reflexivity. }
      rewrite E2, Z.eqb_refl. assert (E3 : zlist_eqb comp (firstn (length comp) ((comp ++ [nsub]) ++ n)) = true).
      { apply zlist_eqb_eq. rewrite <- app_assoc, firstn_app, firstn_all, Nat.sub_diag. cbn. now rewrite app_nil_r. }
      rewrite E3. eexists; reflexivity.
    - assert (E3 : zlist_eqb comp (firstn (length comp) (comp ++ n)) = true).
      { apply zlist_eqb_eq. rewrite firstn_app, firstn_all, Nat.sub_diag. cbn. now rewrite app_nil_r. }
      rewrite E3, app_length. replace (length n + length comp =? length comp + length n)%nat with true by (symmetry; apply Nat.eqb_eq; lia).
      eexists; reflexivity. }
  destruct Hshape as [u Hu].
  destruct (proxy_field_ok ColMajor domain n loc (col_major_strides n) comp nsub cs at_ a) as [w Hw]; try assumption; [now left|apply col_major_strides_length|].
  exists (mk_proxy w u). split.
  - unfold bind at 1. rewrite Hu. cbn [bind]. rewrite Hw. reflexivity.
  - cbn [pr_field]. destruct (proxy_field_inv _ _ _ _ _ _ _ _ _ _ Hw) as (Hl & Ew & _).
    destruct (global_layout_fields _ _ _ _ _ _ _ Hl) as (_ & _ & _ & F4 & _). unfold wrapped_order. now rewrite Ew, F4.
Qed.
