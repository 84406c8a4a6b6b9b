(** Arrays in C order; numpy views and copies of fields; assignment to the
    Python properties. *)
From Verif Require Import Base CIntModel GridModel GridSpec GridProofs GridProofs2 GridProofs3
  StridedModel StridedProofs LayoutModel LayoutSpec LayoutProofs LayoutProofs2
  NumpyModel NumpySpec NumpyProofs NumpyProofs2 NumpyProofs3 NumpyProofs4 NumpyProofs5.

(** ** Arrays in C order *)

Lemma zprod_skipn_step n i : Forall (fun x => 0 < x) n -> (i < length n)%nat ->
  zprod (skipn i n) = zn n i * zprod (skipn (S i) n) /\ 0 < zprod (skipn (S i) n) /\ 0 < zn n i.
Proof.
  intros Hp Hi. split; [rewrite (skipn_zn n i) by assumption; apply zprod_cons|]. split; [|now apply zn_Forall].
  apply zprod_pos. apply Forall_forall. intros x Hx. rewrite Forall_forall in Hp. apply Hp.
  rewrite <- (firstn_skipn (S i) n). apply in_or_app. now right.
Qed.

Lemma skipn_app_le {A} (l1 l2 : list A) i : (i <= length l1)%nat -> skipn i (l1 ++ l2) = skipn i l1 ++ l2.
Proof. intros H. rewrite skipn_app. replace (i - length l1)%nat with 0%nat by lia. reflexivity. Qed.

Lemma c_detect axes n cs nsub a : proper a -> in_c_order a -> np_shape a = cs ++ n -> n <> [] ->
  Forall (fun x => 2 <= x) (np_shape a) -> sort_outcome cs (component_strides_norm cs a) axes ->
  detect_storage_order_with axes n cs nsub a =
  Ok (match cs with [] => ColMajor | _ => RowMajor end, row_major_strides n, []).
Proof.
  intros (P1 & P2 & P3 & P4) E Hsh Hne H2 Hso. rewrite Hsh in P2, P4, H2. apply Forall_app in P2. destruct P2 as [Pcs Pn].
  apply Forall_app in H2. destruct H2 as [Tcs Tn].
  pose proof (zprod_pos cs Pcs) as Zcs. pose proof (zprod_pos n Pn) as Zpn. rewrite zprod_app in P4.
  assert (Hcsv : zprod cs < 2 ^ 31) by nia.
  set (w := np_item a) in *.
  assert (Zs : forall i, (i < length cs + length n)%nat -> zn (np_strides a) i = w * zprod (skipn (S i) (cs ++ n))).
  { intros i Hi. rewrite E, Hsh. fold w. rewrite zn_map_seq; [reflexivity|rewrite app_length; lia]. }
  assert (Ls : length (np_strides a) = (length cs + length n)%nat) by (rewrite P1, Hsh, app_length; reflexivity).
  assert (Hln : (0 < length n)%nat) by (destruct n; [now elim Hne|cbn; lia]).
  unfold detect_storage_order_with.
  replace (np_ndim a) with (length cs + length n)%nat by (unfold np_ndim; rewrite Hsh, app_length; reflexivity).
  replace (length n + length cs =? length cs + length n)%nat with true by (symmetry; apply Nat.eqb_eq; lia). cbn [negb].
  replace (length cs + length n - length n)%nat with (length cs) by lia.
  set (cstr := firstn (length cs) (np_strides a)). set (pstr := skipn (length cs) (np_strides a)).
  assert (Lc : length cstr = length cs) by (unfold cstr; rewrite firstn_length; lia).
  assert (Lp : length pstr = length n) by (unfold pstr; rewrite skipn_length; lia).
  assert (Es : np_strides a = cstr ++ pstr) by (symmetry; apply firstn_skipn).
  assert (Zc : forall i, (i < length cs)%nat -> zn cstr i = w * zprod n * zprod (skipn (S i) cs)).
  { intros i Hi. rewrite <- (zn_app1 cstr pstr) by lia. rewrite <- Es, Zs by lia. rewrite skipn_app_le, zprod_app by lia. ring. }
  assert (Zp : forall i, (i < length n)%nat -> zn pstr i = w * zprod (skipn (S i) n)).
  { intros i Hi. rewrite <- (zn_app2 cstr pstr), <- Es, Lc, Zs by lia.
    rewrite skipn_app, skipn_all2 by lia. replace (S (length cs + i) - length cs)%nat with (S i) by lia. reflexivity. }
  assert (Hwn : 0 < w * zprod n) by (apply Z.mul_pos_pos; lia).
  assert (Mc : forall i, (S i < length cs)%nat -> zn cstr (S i) < zn cstr i).
  { intros i Hi. rewrite !Zc by lia. destruct (zprod_skipn_step cs (S i) Pcs ltac:(lia)) as (H1 & H2 & H3). rewrite H1.
    pose proof (zn_Forall _ _ (S i) Tcs ltac:(lia)) as H4. cbn beta in H4. apply Z.mul_lt_mono_pos_l; [assumption|nia]. }
  assert (Mp : forall i, (S i < length n)%nat -> zn pstr (S i) < zn pstr i).
  { intros i Hi. rewrite !Zp by lia. destruct (zprod_skipn_step n (S i) Pn ltac:(lia)) as (H1 & H2 & H3). rewrite H1.
    pose proof (zn_Forall _ _ (S i) Tn ltac:(lia)) as H4. cbn beta in H4. apply Z.mul_lt_mono_pos_l; [assumption|nia]. }
  destruct pstr as [|p0 pr]; [cbn in Lp; lia|].
  assert (Lpr : length n = S (length pr)) by (rewrite <- Lp; reflexivity).
  assert (Emp : min_elt p0 pr = w * 1).
  { rewrite antimono_min; [|rewrite Lp; intros i Hi; specialize (Mp i Hi); lia].
    rewrite Zp by lia. rewrite skipn_all2 by lia. reflexivity. }
  assert (Epn : normalise (min_elt p0 pr) (p0 :: pr) = row_major_strides n).
  { rewrite Emp. apply norm_scaled; [lia|now rewrite Lp, row_major_strides_length|].
    rewrite Lp. intros i Hi. rewrite Zp, zn_row_major by assumption. ring. }
  destruct cstr as [|c0 cr] eqn:Ecs.
  { cbn [length] in Lc. destruct cs; [|discriminate]. cbn [bind]. rewrite Epn.
    replace ((1 <? nsub) && storder_eqb ColMajor UnknownOrder) with false by (cbn; now rewrite andb_false_r). reflexivity. }
  assert (Lcr : length cs = S (length cr)) by (rewrite <- Lc; reflexivity).
  assert (Emc : min_elt c0 cr = w * zprod n).
  { rewrite antimono_min; [|rewrite Lc; intros i Hi; specialize (Mc i Hi); lia].
    rewrite Zc by lia. rewrite skipn_all2 by lia. cbn [zprod fold_right]. ring. }
  assert (Ecn : normalise (min_elt c0 cr) (c0 :: cr) = row_major_strides cs).
  { rewrite Emc. apply norm_scaled; [assumption|now rewrite Lc, row_major_strides_length|].
    rewrite Lc. intros i Hi. rewrite Zc, zn_row_major by assumption. ring. }
  assert (Enorm : component_strides_norm cs a = row_major_strides cs).
  { unfold component_strides_norm. replace (firstn (length cs) (np_strides a)) with (c0 :: cr) by (now rewrite <- Ecs). exact Ecn. }
  rewrite Enorm in Hso. rewrite Ecn.
  rewrite (contiguous_complete cs (row_major_strides cs) axes (rev (seq 0 (length cs))));
    [|assumption|assumption|apply row_major_strides_length|apply Permutation_sym, Permutation_rev|apply row_major_dense|assumption].
  cbn [bind].
  assert (Hg : guess_order n cs c0 cr p0 pr = RowMajor).
  { unfold guess_order. rewrite (antimono_last_max c0 cr) by (now rewrite Lc).
    rewrite (antimono_last_max p0 pr) by (now rewrite Lp). rewrite Emc, Emp.
    assert (Ep : zn n 0 * p0 = w * zprod n).
    { specialize (Zp 0%nat Hln). change (zn (p0 :: pr) 0) with p0 in Zp. rewrite Zp.
      destruct (zprod_skipn_step n 0 Pn Hln) as (H1 & _ & _). change (skipn 0 n) with n in H1. rewrite H1. ring. }
    assert (0 < p0).
    { specialize (Zp 0%nat Hln). change (zn (p0 :: pr) 0) with p0 in Zp. rewrite Zp.
      destruct (zprod_skipn_step n 0 Pn Hln) as (_ & H1 & _). now apply Z.mul_pos_pos. }
    pose proof (zn_Forall _ _ 0 Tn Hln) as H4. cbn beta in H4.
    destruct (Z.ltb_spec p0 (w * zprod n)); [|nia]. rewrite Ep, Z.eqb_refl. reflexivity. }
  rewrite Hg.
  assert (Ha : any_increase (tl (row_major_strides cs)) = false).
  { apply any_increase_iff. intros i Hi. rewrite tl_length, row_major_strides_length in Hi. rewrite !zn_tl.
    rewrite !zn_row_major by lia. destruct (zprod_skipn_step cs (S (S i)) Pcs ltac:(lia)) as (H1 & H2 & H3). rewrite H1. nia. }
  rewrite Ha, Epn. replace ((1 <? nsub) && storder_eqb RowMajor UnknownOrder) with false by (cbn; now rewrite andb_false_r).
  destruct cs; [discriminate|reflexivity].
Qed.

(** ** Both constructors *)

Lemma comp_accepted axes order domain n loc nsub comp a cs at_ pstr :
  view comp nsub cs at_ -> proper a -> np_shape a = cs ++ n -> n <> [] ->
  (loc = [] \/ length loc = length n) -> Forall (fun x => 0 < x) domain -> zprod domain < 2 ^ 31 ->
  (order = ColMajor \/ order = RowMajor) -> length pstr = length n ->
  detect_storage_order_with axes n cs nsub a = Ok (order, pstr, []) ->
  sub_pt_shape_of n comp nsub a = cs /\
  exists pr, proxy_comp_with axes domain n loc nsub comp a = Ok pr /\ wrapped_order (pr_field pr) = order.
Proof.
  intros Hv Hp Hsh Hne Hloc Hdom Hdv Ho Lp Hd.
  assert (Ecs : sub_pt_shape_of n comp nsub a = cs /\ (has_sub_axis n comp a = true /\ cs = comp ++ [nsub] \/ has_sub_axis n comp a = false /\ cs = comp /\ nsub = 1)).
  { unfold sub_pt_shape_of, has_sub_axis, np_ndim. rewrite Hsh, app_length. destruct Hv as [(-> & _)|(-> & -> & _)].
    - rewrite app_length. cbn [length]. replace (length n + length comp + 1 =? length comp + 1 + length n)%nat with true by (symmetry; apply Nat.eqb_eq; lia). auto.
    - replace (length n + length comp + 1 =? length comp + length n)%nat with false by (symmetry; apply Nat.eqb_neq; lia). auto. }
  destruct Ecs as [Ecs Hcase]. split; [exact Ecs|]. unfold proxy_comp_with. rewrite Ecs, Hd.
  assert (Hshape : exists u, (if has_sub_axis n comp a
     then if zlist_eqb n (skipn (np_ndim a - length n) (np_shape a)) && (nsub =? zn (np_shape a) (length comp)) &&
             zlist_eqb comp (firstn (length comp) (np_shape a)) then Ok SubPt else Err NumpyError
     else if (length n + length comp =? np_ndim a)%nat
          then if zlist_eqb n (skipn (np_ndim a - length n) (np_shape a)) && (nsub =? 1) &&
                  zlist_eqb comp (firstn (length comp) (np_shape a)) then Ok Pixel else Err NumpyError
          else Err NumpyError) = Ok u).
  { unfold np_ndim. rewrite Hsh.
    assert (E1 : zlist_eqb n (skipn (length (cs ++ n) - length n) (cs ++ n)) = true).
    { apply zlist_eqb_eq. rewrite app_length. replace (length cs + length n - length n)%nat with (length cs) by lia.
      rewrite skipn_app, skipn_all, Nat.sub_diag. reflexivity. }
    rewrite E1. destruct Hcase as [(-> & ->)|(-> & -> & ->)].
    - assert (E2 : zn ((comp ++ [nsub]) ++ n) (length comp) = nsub).
      { rewrite <- app_assoc. rewrite <- (Nat.add_0_r (length comp)), zn_app2. reflexivity. }
      rewrite E2, Z.eqb_refl. assert (E3 : zlist_eqb comp (firstn (length comp) ((comp ++ [nsub]) ++ n)) = true).
      { apply zlist_eqb_eq. rewrite <- app_assoc, firstn_app, firstn_all, Nat.sub_diag. cbn. now rewrite app_nil_r. }
      rewrite E3. eexists; reflexivity.
    - assert (E3 : zlist_eqb comp (firstn (length comp) (comp ++ n)) = true).
      { apply zlist_eqb_eq. rewrite firstn_app, firstn_all, Nat.sub_diag. cbn. now rewrite app_nil_r. }
      rewrite E3, app_length. replace (length n + length comp =? length comp + length n)%nat with true by (symmetry; apply Nat.eqb_eq; lia).
      eexists; reflexivity. }
  destruct Hshape as [u Hu].
  destruct (proxy_field_ok order domain n loc pstr comp nsub cs at_ a) as [w Hw]; try assumption.
  exists (mk_proxy w u). split.
  - unfold bind at 1. rewrite Hu. cbn [bind]. rewrite Hw. reflexivity.
  - cbn [pr_field]. destruct (proxy_field_inv _ _ _ _ _ _ _ _ _ _ Hw) as (Hl & Ew & _).
    destruct (global_layout_fields _ _ _ _ _ _ _ Hl) as (_ & _ & _ & F4 & _). unfold wrapped_order. now rewrite Ew, F4.
Qed.

Lemma dof_accepted axes order domain n loc a cs pstr :
  proper a -> np_shape a = cs ++ n -> n <> [] ->
  (loc = [] \/ length loc = length n) -> Forall (fun x => 0 < x) domain -> zprod domain < 2 ^ 31 ->
  (order = ColMajor \/ order = RowMajor) -> length pstr = length n ->
  detect_storage_order_with axes n cs 1 a = Ok (order, pstr, []) ->
  exists pr, proxy_dof_with axes domain n loc (zprod cs) a = Ok pr /\ wrapped_order (pr_field pr) = order.
Proof.
  intros Hp Hsh Hne Hloc Hdom Hdv Ho Lp Hd. unfold proxy_dof_with, np_size, np_ndim. rewrite Hsh, app_length.
  replace (length cs + length n - length n)%nat with (length cs) by lia.
  pose proof Hp as (P1 & P2 & P3 & P4). rewrite Hsh in P2, P4. apply Forall_app in P2. destruct P2 as [Pcs Pn].
  rewrite zprod_app in P4. pose proof (zprod_pos cs Pcs). pose proof (zprod_pos n Pn).
  rewrite nb_from_shape_exact by (assumption || nia). rewrite zprod_app, (Z.mul_comm (zprod n)), Z.eqb_refl. cbn [negb].
  destruct (Nat.ltb_spec (length cs + length n) (length n)); [lia|].
  rewrite skipn_app, skipn_all, Nat.sub_diag. cbn [app skipn].
  replace (zlist_eqb n n) with true by (symmetry; now apply zlist_eqb_eq). cbn [negb].
  rewrite firstn_app, firstn_all, Nat.sub_diag. cbn [firstn]. rewrite app_nil_r, Z.eqb_refl. cbn [negb]. rewrite Hd. cbn [bind].
  destruct (proxy_field_ok order domain n loc pstr cs 1 cs without_sub_axis a) as [w Hw]; try assumption; [right; auto|].
  rewrite Hw. cbn [bind]. eexists. split; [reflexivity|].
  cbn [pr_field]. destruct (proxy_field_inv _ _ _ _ _ _ _ _ _ _ Hw) as (Hl & Ew & _).
  destruct (global_layout_fields _ _ _ _ _ _ _ Hl) as (_ & _ & _ & F4 & _). unfold wrapped_order. now rewrite Ew, F4.
Qed.

Lemma fortran_dof domain n loc a cs : proper a -> in_fortran_order a -> np_shape a = cs ++ n -> n <> [] ->
  (loc = [] \/ length loc = length n) -> Forall (fun x => 0 < x) domain -> zprod domain < 2 ^ 31 ->
  exists pr, proxy_dof domain n loc (zprod cs) a = Ok pr /\ wrapped_order (pr_field pr) = ColMajor.
Proof.
  intros Hp E Hsh Hne Hloc Hdom Hdv. unfold proxy_dof.
  replace (firstn (np_ndim a - length n) (np_shape a)) with cs.
  2:{ unfold np_ndim. rewrite Hsh, app_length. replace (length cs + length n - length n)%nat with (length cs) by lia.
      rewrite firstn_app, firstn_all, Nat.sub_diag. cbn. now rewrite app_nil_r. }
  apply (dof_accepted _ ColMajor domain n loc a cs (col_major_strides n)); try assumption; [now left|apply col_major_strides_length|].
  apply (fortran_detect n cs 1 a); assumption.
Qed.

Lemma c_dof axes domain n loc a cs : proper a -> in_c_order a -> np_shape a = cs ++ n -> n <> [] ->
  Forall (fun x => 2 <= x) (np_shape a) -> sort_outcome cs (component_strides_norm cs a) axes ->
  (loc = [] \/ length loc = length n) -> Forall (fun x => 0 < x) domain -> zprod domain < 2 ^ 31 ->
  exists pr, proxy_dof_with axes domain n loc (zprod cs) a = Ok pr /\ wrapped_order (pr_field pr) <> UnknownOrder.
Proof.
  intros Hp E Hsh Hne H2 Hso Hloc Hdom Hdv.
  destruct (dof_accepted axes (match cs with [] => ColMajor | _ => RowMajor end) domain n loc a cs (row_major_strides n)) as (pr & H & Ho); try assumption.
  - destruct cs; auto.
  - apply row_major_strides_length.
  - now apply c_detect.
  - exists pr. split; [exact H|]. rewrite Ho. destruct cs; discriminate.
Qed.

Lemma c_comp axes domain n loc nsub comp a cs at_ : view comp nsub cs at_ -> proper a -> in_c_order a ->
  np_shape a = cs ++ n -> n <> [] ->
  Forall (fun x => 2 <= x) (np_shape a) -> sort_outcome cs (component_strides_norm cs a) axes ->
  (loc = [] \/ length loc = length n) -> Forall (fun x => 0 < x) domain -> zprod domain < 2 ^ 31 ->
  exists pr, proxy_comp_with axes domain n loc nsub comp a = Ok pr /\ wrapped_order (pr_field pr) <> UnknownOrder.
Proof.
  intros Hv Hp E Hsh Hne H2 Hso Hloc Hdom Hdv.
  destruct (comp_accepted axes (match cs with [] => ColMajor | _ => RowMajor end) domain n loc nsub comp a cs at_ (row_major_strides n)) as (_ & pr & H & Ho); try assumption.
  - destruct cs; auto.
  - apply row_major_strides_length.
  - now apply c_detect.
  - exists pr. split; [exact H|]. rewrite Ho. destruct cs; discriminate.
Qed.

(** ** Views and copies *)

Lemma viewable_embeds f u : viewable f u ->
  exists s, get_strides f u 1 = Ok s /\ embeds (get_shape f u) s (buffer_scalars f).
Proof.
  intros [Hs Hu]. destruct u; [|now apply sub_pt_embeds].
  pose proof Hs as (_ & _ & _ & [Ho|Ho] & _).
  - apply pixel_view_col; [assumption|assumption|]. destruct Hu as [Hu|[_ Hu]]; auto.
  - destruct Hu as [Hu|[Hu _]]; [now apply pixel_view_row_single|congruence].
Qed.

Lemma wrap_view f u sz : viewable f u -> 0 < sz ->
  exists s a, get_strides f u 1 = Ok s /\ numpy_wrap f (get_strides f) u sz = Ok a /\
    np_shape a = get_shape f u /\ np_item a = sz /\ length (np_strides a) = length (np_shape a) /\
    whole_items a /\ (forall i, in_shape (get_shape f u) i -> off (np_strides a) i = sz * off s i).
Proof.
  intros Hv Hsz. destruct (viewable_embeds f u Hv) as (s & Es & (L & _ & _)).
  exists s, (mk_nparray (get_shape f u) (map (fun x => x * sz) s) sz).
  split; [exact Es|]. unfold numpy_wrap. rewrite strides_element_size, Es. cbn [bind].
  split; [reflexivity|]. cbn [np_shape np_item np_strides]. split; [reflexivity|]. split; [reflexivity|].
  split; [now rewrite map_length|]. split.
  - unfold whole_items. cbn [np_item np_strides]. apply Forall_forall. intros x Hx. apply in_map_iff in Hx. destruct Hx as (y & <- & _). now exists y.
  - intros i [Hi _]. apply off_scale. congruence.
Qed.

Lemma element_wrap {A} sz s a (mem : list A) i : 0 < sz -> np_item a = sz ->
  off (np_strides a) i = sz * off s i -> element a mem i = rd mem (off s i).
Proof. intros Hsz E H. unfold element. rewrite E, H, Z.mul_comm, Z.quot_mul by lia. reflexivity. Qed.

(** Assignment of an array to a view of a field. *)
Lemma setter_correct {A} axes f u a (vals mem : list A) sz :
  viewable f u -> 0 < sz -> get_shape f u <> [] -> Forall (fun x => 0 < x) (get_shape f u) -> zprod (get_shape f u) < 2 ^ 31 ->
  (forall s, get_strides f u 1 = Ok s -> sort_outcome (get_shape f u) s axes) ->
  np_shape a = get_shape f u -> length (np_strides a) = length (np_shape a) -> 0 < np_item a -> whole_items a ->
  inside a (Z.of_nat (length vals)) -> Z.of_nat (length mem) = buffer_scalars f ->
  exists mem' v, array_setter_with axes f (get_strides f) u a vals mem = Ok mem' /\ length mem' = length mem /\
    numpy_wrap f (get_strides f) u sz = Ok v /\ np_shape v = np_shape a /\
    (forall i, in_shape (np_shape a) i -> element v mem' i = element a vals i) /\
    (forall j, (forall i, in_shape (np_shape a) i -> off (np_strides v) i <> sz * j) -> rd mem' j = rd mem j).
Proof.
  intros Hv Hsz Hne Hpos Hprod Hso Hsh Hlen Hit Hw Hin Hmem.
  destruct (viewable_embeds f u Hv) as (s & Es & (L & Hwi & Hinj)).
  destruct (wrap_view f u sz Hv Hsz) as (s' & v & Es' & Ev & Vsh & Vit & Vl & Vw & Voff).
  rewrite Es in Es'. apply Ok_inj in Es'. subst s'.
  assert (Q : forall i, in_shape (np_shape a) i -> np_item a * off (map (fun x => Z.quot x (np_item a)) (np_strides a)) i = off (np_strides a) i).
  { intros i [Hi _]. apply off_quot; [assumption|exact Hw|congruence]. }
  destruct (strided_copy_correct axes (get_shape f u) (map (fun x => Z.quot x (np_item a)) (np_strides a)) s vals mem) as (mem' & H1 & H2 & H3 & H4); try assumption.
  - now apply Hso.
  - rewrite map_length, Hlen, Hsh. reflexivity.
  - intros c Hc. rewrite <- Hsh in Hc. specialize (Hin c Hc). specialize (Q c Hc). nia.
  - now rewrite Hmem.
  - exists mem', v. split; [|split; [exact H2|split; [exact Ev|split; [congruence|split]]]].
    + unfold array_setter_with. rewrite Hsh. replace (zlist_eqb (get_shape f u) (get_shape f u)) with true by (symmetry; now apply zlist_eqb_eq).
      cbn [negb]. rewrite Es. cbn [bind]. exact H1.
    + intros i Hi. pose proof (Q i Hi) as Qi. rewrite Hsh in Hi.
      rewrite (element_wrap sz s v mem' i Hsz Vit (Voff i Hi)), (H3 i Hi).
      unfold element. rewrite <- Qi, Z.mul_comm, Z.quot_mul by lia. reflexivity.
    + intros j Hj. apply H4. intros c Hc E. apply (Hj c); [congruence|]. rewrite (Voff c Hc). congruence.
Qed.

Lemma setter_wrong_shape {A} axes f u a (vals mem : list A) : np_shape a <> get_shape f u ->
  array_setter_with axes f (get_strides f) u a vals mem = Err RuntimeError.
Proof.
  intros H. unfold array_setter_with. destruct (zlist_eqb (np_shape a) (get_shape f u)) eqn:E; [|reflexivity].
  apply zlist_eqb_eq in E. contradiction.
Qed.

(** The copy of a field. *)
Lemma c_strides_items shape sz : 0 < sz ->
  map (fun x => Z.quot x sz) (c_strides shape sz) = rev (running 1 (rev shape)) /\
  c_strides shape sz = map (fun x => x * sz) (rev (running 1 (rev shape))).
Proof.
  intros H. assert (E : c_strides shape sz = map (fun x => x * sz) (rev (running 1 (rev shape)))).
  { unfold c_strides. rewrite running_mul, map_rev. reflexivity. }
  split; [|exact E]. rewrite E, map_map. rewrite <- (map_id (rev (running 1 (rev shape)))) at 2. apply map_ext.
  intros x. apply Z.quot_mul. lia.
Qed.

Lemma fresh_in_c_order shape sz : in_c_order (fresh_array shape sz).
Proof.
  unfold in_c_order, fresh_array, c_strides. cbn [np_strides np_item np_shape]. rewrite running_mul, <- map_rev, <- row_major_running.
  apply list_zn_ext; [now rewrite !map_length, seq_length, row_major_strides_length|].
  rewrite map_length, row_major_strides_length. intros i Hi. rewrite zn_map_seq by assumption.
  rewrite <- zn_row_major by assumption. unfold zn. rewrite (nth_indep _ 0 (0 * sz)) by (now rewrite map_length, row_major_strides_length).
  rewrite (map_nth (fun x => x * sz)). ring.
Qed.

Lemma copy_correct {A} axes f u sz (mem junk : list A) :
  viewable f u -> 0 < sz -> get_shape f u <> [] -> Forall (fun x => 0 < x) (get_shape f u) -> zprod (get_shape f u) < 2 ^ 31 ->
  sort_outcome (get_shape f u) (rev (running 1 (rev (get_shape f u)))) axes ->
  Z.of_nat (length mem) = buffer_scalars f -> Z.of_nat (length junk) = zprod (get_shape f u) ->
  exists out v, numpy_copy_with axes f (get_strides f) u sz mem junk = Ok out /\ length out = length junk /\
    numpy_wrap f (get_strides f) u sz = Ok v /\ np_shape v = get_shape f u /\
    forall i, in_shape (get_shape f u) i -> element (fresh_array (get_shape f u) sz) out i = element v mem i.
Proof.
  intros Hv Hsz Hne Hpos Hprod Hso Hmem Hjunk.
  destruct (viewable_embeds f u Hv) as (s & Es & (L & Hwi & Hinj)).
  destruct (wrap_view f u sz Hv Hsz) as (s' & v & Es' & Ev & Vsh & Vit & Vl & Vw & Voff).
  rewrite Es in Es'. apply Ok_inj in Es'. subst s'.
  destruct (c_strides_items (get_shape f u) sz Hsz) as [C1 C2].
  destruct (bij_rowmajor (get_shape f u) Hpos) as (B1 & B2 & B3 & _).
  destruct (strided_copy_correct axes (get_shape f u) s (rev (running 1 (rev (get_shape f u)))) mem junk) as (out & H1 & H2 & H3 & H4); try assumption.
  - now rewrite Hmem.
  - now rewrite Hjunk.
  - exists out, v. split; [|split; [exact H2|split; [exact Ev|split; [exact Vsh|]]]].
    + unfold numpy_copy_with. rewrite Es, C1. cbn [bind]. exact H1.
    + intros i Hi. rewrite (element_wrap sz s v mem i Hsz Vit (Voff i Hi)), <- (H3 i Hi).
      apply (element_wrap sz); [exact Hsz|reflexivity|]. cbn [fresh_array np_strides]. rewrite C2. apply off_scale.
      destruct Hi as [Hi _]. congruence.
Qed.
