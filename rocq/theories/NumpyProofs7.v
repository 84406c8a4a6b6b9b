(** Lemmas for concrete arrays, slices, and [set_zero] on foreign memory. *)
From Verif Require Import Base CIntModel GridModel GridSpec GridProofs GridProofs2 GridProofs3
  StridedModel StridedProofs LayoutModel LayoutSpec LayoutProofs LayoutProofs2
  NumpyModel NumpySpec NumpyProofs NumpyProofs2 NumpyProofs3 NumpyProofs4 NumpyProofs5 NumpyProofs6.

Definition in_shapeb (n c : list Z) : bool :=
  (length c =? length n)%nat && forallb (fun i => (0 <=? zn c i) && (zn c i <? zn n i)) (seq 0 (length n)).
Lemma in_shape_b n c : in_shapeb n c = true -> in_shape n c.
Proof.
  intros H. apply andb_prop in H. destruct H as [H1 H2]. apply Nat.eqb_eq in H1. split; [exact H1|].
  intros i Hi. rewrite forallb_forall in H2. specialize (H2 i). rewrite in_seq in H2. specialize (H2 ltac:(lia)).
  apply andb_prop in H2. destruct H2 as [H2 H3]. apply Z.leb_le in H2. apply Z.ltb_lt in H3. lia.
Qed.

Lemma in_shape_2 n m c : in_shape [n; m] c -> exists x y, c = [x; y] /\ 0 <= x < n /\ 0 <= y < m.
Proof.
  intros [Hl H]. destruct c as [|x [|y [|]]]; try discriminate. exists x, y. split; [reflexivity|].
  split; [exact (H 0%nat ltac:(cbn; lia))|exact (H 1%nat ltac:(cbn; lia))].
Qed.

Lemma not_shows w a comp nsub n at_ c q p :
  in_shapeb comp c = true -> (0 <=? q) && (q <? nsub) = true -> in_shapeb n p = true ->
  (match wrapped_strides w SubPt 1 with
   | Ok s => np_item a * off s (c ++ q :: p) =? off (np_strides a) (at_ c q p)
   | _ => false end) <> true ->
  ~ shows w a comp nsub n at_.
Proof.
  intros Hc Hq Hp Hn (_ & s & Hs & H). rewrite Hs in Hn. apply Hn.
  apply Z.eqb_eq. apply andb_prop in Hq. destruct Hq as [Hq1 Hq2]. apply Z.leb_le in Hq1. apply Z.ltb_lt in Hq2.
  apply H; [now apply in_shape_b|lia|now apply in_shape_b].
Qed.

Lemma fills_b n s : n <> [] -> Forall (fun x => 0 < x) n -> (zprod n <? 2 ^ 31) = true ->
  is_buffer_contiguous n s = Ok true -> fills_exactly n s.
Proof.
  intros H1 H2 H3 H4. apply Z.ltb_lt in H3.
  apply (contiguous_sound n s (compute_axes_order n s)); try assumption. apply compute_axes_order_outcome.
Qed.

Lemma slice_misread n k : 2 <= n < 2 ^ 31 -> k <> 0 -> k <> 1 ->
  exists pr, proxy_dof [n] [n] [0] 1 (mk_nparray [n] [8 * k] 8) = Ok pr /\
  ~ shows (pr_field pr) (mk_nparray [n] [8 * k] 8) [] 1 [n] without_sub_axis.
Proof.
  intros Hn Hk0 Hk1. set (a := mk_nparray [n] [8 * k] 8).
  assert (Zn : zprod [n] = n) by (cbn; lia).
  assert (Pn : Forall (fun x => 0 < x) [n]) by (constructor; [lia|constructor]).
  assert (Hp : proper a).
  { split; [reflexivity|]. split; [exact Pn|]. split; [reflexivity|]. cbn [a np_shape]. lia. }
  set (p := normalise (8 * k) [8 * k]).
  assert (Lp : length p = 1%nat) by (unfold p, normalise; destruct (0 <? 8 * k); reflexivity).
  destruct (dof_accepted (compute_axes_order [] []) ColMajor [n] [n] [0] a [] p) as (pr & H & Ho); try assumption.
  - reflexivity.
  - discriminate.
  - now right.
  - lia.
  - now left.
  - unfold detect_storage_order_with, a. cbn [length np_ndim np_shape Nat.add Nat.eqb negb firstn np_strides map app bind Nat.sub skipn].
    unfold min_elt. cbn [fold_left]. fold p. cbn [storder_eqb]. rewrite andb_false_r. reflexivity.
  - exists pr. split; [exact H|]. destruct (proxy_dof_inv _ _ _ _ _ _ _ H) as (_ & _ & _ & order & pstr & strides & Hd & Hf).
    cbn [np_ndim a np_shape length Nat.sub firstn] in Hd, Hf.
    assert (Ed : Ok (order, pstr, strides) = Ok (ColMajor, p, [])).
    { rewrite <- Hd. unfold detect_storage_order_with, a. cbn [length np_ndim np_shape Nat.add Nat.eqb negb firstn np_strides map app bind Nat.sub skipn].
      unfold min_elt. cbn [fold_left]. fold p. cbn [storder_eqb]. rewrite andb_false_r. reflexivity. }
    injection Ed as -> -> ->.
    destruct (proxy_field_inv _ _ _ _ _ _ _ _ _ _ Hf) as (Hl & Ew & _).
    destruct (global_layout_fields _ _ _ _ _ _ _ Hl) as (F1 & F2 & F3 & F4 & F5 & F6 & _).
    intros (_ & s & Hs & Hall). specialize (Hall [] 0 [1]). destruct Hall as [_ Hall].
    + split; [reflexivity|]. cbn. intros i Hi. lia.
    + lia.
    + split; [reflexivity|]. intros [|i] Hi; [cbn; lia|cbn in Hi; lia].
    + unfold wrapped_strides in Hs. rewrite Ew, (strides_col _ F4) in Hs. apply Ok_inj in Hs. subst s.
      rewrite F1, F2, F3, F6 in Hall. change (get_nb_from_shape []) with 1 in Hall.
      unfold p, normalise in Hall. destruct (Z.ltb_spec 0 (8 * k)) as [Hlt|Hge].
      * cbn [map running app] in Hall. rewrite Z.quot_same in Hall by lia. unfold without_sub_axis, a in Hall.
        cbn [app np_strides np_item] in Hall. rewrite !off_cons, !off_nil in Hall. lia.
      * cbn [map running app] in Hall. unfold without_sub_axis, a in Hall.
        cbn [app np_strides np_item] in Hall. rewrite !off_cons, !off_nil in Hall. lia.
Qed.

Lemma rd_repeat {A} (zero : A) k r j : 0 <= j < Z.of_nat k -> rd (repeat zero k ++ r) j = Ok zero.
Proof.
  intros H. unfold rd. destruct (Z.ltb_spec j 0); [lia|]. rewrite nth_error_app1 by (rewrite repeat_length; lia).
  rewrite nth_error_repeat by lia. reflexivity.
Qed.

Lemma set_zero_native {A} (zero : A) f u size mem : viewable f u ->
  buffer_scalars f <= size -> size <= Z.of_nat (length mem) ->
  exists s mem', get_strides f u 1 = Ok s /\ wrapped_set_zero zero (mk_wrapped f [] size) mem = Ok mem' /\
    length mem' = length mem /\
    (forall i, in_shape (get_shape f u) i -> rd mem' (off s i) = Ok zero) /\
    (forall j, size <= j -> rd mem' j = rd mem j).
Proof.
  intros Hv Hs Hm. destruct (viewable_embeds f u Hv) as (s & Es & (_ & Hw & _)).
  exists s. eexists. split; [exact Es|]. unfold wrapped_set_zero. cbn [w_size].
  destruct (Z.ltb_spec (Z.of_nat (length mem)) size); [lia|]. split; [reflexivity|]. split; [|split].
  - rewrite app_length, repeat_length, skipn_length. lia.
  - intros i Hi. specialize (Hw i Hi). apply rd_repeat. lia.
  - intros j Hj. unfold rd. destruct (Z.ltb_spec j 0) as [|Hj0]; [reflexivity|].
    assert (Hk : (Z.to_nat size <= Z.to_nat j)%nat) by lia.
    rewrite nth_error_app2 by (rewrite repeat_length; lia). rewrite repeat_length.
    rewrite <- (firstn_skipn (Z.to_nat size) mem) at 2. rewrite nth_error_app2 by (rewrite firstn_length; lia).
    rewrite firstn_length. replace (Nat.min (Z.to_nat size) (length mem)) with (Z.to_nat size) by lia. reflexivity.
Qed.

Lemma in_shape_3 n m k c : in_shape [n; m; k] c -> exists x y z, c = [x; y; z] /\ 0 <= x < n /\ 0 <= y < m /\ 0 <= z < k.
Proof.
  intros [Hl H]. destruct c as [|x [|y [|z [|]]]]; try discriminate. exists x, y, z. split; [reflexivity|].
  split; [exact (H 0%nat ltac:(cbn; lia))|]. split; [exact (H 1%nat ltac:(cbn; lia))|exact (H 2%nat ltac:(cbn; lia))].
Qed.

Lemma set_zero_effect {A} (zero : A) w mem mem' : 0 <= w_size w -> wrapped_set_zero zero w mem = Ok mem' ->
  length mem' = length mem /\ (forall j, 0 <= j < w_size w -> rd mem' j = Ok zero) /\ (forall j, w_size w <= j -> rd mem' j = rd mem j).
Proof.
  intros P. unfold wrapped_set_zero. destruct (Z.ltb_spec (Z.of_nat (length mem)) (w_size w)) as [|Hm]; [discriminate|]. intros H. apply Ok_inj in H. subst mem'.
  split; [rewrite app_length, repeat_length, skipn_length; lia|]. split.
  - intros j Hj. apply rd_repeat. lia.
  - intros j Hj. unfold rd. destruct (Z.ltb_spec j 0) as [|Hj0]; [reflexivity|].
    rewrite nth_error_app2 by (rewrite repeat_length; lia). rewrite repeat_length.
    rewrite <- (firstn_skipn (Z.to_nat (w_size w)) mem) at 2. rewrite nth_error_app2 by (rewrite firstn_length; lia).
    rewrite firstn_length. replace (Nat.min (Z.to_nat (w_size w)) (length mem)) with (Z.to_nat (w_size w)) by lia. reflexivity.
Qed.

Lemma strides_length f : l_order f = ColMajor \/ l_order f = RowMajor -> length (l_pstr f) = length (l_pix f) ->
  exists s, get_strides f SubPt 1 = Ok s /\ length s = length (get_shape f SubPt).
Proof.
  intros [O|O] L; [rewrite (strides_col f O)|rewrite (strides_row f O)]; eexists; (split; [reflexivity|]); unfold get_shape, get_sub_pt_shape.
  - rewrite !app_length, !map_length, running_length, L. cbn [length]. lia.
  - rewrite !app_length, !map_length, !app_length, map_length, rev_length, running_length, rev_length, L. cbn [length]. lia.
Qed.
