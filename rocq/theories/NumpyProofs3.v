(** Fields on the memory of numpy arrays show the elements of the array. *)
From Verif Require Import Base CIntModel GridModel GridSpec GridProofs GridProofs2 GridProofs3
  LayoutModel LayoutProofs LayoutProofs2 NumpyModel NumpySpec NumpyProofs NumpyProofs2.

Lemma detect_inv axes n cs nsub a order pn custom :
  detect_storage_order_with axes n cs nsub a = Ok (order, pn, custom) -> length (np_strides a) = np_ndim a ->
  exists cstr p0 pr, np_strides a = cstr ++ p0 :: pr /\ length cstr = length cs /\ length (p0 :: pr) = length n /\
    pn = normalise (min_elt p0 pr) (p0 :: pr) /\
    ((order = UnknownOrder /\ nsub <= 1 /\ cs <> [] /\
      custom = map (fun s => Z.quot s (np_item a)) cstr ++ (if nsub =? 1 then [0] else []) ++
               map (fun s => Z.quot s (np_item a)) (p0 :: pr)) \/
     (custom = [] /\ order = ColMajor /\ cs = []) \/
     (custom = [] /\ exists c0 cr, cstr = c0 :: cr /\
        is_buffer_contiguous_ax cs (normalise (min_elt c0 cr) cstr) axes = Ok true /\
        ((order = ColMajor /\ fst (last_max c0 cr) <= min_elt p0 pr /\
          min_elt p0 pr = zn cs (snd (last_max c0 cr)) * fst (last_max c0 cr) /\
          any_decrease (tl (normalise (min_elt c0 cr) cstr)) = false) \/
         (order = RowMajor /\ fst (last_max p0 pr) < min_elt c0 cr /\
          min_elt c0 cr = zn n (snd (last_max p0 pr)) * fst (last_max p0 pr) /\
          any_increase (tl (normalise (min_elt c0 cr) cstr)) = false)))).
Proof.
  unfold detect_storage_order_with. intros H Hl.
  destruct (Nat.eqb_spec (length n + length cs) (np_ndim a)) as [Hd|]; [|discriminate]. cbn [negb] in H.
  set (cstr := firstn (length cs) (np_strides a)) in *.
  replace (np_ndim a - length n)%nat with (length cs) in H by lia.
  set (pstr := skipn (length cs) (np_strides a)) in *.
  assert (Es : np_strides a = cstr ++ pstr) by (symmetry; apply firstn_skipn).
  assert (Lc : length cstr = length cs) by (unfold cstr; rewrite firstn_length; lia).
  assert (Lp : length pstr = length n) by (unfold pstr; rewrite skipn_length; lia).
  destruct pstr as [|p0 pr]; [discriminate|]. exists cstr, p0, pr.
  split; [exact Es|]. split; [exact Lc|]. split; [exact Lp|].
  clear Es. destruct cstr as [|c0 cr].
  - cbn [bind] in H. replace ((1 <? nsub) && storder_eqb ColMajor UnknownOrder) with false in H by (cbn; now rewrite andb_false_r).
    apply Ok_inj in H. injection H as <- <- <-. split; [reflexivity|]. right. left.
    repeat split. destruct cs; [reflexivity|discriminate].
  - set (norm := normalise (min_elt c0 cr) (c0 :: cr)) in *.
    destruct (is_buffer_contiguous_ax cs norm axes) as [b| |] eqn:Eb; cbn [bind] in H; try discriminate.
    assert (Hne : cs <> []) by (intros ->; discriminate).
    assert (Hnc : negb (length cs =? 0)%nat = true) by (destruct cs; [now elim Hne|reflexivity]). rewrite Hnc in H. cbn [andb] in H.
    set (guess := if b then guess_order n cs c0 cr p0 pr else UnknownOrder) in *.
    set (order' := match guess with ColMajor => if any_decrease (tl norm) then UnknownOrder else ColMajor
                   | o => if any_increase (tl norm) then UnknownOrder else o end) in *.
    destruct ((1 <? nsub) && storder_eqb order' UnknownOrder) eqn:Eo; [discriminate|].
    apply Ok_inj in H. injection H as H1 H2 H3. split; [now symmetry|].
    assert (Hg : guess = UnknownOrder \/ (b = true /\
       ((guess = ColMajor /\ fst (last_max c0 cr) <= min_elt p0 pr /\ min_elt p0 pr = zn cs (snd (last_max c0 cr)) * fst (last_max c0 cr)) \/
        (guess = RowMajor /\ fst (last_max p0 pr) < min_elt c0 cr /\ min_elt c0 cr = zn n (snd (last_max p0 pr)) * fst (last_max p0 pr))))).
    { unfold guess. destruct b; [|now left]. unfold guess_order.
      destruct (last_max c0 cr) as [c2 ca] eqn:E1. destruct (last_max p0 pr) as [p2 pa] eqn:E2. cbn [fst snd].
      destruct (Z.ltb_spec p2 (min_elt c0 cr)).
      - destruct (Z.eqb_spec (min_elt c0 cr) (zn n pa * p2)); [right; split; [reflexivity|right; auto]|now left].
      - destruct (Z.leb_spec c2 (min_elt p0 pr)); [|now left].
        destruct (Z.eqb_spec (min_elt p0 pr) (zn cs ca * c2)); [right; split; [reflexivity|left; auto]|now left]. }
    assert (Hu : order' = UnknownOrder -> order = UnknownOrder /\ nsub <= 1 /\ cs <> [] /\
       custom = map (fun s => Z.quot s (np_item a)) (c0 :: cr) ++ (if nsub =? 1 then [0] else []) ++
               map (fun s => Z.quot s (np_item a)) (p0 :: pr)).
    { intros E. rewrite E in Eo. cbn [storder_eqb] in Eo. rewrite andb_true_r in Eo. apply Z.ltb_ge in Eo.
      rewrite E in H1, H3. subst order custom. repeat split; assumption. }
    destruct Hg as [Hg|(-> & [(Hg & G1 & G2)|(Hg & G1 & G2)])].
    + left. apply Hu. unfold order'. rewrite Hg. destruct (any_increase (tl norm)); reflexivity.
    + destruct (any_decrease (tl norm)) eqn:Ed; unfold order' in *; rewrite Hg in *; [left; now apply Hu|].
      right. right. split; [now symmetry|]. exists c0, cr. split; [reflexivity|]. split; [exact Eb|]. left. auto.
    + destruct (any_increase (tl norm)) eqn:Ed; unfold order' in *; rewrite Hg in *; [left; now apply Hu|].
      right. right. split; [now symmetry|]. exists c0, cr. split; [reflexivity|]. split; [exact Eb|]. right. auto.
Qed.

Lemma proxy_field_inv order domain n loc pstr comp nsub custom a w :
  proxy_field order domain n loc pstr comp nsub custom a = Ok w ->
  global_layout order n pstr loc comp nsub = Ok (w_lay w) /\ w_custom w = custom /\ w_size w = np_size a /\
  exists s, wrapped_strides w SubPt 1 = Ok s /\ length s = length (get_shape (w_lay w) SubPt).
Proof.
  unfold proxy_field. destruct (get_nb_from_shape domain <=? 0); [discriminate|].
  destruct (get_nb_from_shape n <? 0); [discriminate|].
  destruct (global_layout order n pstr loc comp nsub) as [f| |]; cbn [bind]; try discriminate.
  unfold wrapped_field. destruct (l_nbc f =? 0); [discriminate|].
  destruct (wrapped_strides (mk_wrapped f custom (np_size a)) SubPt 1) as [s| |] eqn:Es; cbn [bind]; try discriminate.
  destruct (Nat.eqb_spec (length (get_shape f SubPt)) (length s)) as [El|]; cbn [negb]; [|discriminate].
  destruct (negb (np_size a =? l_nbc f * (np_size a ÷ l_nbc f))); [discriminate|].
  destruct (negb (l_nsub f * l_npix f =? np_size a ÷ l_nbc f)); [discriminate|].
  intros H. apply Ok_inj in H. subst w. cbn [w_lay w_custom w_size].
  repeat (split; [reflexivity|]). exists s. split; [exact Es|now symmetry].
Qed.

(** ** The shape of components and sub-points: with or without an axis for the
    sub-points *)

(** [cs] is the shape that [detect_storage_order] sees as components, and
    [at_] the position of an element. *)
Definition view (comp : list Z) (nsub : Z) (cs : list Z) (at_ : list Z -> Z -> list Z -> list Z) : Prop :=
  (cs = comp ++ [nsub] /\ at_ = with_sub_axis) \/ (cs = comp /\ nsub = 1 /\ at_ = without_sub_axis).

Lemma view_index comp nsub cs at_ n c q p : view comp nsub cs at_ -> in_shape comp c -> 0 <= q < nsub -> in_shape n p ->
  exists k, in_shape cs k /\ at_ c q p = k ++ p /\
    (forall f, l_comp f = comp -> l_nsub f = nsub -> l_nbc f = zprod comp -> l_order f = ColMajor -> length (l_pstr f) = length n ->
       forall s, get_strides f SubPt 1 = Ok s -> off s (c ++ q :: p) = off (running 1 cs) k + zprod cs * off (l_pstr f) p) /\
    (forall f, l_comp f = comp -> l_nsub f = nsub -> l_order f = RowMajor -> length (l_pstr f) = length n ->
       forall s, get_strides f SubPt 1 = Ok s -> off s (c ++ q :: p) = l_nbuf f * off (rev (running 1 (rev cs))) k + off (l_pstr f) p).
Proof.
  intros Hv Hc Hq Hp.
  pose proof (in_shape_length _ _ Hc) as Lc. pose proof (in_shape_length _ _ Hp) as Lp.
  assert (Lr : forall l : list Z, length (rev (running 1 (rev l))) = length l) by (intros l; now rewrite rev_length, running_length, rev_length).
  destruct Hv as [(-> & ->)|(-> & -> & ->)].
  - exists (c ++ [q]). split; [|split; [|split]].
    + apply in_shape_app. exists c, [q]. split; [reflexivity|]. split; [exact Hc|].
      apply in_shape_cons. exists q, []. split; [reflexivity|]. split; [exact Hq|]. now apply in_shape_nil.
    + unfold with_sub_axis. now rewrite <- app_assoc.
    + intros f E1 E2 E3 E4 E5 s Es. rewrite (strides_col f E4) in Es. apply Ok_inj in Es. subst s. rewrite E1, E2, E3.
      cbn [map]. rewrite Z.mul_1_l. replace (c ++ q :: p) with ((c ++ [q]) ++ p) by (now rewrite <- app_assoc).
      rewrite off_app by (rewrite !app_length, running_length; cbn; lia).
      rewrite off_scale by congruence. rewrite running_app, zprod_app. cbn [running zprod fold_right]. fold (zprod comp).
      rewrite !Z.mul_1_r, Z.mul_1_l. reflexivity.
    + intros f E1 E2 E4 E5 s Es. rewrite (strides_row f E4) in Es. apply Ok_inj in Es. subst s. rewrite E1, E2.
      replace (c ++ q :: p) with ((c ++ [q]) ++ p) by (now rewrite <- app_assoc).
      rewrite off_app by (rewrite map_length, !app_length, map_length, Lr; cbn; lia).
      rewrite off_scale by (rewrite !app_length, map_length, Lr; cbn; lia).
      f_equal. f_equal. rewrite rowmajor_app. cbn [rev running app]. unfold zprod. cbn [fold_right]. rewrite Z.mul_1_r. reflexivity.
  - exists c. split; [exact Hc|]. split; [reflexivity|]. assert (q = 0) as -> by lia. split.
    + intros f E1 E2 E3 E4 E5 s Es. rewrite (strides_col f E4) in Es. apply Ok_inj in Es. subst s. rewrite E1, E2, E3.
      cbn [map]. replace (c ++ 0 :: p) with ((c ++ [0]) ++ p) by (now rewrite <- app_assoc).
      rewrite off_app by (rewrite !app_length, running_length; cbn; lia).
      rewrite off_app by (rewrite running_length; lia).
      rewrite off_scale by congruence. rewrite off_cons, off_nil. rewrite !Z.mul_1_r. lia.
    + intros f E1 E2 E4 E5 s Es. rewrite (strides_row f E4) in Es. apply Ok_inj in Es. subst s. rewrite E1, E2.
      replace (c ++ 0 :: p) with ((c ++ [0]) ++ p) by (now rewrite <- app_assoc).
      rewrite off_app by (rewrite map_length, !app_length, map_length, Lr; cbn; lia).
      rewrite off_scale by (rewrite !app_length, map_length, Lr; cbn; lia).
      rewrite off_app by (rewrite map_length, Lr; lia).
      rewrite off_scale by (rewrite Lr; lia). rewrite off_cons, off_nil. lia.
Qed.

Lemma view_shape comp nsub cs at_ n c q p : view comp nsub cs at_ -> in_shape comp c -> 0 <= q < nsub -> in_shape n p ->
  in_shape (cs ++ n) (at_ c q p).
Proof.
  intros Hv Hc Hq Hp. destruct Hv as [(-> & ->)|(-> & -> & ->)].
  - unfold with_sub_axis. rewrite <- app_assoc. apply in_shape_app. exists c, (q :: p). split; [reflexivity|]. split; [exact Hc|].
    cbn [app]. apply in_shape_cons. now exists q, p.
  - apply in_shape_app. now exists c, p.
Qed.

(** ** Strides given by the caller *)

Lemma custom_shows axes order domain n loc pn comp nsub cs at_ custom a w :
  view comp nsub cs at_ -> proper a -> whole_items a -> np_shape a = cs ++ n -> 0 < nsub ->
  detect_storage_order_with axes n cs nsub a = Ok (order, pn, custom) ->
  proxy_field order domain n loc pn comp nsub custom a = Ok w ->
  order = UnknownOrder -> shows w a comp nsub n at_.
Proof.
  intros Hv (P1 & P2 & P3 & P4) Hw Hsh Hns Hd Hf Ho.
  destruct (detect_inv _ _ _ _ _ _ _ _ Hd P1) as (cstr & p0 & pr & Es & Lc & Lp & Epn & [(_ & Hn1 & Hne & Ec)|[(_ & E & _)|(_ & c0 & cr & _ & _ & [(E & _)|(E & _)])]]);
    try (subst order; discriminate).
  destruct (proxy_field_inv _ _ _ _ _ _ _ _ _ _ Hf) as (Hl & Ew & _ & s & Ss & Ls).
  destruct (global_layout_fields _ _ _ _ _ _ _ Hl) as (F1 & F2 & F3 & F4 & F5 & F6 & F7 & F8).
  assert (nsub = 1) as -> by lia. change (1 =? 1) with true in Ec. cbv iota in Ec.
  assert (Hsp : get_shape (w_lay w) SubPt = comp ++ 1 :: n).
  { unfold get_shape, get_sub_pt_shape. rewrite F1, F3, F5, <- app_assoc. reflexivity. }
  split; [exact Hsp|]. exists s. split; [exact Ss|].
  assert (Es' : s = custom).
  { unfold wrapped_strides in Ss. rewrite Ew in Ss. destruct custom as [|x r]; [|now apply Ok_inj in Ss].
    apply (f_equal (@length Z)) in Ec. rewrite !app_length in Ec. cbn in Ec. lia. }
  subst s. rewrite Hsp in Ls.
  assert (Hcs : cs = comp /\ at_ = without_sub_axis).
  { destruct Hv as [(E1 & _)|(E1 & _ & E2)]; [|auto]. exfalso.
    rewrite Ec in Ls. rewrite !app_length, !map_length, Lc, Lp, E1, !app_length in Ls. cbn [length] in Ls. lia. }
  destruct Hcs as [-> ->]. intros c q p Hc Hq Hp. assert (q = 0) as -> by lia. unfold without_sub_axis. split.
  - rewrite Hsh. apply in_shape_app. now exists c, p.
  - pose proof (in_shape_length _ _ Hc) as Lcc. pose proof (in_shape_length _ _ Hp) as Lpp.
    unfold whole_items in Hw. rewrite Es in Hw. apply Forall_app in Hw. destruct Hw as [Hw1 Hw2].
    rewrite Ec, Es. replace (c ++ 0 :: p) with (c ++ [0] ++ p) by reflexivity.
    rewrite off_app by (rewrite map_length; lia). rewrite off_app by reflexivity.
    rewrite off_app by lia. rewrite !Z.mul_add_distr_l. rewrite !off_quot by (assumption || lia).
    rewrite off_cons, off_nil. lia.
Qed.

(** ** Native order *)

Lemma off_unit n s c : Forall (fun x => x = 1) n -> length s = length n -> in_shape n c -> off s c = 0.
Proof.
  intros Hn Hl [Hc Hb]. unfold off. rewrite Hl. rewrite (zsum_map_ext _ (fun _ => 0)).
  - induction (seq 0 (length n)) as [|x l IH]; [reflexivity|]. cbn [map]. unfold zsum in *. cbn [fold_right]. now rewrite IH.
  - intros i Hi. apply in_seq in Hi. specialize (Hb i ltac:(lia)). rewrite (zn_Forall _ n i Hn) in Hb by lia.
    replace (zn c i) with 0 by lia. lia.
Qed.

(** Components found to be faster although all pixels come first: every pixel
    axis has extent 1. *)
Lemma degenerate_agrees w cs n cstr pstr fast slow axes c0 cr p0 pr pn :
  0 < w -> Forall (fun x => 0 < x) cs -> Forall (fun x => 0 < x) n ->
  packed_along w (cs ++ n) (cstr ++ pstr) (fast ++ slow) -> length cstr = length cs -> length pstr = length n ->
  Forall (fun i => (length cs <= i)%nat) fast -> Forall (fun i => (i < length cs)%nat) slow ->
  cstr = c0 :: cr -> pstr = p0 :: pr -> length pn = length n ->
  Permutation axes (seq 0 (length cs)) -> dense cs (normalise (min_elt c0 cr) cstr) axes 1 ->
  any_decrease (tl (normalise (min_elt c0 cr) cstr)) = false ->
  fst (last_max c0 cr) <= min_elt p0 pr ->
  forall k p, in_shape cs k -> in_shape n p ->
  w * (off (running 1 cs) k + zprod cs * off pn p) = off cstr k + off pstr p.
Proof.
  intros Hw Hcs Hn Hpk Lc Lp Hfast Hslow Ec Ep Lpn Hax Hd Hinc Hle k p Hk Hp.
  assert (Hpos : Forall (fun x => 0 < x) (cs ++ n)) by (apply Forall_app; now split).
  pose proof Hpk as (Hlen & Hperm & Hhead & _).
  assert (Hin : forall i, (i < length (cs ++ n))%nat -> In i (fast ++ slow)) by (intros i Hi; now apply (perm_seq_In _ _ Hperm)).
  rewrite app_length in Hin. rewrite Forall_forall in Hfast, Hslow.
  assert (Hins : forall i, (i < length cs)%nat -> In i slow).
  { intros i Hi. specialize (Hin i ltac:(lia)). apply in_app_or in Hin. destruct Hin as [H|H]; [|exact H].
    specialize (Hfast _ H). lia. }
  assert (Hinf : forall i, (i < length n)%nat -> In (length cs + i)%nat fast).
  { intros i Hi. specialize (Hin (length cs + i)%nat ltac:(lia)). apply in_app_or in Hin. destruct Hin as [H|H]; [exact H|].
    specialize (Hslow _ H). lia. }
  assert (Zc : forall i, (i < length cs)%nat -> zn (cstr ++ pstr) i = zn cstr i) by (intros i Hi; apply zn_app1; lia).
  assert (Zp : forall i, zn (cstr ++ pstr) (length cs + i) = zn pstr i) by (intros i; rewrite <- Lc; apply zn_app2).
  assert (Np : forall i, zn (cs ++ n) (length cs + i) = zn n i) by (intros i; apply zn_app2).
  assert (Hlcs : (0 < length cs)%nat) by (rewrite <- Lc, Ec; cbn; lia).
  assert (Hln : (0 < length n)%nat) by (rewrite <- Lp, Ep; cbn; lia).
  destruct (last_max_spec c0 cr) as (_ & _ & Hm3). rewrite <- Ec in Hm3. setoid_rewrite Lc in Hm3.
  destruct (min_elt_spec p0 pr) as [_ Hpmin]. rewrite <- Ep in Hpmin. setoid_rewrite Lp in Hpmin.
  assert (Hpair : forall i j, (i < length n)%nat -> (j < length cs)%nat ->
     zn n i * zn pstr i <= zn cstr j /\ zn cstr j <= zn pstr i /\ w <= zn pstr i).
  { intros i j Hi Hj.
    destruct (packed_pair w (cs ++ n) (cstr ++ pstr) fast slow (length cs + i)%nat j Hpk Hw Hpos (Hinf i Hi) (Hins j Hj)) as [_ H].
    rewrite Zp, Np, Zc in H by assumption.
    destruct (packed_ge w (cs ++ n) (cstr ++ pstr) (fast ++ slow) (length cs + i)%nat Hpk Hw Hpos) as [H2 _]; [rewrite app_length; lia|].
    rewrite Zp in H2. specialize (Hpmin i Hi). destruct (Hm3 j Hj) as [H3 _]. lia. }
  assert (H1 : Forall (fun x => x = 1) n).
  { apply Forall_zn. intros i Hi. destruct (Hpair i 0%nat Hi Hlcs) as (A & B & C).
    assert (0 < zn n i) by now apply zn_Forall. nia. }
  assert (Heq : forall i j, (i < length n)%nat -> (j < length cs)%nat -> zn cstr j = zn pstr i).
  { intros i j Hi Hj. destruct (Hpair i j Hi Hj) as (A & B & C). rewrite (zn_Forall _ n i H1 Hi) in A. lia. }
  assert (Hwp : zn pstr 0 = w).
  { specialize (Hinf 0%nat Hln) as Hf0. destruct fast as [|a r]; [easy|].
    specialize (Hhead a (r ++ slow) eq_refl). specialize (Hfast a (or_introl eq_refl)).
    assert (Ha : (a < length cs + length n)%nat).
    { pose proof (proj1 (perm_seq_In _ _ Hperm a) (or_introl eq_refl)) as Ha. rewrite app_length in Ha. exact Ha. }
    replace a with (length cs + (a - length cs))%nat in Hhead by lia. rewrite Zp in Hhead.
    rewrite <- (Heq 0%nat 0%nat) by lia. rewrite (Heq (a - length cs)%nat 0%nat) by lia. exact Hhead. }
  assert (Hall : forall j, (j < length cs)%nat -> zn cstr j = w) by (intros j Hj; rewrite (Heq 0%nat j) by lia; exact Hwp).
  assert (Hmc : min_elt c0 cr = w).
  { destruct (min_elt_spec c0 cr) as [(i & Hi & Ei) _]. rewrite <- Ec in Hi, Ei. rewrite <- Ei. apply Hall. lia. }
  rewrite Hmc in Hd, Hinc. unfold normalise in Hd, Hinc. replace (0 <? w) with true in Hd, Hinc by (symmetry; now apply Z.ltb_lt).
  rewrite (off_unit n pn p), (off_unit n pstr p) by assumption. rewrite Z.mul_0_r, !Z.add_0_r.
  rewrite <- (dense_col cs (map (fun s => Z.quot s w) cstr) axes); try assumption.
  - apply off_quot; [assumption| |destruct Hk; lia]. apply Forall_zn. intros i Hi. rewrite Hall by lia. apply Z.divide_refl.
  - now rewrite map_length.
  - intros i Hi. rewrite !zn_map_quot, !Hall by lia. lia.
Qed.

Lemma native_shows axes order domain n loc pn comp nsub cs at_ custom a w :
  view comp nsub cs at_ -> proper a -> regular (length cs) a -> np_shape a = cs ++ n -> 0 < nsub ->
  sort_outcome cs (component_strides_norm cs a) axes ->
  detect_storage_order_with axes n cs nsub a = Ok (order, pn, custom) ->
  proxy_field order domain n loc pn comp nsub custom a = Ok w ->
  order <> UnknownOrder -> shows w a comp nsub n at_.
Proof.
  intros Hv (P1 & P2 & P3 & P4) Hreg Hsh Hns Hso Hd Hf Ho.
  destruct (detect_inv _ _ _ _ _ _ _ _ Hd P1) as (cstr & p0 & pr & Es & Lc & Lp & Epn & Hcase).
  destruct (proxy_field_inv _ _ _ _ _ _ _ _ _ _ Hf) as (Hl & Ew & _ & s & Ss & Ls).
  destruct (global_layout_fields _ _ _ _ _ _ _ Hl) as (F1 & F2 & F3 & F4 & F5 & F6 & F7 & F8).
  assert (Hsp : get_shape (w_lay w) SubPt = comp ++ nsub :: n).
  { unfold get_shape, get_sub_pt_shape. rewrite F1, F3, F5, <- app_assoc. reflexivity. }
  split; [exact Hsp|]. exists s. split; [exact Ss|].
  rewrite Hsh in P2. apply Forall_app in P2. destruct P2 as [Pcs Pn].
  assert (Hpcs : zprod cs < 2 ^ 31).
  { rewrite Hsh, zprod_app in P4. pose proof (zprod_pos cs Pcs). pose proof (zprod_pos n Pn). nia. }
  assert (Pcomp : Forall (fun x => 0 < x) comp /\ zprod comp < 2 ^ 31).
  { destruct Hv as [(E & _)|(E & _)].
    - rewrite E in Pcs, Hpcs. apply Forall_app in Pcs. destruct Pcs as [A B]. split; [exact A|].
      rewrite zprod_app in Hpcs. cbn [zprod fold_right] in Hpcs. pose proof (zprod_pos comp A). nia.
    - now rewrite E in *. }
  assert (Hnbc : l_nbc (w_lay w) = zprod comp) by (rewrite F2; now apply nb_from_shape_exact).
  assert (Hax : Permutation axes (seq 0 (length cs))) by apply Hso.
  assert (Hcust : custom = [] -> get_strides (w_lay w) SubPt 1 = Ok s).
  { intros E. unfold wrapped_strides in Ss. now rewrite Ew, E in Ss. }
  assert (Lpn : length (l_pstr (w_lay w)) = length n).
  { rewrite F6, Epn. unfold normalise. destruct (0 <? min_elt p0 pr); [now rewrite map_length|assumption]. }
  destruct Hreg as (fast & slow & Hpk & Hblk). rewrite Hsh, Es in Hpk.
  intros c q p Hc Hq Hp. split; [rewrite Hsh; now apply (view_shape comp nsub)|].
  destruct (view_index comp nsub cs at_ n c q p Hv Hc Hq Hp) as (k & Hk & Ek & Hcol & Hrow).
  pose proof (in_shape_length _ _ Hk) as Lk. rewrite Ek, Es. rewrite (off_app cstr) by lia.
  destruct Hcase as [(E & _)|[(E1 & E2 & E3)|(E1 & c0 & cr & Ec & Hcon & [(E2 & E3 & E4 & E5)|(E2 & E3 & E4 & E5)])]].
  - now elim Ho.
  - (* no components *)
    rewrite (Hcol (w_lay w) F1 F3 Hnbc ltac:(congruence) Lpn s (Hcust E1)). subst cs.
    destruct cstr; [|discriminate]. destruct k; [|discriminate]. cbn [running zprod fold_right]. rewrite !off_nil, Z.mul_1_l, !Z.add_0_l.
    rewrite F6, Epn. cbn [app length] in *.
    destruct (min_elt_spec p0 pr) as [(i & Hi & Ei) Hmin].
    assert (Hge : forall i, (i < length n)%nat -> np_item a <= zn (p0 :: pr) i /\ (np_item a | zn (p0 :: pr) i)).
    { intros j Hj. now apply (packed_ge (np_item a) n (p0 :: pr) (fast ++ slow)). }
    assert (Emin : min_elt p0 pr = np_item a).
    { assert (np_item a <= min_elt p0 pr) by (rewrite <- Ei; apply Hge; cbn [length] in *; lia).
      destruct Hpk as (_ & Hperm & Hhead & _).
      destruct (fast ++ slow) as [|x r] eqn:Efs.
      { apply Permutation_length in Hperm. rewrite seq_length in Hperm. cbn in Hperm, Lp. lia. }
      specialize (Hhead x r eq_refl).
      assert (x < length n)%nat by (apply (perm_seq_In _ _ Hperm); now left).
      specialize (Hmin x ltac:(cbn [length]; lia)). lia. }
    rewrite Emin. unfold normalise. replace (0 <? np_item a) with true by (symmetry; now apply Z.ltb_lt).
    apply off_quot; [assumption| |destruct Hp; cbn [length]; lia].
    apply Forall_zn. intros j Hj. apply Hge. cbn [length] in Hj. lia.
  - (* components first *)
    rewrite (Hcol (w_lay w) F1 F3 Hnbc ltac:(congruence) Lpn s (Hcust E1)).
    assert (Hden : dense cs (normalise (min_elt c0 cr) cstr) axes 1).
    { apply is_contiguous_ax_dense; try assumption. unfold normalise. destruct (0 <? min_elt c0 cr); [now rewrite map_length|assumption]. }
    assert (Zc : forall i, (i < length cs)%nat -> zn (np_strides a) i = zn cstr i) by (intros i Hi; rewrite Es; apply zn_app1; lia).
    destruct Hblk as [(B1 & B2 & B3)|(B1 & B2 & B3)].
    + rewrite F6, Epn. apply (col_agrees (np_item a) cs n cstr (p0 :: pr) fast slow axes c0 cr p0 pr); try assumption; try reflexivity.
      intros H2. rewrite <- !Zc by lia. auto.
    + apply (degenerate_agrees (np_item a) cs n cstr (p0 :: pr) fast slow axes c0 cr p0 pr); try assumption; reflexivity.
  - (* pixels first *)
    rewrite (Hrow (w_lay w) F1 F3 ltac:(congruence) Lpn s (Hcust E1)).
    assert (Hden : dense cs (normalise (min_elt c0 cr) cstr) axes 1).
    { apply is_contiguous_ax_dense; try assumption. unfold normalise. destruct (0 <? min_elt c0 cr); [now rewrite map_length|assumption]. }
    assert (Zc : forall i, (i < length cs)%nat -> zn (np_strides a) i = zn cstr i) by (intros i Hi; rewrite Es; apply zn_app1; lia).
    destruct Hblk as [(B1 & B2 & B3)|(B1 & B2 & B3)].
    + exfalso. (* components cannot be faster and slower *)
      assert (Hpos : Forall (fun x => 0 < x) (cs ++ n)) by (apply Forall_app; now split).
      pose proof Hpk as (_ & Hperm & _ & _). rewrite Forall_forall in B1, B2.
      assert (Hlcs : (0 < length cs)%nat) by (rewrite <- Lc, Ec; cbn; lia).
      assert (Hln : (0 < length n)%nat) by (rewrite <- Lp; cbn; lia).
      assert (I0 : In 0%nat fast).
      { assert (H : In 0%nat (fast ++ slow)) by (apply (perm_seq_In _ _ Hperm); rewrite app_length; lia).
        apply in_app_or in H. destruct H as [H|H]; [exact H|]. specialize (B2 _ H). lia. }
      assert (I1 : In (length cs + 0)%nat slow).
      { assert (H : In (length cs + 0)%nat (fast ++ slow)) by (apply (perm_seq_In _ _ Hperm); rewrite app_length; lia).
        apply in_app_or in H. destruct H as [H|H]; [|exact H]. specialize (B1 _ H). lia. }
      destruct (packed_pair _ _ _ _ _ _ _ Hpk P3 Hpos I0 I1) as [_ X].
      destruct (packed_ge _ _ _ _ 0%nat Hpk P3 Hpos) as [Y _]; [rewrite app_length; lia|].
      rewrite <- Lc in X. rewrite zn_app2 in X. rewrite zn_app1 in Y by lia. rewrite !zn_app1 in X by lia.
      destruct (min_elt_spec c0 cr) as [_ M1]. specialize (M1 0%nat ltac:(cbn; lia)). rewrite <- Ec in M1.
      destruct (last_max_spec p0 pr) as (_ & _ & M2). destruct (M2 0%nat ltac:(cbn; lia)) as [M3 _].
      assert (0 < zn cs 0) by (apply zn_Forall; assumption). nia.
    + rewrite F6, Epn. apply (row_agrees (np_item a) cs n cstr (p0 :: pr) fast slow axes c0 cr p0 pr); try assumption; try reflexivity.
      * intros H2. rewrite <- !Zc by lia. auto.
      * now rewrite <- Epn.
Qed.
