(** Setups of programs with global and local collections. *)
From Coq Require Import String Sorting.Sorted.
From Verif Require Import Base CIntModel GridModel GridSpec StridedModel UnitsModel LayoutModel LayoutSpec LayoutProofs FieldModel FieldSpec.
From Verif Require Import RegistryModel RegistrySpec RegistryProofs RegistryProofs2 NumpyModel NumpySpec PyArrayModel PyArraySpec PyArrayProofs.
From Verif Require Import FrameModel CommModel NetCDFModel NetCDFSpec NetCDFProofs4 NetCDFProofs5 NetCDFProofs7.
From Verif Require Import SessionModel SessionSpec SessionProofs SessionProofs5 StackModel StackSpec StackProofs StackProofs2 MixModel MixSpec MixProofs MixProofs2.
Local Open Scope Z_scope.
Local Open Scope list_scope.

Section P.
Context {A : Type} (zero junk : A).
Implicit Types (m : member A) (y : player A) (ys : list (player A)).
Variable D : design.
Hypothesis wk : workable D.
Notation sound := (@StackProofs.sound A junk).
Notation B := (d_base D).
Notation P := (plan_mix D).
Notation able := (able junk D).
Notation troupe := (troupe junk D).
Notation pcalm := (pcalm junk D).

(** ** Names *)
Lemma names_fresh ls : NoDup (map fst ls) -> (forall l names, In (l, names) ls -> exists t, In t (d_lots D) /\ o_name t = l /\ NoDup names /\ forall n, In n names <-> In n (map i_name (o_items t))) ->
  NoDup (concat (map (fun x => fst x :: snd x) ls)).
Proof.
  induction ls as [|[l names] ls IH]; intros ND AL; [constructor|]. cbn [map concat fst snd] in *. inversion ND as [|? ? N1 N2]; subst.
  destruct (AL l names (or_introl eq_refl)) as (t & It & <- & Nn & AN). assert (AL' : forall l names, In (l, names) ls -> exists t, In t (d_lots D) /\ o_name t = l /\ NoDup names /\ forall n, In n names <-> In n (map i_name (o_items t))) by (intros l0 n0 H0; apply (AL l0 n0); now right).
  assert (FF : forall n, In n names -> exists q, In (Some (o_name t), q) (holdings D) /\ i_name q = n).
  { intros n Hn. apply AN, in_map_iff in Hn. destruct Hn as (q & <- & Iq). exists q. split; [apply in_lot; eauto|reflexivity]. }
  apply nodup_app. split; [|split; [now apply IH|]].
  - constructor; [|exact Nn]. intros H. destruct (FF _ H) as (q & Iq & E). exact (not_a_field D wk _ _ t Iq It E).
  - intros n Hn Hc. apply in_concat in Hc. destruct Hc as (c & Ic & Hc). apply in_map_iff in Ic. destruct Ic as ([l' names'] & <- & I'). cbn [fst snd] in Hc.
    destruct (AL' l' names' I') as (t' & It' & <- & _ & AN').
    assert (FF' : In n names' -> exists q, In (Some (o_name t'), q) (holdings D) /\ i_name q = n).
    { intros H. apply AN', in_map_iff in H. destruct H as (q & <- & Iq). exists q. split; [apply in_lot; eauto|reflexivity]. }
    assert (Nt : o_name t' <> o_name t) by (intros E; apply N1; rewrite <- E; exact (in_map fst _ _ I')).
    destruct Hn as [Hn|Hn].
    + destruct Hc as [Hc|Hc]; [congruence|]. destruct (FF' Hc) as (q & Iq & E). exact (not_a_field D wk _ _ t Iq It (eq_trans E (eq_sym Hn))).
    + destruct (FF n Hn) as (q & Iq & E). destruct Hc as [Hc|Hc]; [exact (not_a_field D wk _ _ t' Iq It' (eq_trans E (eq_sym Hc)))|].
      destruct (FF' Hc) as (q' & Iq' & E'). destruct (holding_unique D wk _ _ _ _ Iq Iq') as (X & _); [congruence|]. injection X as X. congruence.
Qed.
Lemma names_concat ls : NoDup (concat (map (fun x : string * list string => fst x :: snd x) ls)) -> NoDup (concat (map snd ls)).
Proof.
  induction ls as [|[l names] ls IH]; intros N; [constructor|]. cbn [map concat fst snd] in *. apply nodup_app in N. destruct N as (N1 & N2 & N3). inversion N1; subst. apply nodup_app. split; [assumption|]. split; [now apply IH|].
  intros x Hx Hc. apply (N3 x); [now right|]. apply in_concat in Hc. destruct Hc as (c & Ic & Hc). apply in_map_iff in Ic. destruct Ic as (z & <- & Iz). apply in_concat. exists (fst z :: snd z). split; [exact (in_map (fun x => fst x :: snd x) _ _ Iz)|now right].
Qed.
Lemma names_free m names : forall seen known vs, register_names seen known m names = Ok vs -> forall v, In v vs -> sv_local v = None.
Proof.
  induction names as [|n names IH]; intros seen known vs E; cbn [register_names] in E.
  - apply Ok_inj in E. subst vs. intros v [].
  - destruct (existsb _ _); [discriminate|]. apply bind_ok in E. destruct E as (r & _ & E). destruct (register_global _ _ _ _ _) as [seen' v]. apply bind_ok in E. destruct E as (w & _ & E).
    apply bind_ok in E. destruct E as (z & _ & E). apply bind_ok in E. destruct E as (vs' & E1 & E). apply Ok_inj in E. subst vs. intros v0 [<-|I0]; [reflexivity|]. exact (IH _ _ _ E1 v0 I0).
Qed.

(** ** One process *)
Lemma player_ok md ys i y gnames ls : troupe ys -> able y -> all_names B gnames -> all_local_names D ls ->
  exists r, register_player md (map (player_part []) ys) gnames ls (i, y) = Ok r /\
    NoDup (map (fun v => v_name (sv_var v)) (fst r)) /\
    (forall v l, In v (fst r) -> sv_local v = Some l -> In l (map o_name (d_lots D))) /\
    (forall q, In q (sc_items B) -> exists v, In (mk_svar v None) (fst r) /\ registered None (i_name q) (nfield_of (y_base y) (i_name q)) v) /\
    (forall t m q, In t (d_lots D) -> keeps_lot junk y t m -> In q (o_items t) -> exists v, In (mk_svar v (Some (o_name t))) (fst r) /\ local_as (o_total t) None (i_name q) (nfield_of m (i_name q)) v) /\
    (forall t, In t (d_lots D) -> registered_pixels (o_name t) (pt_sub (part_of (y_base y))) (snd r (o_name t))).
Proof.
  intros T Ab (NG & AG) (NL & CL & AL). unfold register_player. cbn [fst snd]. pose proof (base_acceptable D wk) as acc.
  destruct (register_all junk B acc (y_base y) gnames) with (seen := [0; 0; 0]) (known := @nil string) as (gs & Eg & Mg & Rg).
  { apply Ab. } { intros n Hn. now apply AG. } { exact NG. } { reflexivity. }
  { intros j Hj. left. destruct acc as (L & _). destruct j as [|[|[|j]]]; try reflexivity. lia. } { intros n _ []. }
  rewrite Eg. cbn [bind]. pose proof (names_fresh ls NL AL) as NF.
  assert (Dj : forall n, In n (concat (map (fun x => fst x :: snd x) ls)) -> ~ In n gnames).
  { intros n Hc Hg. apply AG, in_map_iff in Hg. destruct Hg as (q & <- & Iq). apply in_base in Iq. apply in_concat in Hc. destruct Hc as (c & Ic & Hc). apply in_map_iff in Ic. destruct Ic as ([l names] & <- & I). cbn [fst snd] in Hc.
    destruct (AL l names I) as (t & It & <- & _ & AN). destruct Hc as [Hc|Hc]; [exact (not_a_field D wk _ _ t Iq It (eq_sym Hc))|].
    apply AN, in_map_iff in Hc. destruct Hc as (q' & E & Iq'). destruct (holding_unique D wk None q (Some (o_name t)) q' Iq) as (X & _); [apply in_lot; eauto|congruence|discriminate X]. }
  destruct (colls_ok junk D wk md ys i y ls T Ab NF) with (known := gnames) (colls := @nil string) as (r & -> & Mr & Lr & Qr & Hr).
  { intros l names I. destruct (AL l names I) as (t & It & E & _ & AN). eauto. }
  { exact Dj. } { intros l _ []. }
  cbn [bind]. eexists. split; [reflexivity|]. cbn [fst snd]. split; [|split; [|split; [|split]]].
  - rewrite map_app, Mg, Mr. apply nodup_app. split; [exact NG|]. split; [now apply names_concat|]. intros n Hn Hc. apply (Dj n); [|exact Hn].
    apply in_concat in Hc. destruct Hc as (c & Ic & Hc). apply in_map_iff in Ic. destruct Ic as (z & <- & Iz). apply in_concat. exists (fst z :: snd z). split; [exact (in_map (fun x => fst x :: snd x) _ _ Iz)|now right].
  - intros v l Iv E. apply in_app_or in Iv. destruct Iv as [Iv|Iv]; [rewrite (names_free _ _ _ _ _ Eg v Iv) in E; discriminate|]. destruct (Lr v Iv) as (l' & E' & Il). rewrite E in E'. injection E' as <-.
    apply in_map_iff in Il. destruct Il as ([l0 names] & <- & I). destruct (AL l0 names I) as (t & It & <- & _). exact (in_map o_name _ _ It).
  - intros q Iq. destruct (Rg q Iq) as (v & Iv & R); [apply AG; now apply in_map|]. exists v. split; [apply in_or_app; now left|exact R].
  - intros t m q It K Iq. destruct (Qr t m q It (CL t It) K Iq) as (v & Iv & R). exists v. split; [apply in_or_app; now right|exact R].
  - intros t It. now apply Hr, CL.
Qed.

(** ** All processes *)
Lemma where_is vs v p (q : item) : NoDup (map (fun v => v_name (sv_var v)) vs) -> In (mk_svar v p) vs -> v_name v = i_name q -> where_of vs (i_name q) = p.
Proof. intros ND Iv E. unfold where_of. rewrite <- E. change v with (sv_var (mk_svar v p)) at 1. rewrite (find_unique vs _ ND Iv). reflexivity. Qed.
Lemma field_found vs y p q m : where_of vs (i_name q) = p -> slot y p = Some m -> field_at vs y (i_name q) = nfield_of m (i_name q) /\ values_at vs y (i_name q) = values m (i_name q).
Proof. intros W E. unfold field_at, values_at. rewrite W, E. auto. Qed.
Lemma registered_name hist name f v : registered hist name f v -> v_name v = name.
Proof. intros (seen & s & E). apply register_global_inv in E. destruct E as ((-> & _) & _). reflexivity. Qed.

Lemma setup_mix_ok md ys gnames ls : troupe ys -> all_names B gnames -> all_local_names D ls ->
  exists u, setup_mix md ys gnames ls = Ok u /\ fits P u /\ su_parts u = map (player_part (su_vars u)) ys /\
    (forall p q, In (p, q) (holdings D) -> where_of (su_vars u) (i_name q) = p) /\
    (forall v l, In v (su_vars u) -> sv_local v = Some l -> In l (map o_name (d_lots D))).
Proof.
  intros T AG ALs. pose proof T as ((NE & FF & DD & CC) & Ab & Tot). rewrite Forall_forall in Ab. unfold setup_mix. set (parts := map (player_part []) ys).
  assert (EX : forall x, In x (combine (seq 0 (length ys)) ys) -> exists r, register_player md parts gnames ls x = Ok r).
  { intros [i y] Ix. destruct (player_ok md ys i y gnames ls T) as (r & E & _); auto; [|eauto]. apply Ab. exact (in_combine_r _ _ _ _ Ix). }
  destruct (SessionProofs.mapm_ok _ _ EX) as (rs & EV). rewrite EV. cbn [bind]. destruct (mapm_at _ _ _ EV) as [LV HV].
  destruct ys as [|y0 ys']; [contradiction|]. cbn [length seq combine] in HV, LV. destruct rs as [|[vs hidden] rs]; [discriminate LV|].
  destruct (HV 0%nat (0%nat, y0) eq_refl) as (r' & E1 & E2). injection E1 as <-.
  set (ys := y0 :: ys') in *. destruct (player_ok md ys 0%nat y0 gnames ls T (Ab y0 (or_introl eq_refl)) AG ALs) as (r' & E3 & ND & LL & Rg & Rl & Rh). fold parts in E3. rewrite E2 in E3. apply Ok_inj in E3. subst r'. cbn [fst snd] in *.
  eexists. split; [reflexivity|]. cbn [su_vars su_parts].
  assert (Wh : forall p q, In (p, q) (holdings D) -> where_of vs (i_name q) = p).
  { intros p q I. destruct p as [l|].
    - apply in_lot in I. destruct I as (t & It & <- & Iq). destruct (Ab y0 (or_introl eq_refl)) as (_ & L). destruct (L t It) as (m & K). destruct (Rl t m q It K Iq) as (v & Iv & (Ev & _)). apply (where_is vs v); auto. now rewrite Ev.
    - apply in_base in I. destruct (Rg q I) as (v & Iv & R). apply (where_is vs v); auto. exact (registered_name _ _ _ _ R). }
  split; [|split; [reflexivity|split; [exact Wh|exact LL]]].
  assert (PM : forall p, In p (map (player_part vs) ys) -> exists y, In y ys /\ able y /\ p = player_part vs y).
  { intros p Ip. apply in_map_iff in Ip. destruct Ip as (y & <- & Iy). exists y. auto. }
  unfold fits. cbn [su_vars su_parts su_colls su_hidden plan_mix pl_dom pl_quantities pl_colls pl_total pl_pixels].
  split; [exact ND|]. split.
  { intros qq Iqq. apply in_map_iff in Iqq. destruct Iqq as ([p q] & <- & I). cbn [quantity_at q_local q_hist q_comp q_name q_nsub q_tag fst snd].
    split; [intros l ->; exact (held_design D (Some l) q I)|]. split; [discriminate|]. split; [destruct wk as (_ & _ & Q & _); now apply (Q p q)|].
    destruct p as [l|].
    - pose proof I as I0. apply in_lot in I. destruct I as (t & It & <- & Iq). destruct (Ab y0 (or_introl eq_refl)) as (_ & L0). destruct (L0 t It) as (m0 & K0). destruct (Rl t m0 q It K0 Iq) as (v & Iv & Av).
      exists v. split; [exact Iv|]. intros p Ip. destruct (PM p Ip) as (y & Iy & Ay & ->). cbn zeta. cbn [player_part pt_field]. pose proof Ay as (_ & L). destruct (L t It) as (m & K). pose proof K as (E & Km & Cm & _).
      destruct (field_found vs y (Some (o_name t)) q m (Wh _ _ I0) E) as (-> & _). destruct (lot_limit D wk t q It Iq) as (_ & _ & _ & _ & Lim). destruct (local_item junk m q Km (Cm q Iq) Lim) as (Ec & Es & Et & _).
      split; [unfold shaped; cbn; auto|]. destruct (item_accepted junk D wk y t m q [] Ay It K Iq) as (w & Ew & Aw). rewrite (local_equal junk D wk y0 y t m0 m q v w K0 K It Iq Av Aw). exists []. unfold total_of. now rewrite (find_lot D wk t It).
    - pose proof I as I0. apply in_base in I. destruct (Rg q I) as (v & Iv & R). exists v. split; [exact Iv|]. intros p Ip. destruct (PM p Ip) as (y & Iy & Ay & ->). cbn zeta. cbn [player_part pt_field].
      destruct (field_found vs y None q (y_base y) (Wh _ _ I0) eq_refl) as (-> & _). pose proof Ay as (F & _). pose proof F as (So & Pl & W). destruct (item_field junk B (y_base y) q So Pl W I) as (Sn & Ec & Es & Et & Ed & _).
      split; [unfold shaped; cbn; auto|]. split; [|exact Ed]. apply (registered_item junk B (base_acceptable D wk)); [exact F|exact I|]. exists (y_base y0). split; [apply Ab; now left|exact R]. }
  split.
  { intros qq Iqq Ln. apply in_map_iff in Iqq. destruct Iqq as ([p q] & <- & I). cbn [quantity_at q_name q_local fst snd] in *. subst p. pose proof I as I0. apply in_base in I.
    assert (FP : ForallOrdPairs (fun a b : player A => forall x, has (y_base a) x -> has (y_base b) x -> False) ys).
    { clear - DD. induction ys as [|a l IH]; [constructor|]. cbn [map] in DD. inversion DD as [|? ? D1 D2]; subst. constructor; [|auto]. apply Forall_forall. intros b Ib. rewrite Forall_forall in D1. apply D1. now apply in_map. }
    eapply fop_map; [|exact FP]. intros a b Ia Ib H x Ha Hb. cbn [player_part pt_field] in *.
    destruct (field_found vs a None q (y_base a) (Wh _ _ I0) eq_refl) as (Ea & _). destruct (field_found vs b None q (y_base b) (Wh _ _ I0) eq_refl) as (Eb & _). rewrite Ea in Ha. rewrite Eb in Hb.
    destruct (Ab a Ia) as ((So & Pl & W) & _). destruct (Ab b Ib) as ((So' & Pl' & W') & _). apply (H x).
    - now apply (item_field junk B (y_base a) q So Pl W I).
    - now apply (item_field junk B (y_base b) q So' Pl' W' I). }
  split; [discriminate|]. split; [destruct wk as (_ & N & _); apply nodup_app in N; apply N|]. split.
  { destruct ALs as (_ & CL & AL). intros l. split.
    - intros H. apply in_map_iff in H. destruct H as ([l0 names] & <- & I). destruct (AL l0 names I) as (t & It & <- & _). exact (in_map o_name _ _ It).
    - intros H. apply in_map_iff in H. destruct H as (t & <- & It). now apply CL. }
  split.
  { intros p Ip. destruct (PM p Ip) as (y & Iy & (F & _) & ->). exact (member_pixels junk B _ F). }
  split.
  { intros p q Ip Iq. destruct (PM p Ip) as (y & _ & _ & ->). destruct (PM q Iq) as (y' & _ & _ & ->). reflexivity. }
  split.
  { clear - DD. induction ys as [|a l IH]; [constructor|]. cbn [map] in *. inversion DD as [|? ? D1 D2]; subst. constructor; [|auto]. apply Forall_forall. intros p Ip. apply in_map_iff in Ip. destruct Ip as (b & <- & Ib).
    rewrite Forall_forall in D1. intros x Ha Hb. apply (D1 (y_base b)) with (x := x); [now apply in_map| |]; apply part_owns; assumption. }
  split.
  { intros x Hx. destruct (CC x Hx) as (m & Im & Hm). apply in_map_iff in Im. destruct Im as (y & <- & Iy). exists (player_part vs y). split; [now apply in_map|]. now apply (part_owns (y_base y)). }
  intros l Il. apply in_map_iff in Il. destruct Il as (t & <- & It). unfold total_of. rewrite (find_lot D wk t It). split; [destruct wk as (_ & _ & _ & W); now apply W|].
  split; [exact (total_eq junk D ys t vs T It)|]. intros p Ip. destruct (PM p Ip) as (y & Iy & Ay & ->). cbn [player_part pt_sub pt_ids]. pose proof Ay as (F & L). destruct (L t It) as (m & E & K & C & P1 & P2 & P3). unfold ids_of. rewrite E. split; [|split; [exact P1|split]].
  - destruct (hidden_accepted junk D wk y t [0; 0; 0] F It eq_refl) as (s1 & v1 & G1).
    { intros i Hi. left. destruct wk as (L3 & _). destruct i as [|[|[|i]]]; try reflexivity. lia. }
    destruct (Rh t It) as (seen & s0 & G0). destruct (Ab y0 (or_introl eq_refl)) as (F0 & _). destruct (member_pixels junk B _ F0) as ((X1 & X2 & _ & (Sn & _) & _) & Xd). destruct (member_pixels junk B _ F) as ((Y1 & Y2 & _ & (Sn' & _) & _) & Yd).
    pose proof (register_global_inv _ _ _ _ _ _ _ G0) as (R0 & _). pose proof (register_global_inv _ _ _ _ _ _ _ G1) as (R1 & _).
    rewrite (NetCDFProofs6.same_variable true None (o_name t) _ _ _ _ Sn Sn' ltac:(unfold same_array; rewrite X1, X2, Xd, Y1, Y2, Yd; auto) R0 R1). exists [0; 0; 0], s1. exact G1.
  - intros i Ii. destruct (P2 i Ii) as (x & Hx & ->). exists x. split; [now apply part_owns|]. symmetry. apply number_id.
  - intros x Hx. apply part_owns in Hx. rewrite number_id, (P3 x Hx). split; [intros; exists t; auto|]. intros (t' & It' & E' & Px). now rewrite (lot_unique D wk t t' It It' (eq_sym E')).
Qed.

(** ** Memory *)
Lemma memory_fit ys0 ys u : troupe ys0 -> Forall2 pcalm ys0 ys -> su_parts u = map (player_part (su_vars u)) ys0 ->
  (forall p q, In (p, q) (holdings D) -> where_of (su_vars u) (i_name q) = p) -> sized P u (memory_mix (su_vars u) ys).
Proof.
  intros T0 F2 EP Wh qq h Iqq _. pose proof T0 as (_ & Ab0 & _). rewrite Forall_forall in Ab0. cbn [plan_mix pl_quantities] in Iqq. apply in_map_iff in Iqq. destruct Iqq as ([p q] & <- & I). unfold memory_mix. rewrite EP, !map_length. cbn [quantity_at q_name q_local fst snd].
  split; [symmetry; clear - F2; induction F2; cbn; congruence|]. intros i pt mm Ep Em. rewrite nth_error_map in Ep, Em.
  destruct (nth_error ys0 i) as [y0|] eqn:N0; [|discriminate Ep]. destruct (nth_error ys i) as [y|] eqn:N; [|discriminate Em]. injection Ep as <-. injection Em as <-.
  assert (Pc : pcalm y0 y) by (clear - F2 N0 N; revert i N0 N; induction F2 as [|a b l l' T F2 IH]; intros [|i] N0 N; cbn in *; try discriminate; [congruence|eauto]).
  pose proof (Ab0 y0 (nth_error_In _ _ N0)) as A0. pose proof (pcalm_able junk D y0 y A0 Pc) as Ay. pose proof (held_design D p q I) as Dp.
  destruct (slot_able junk D y0 p A0 Dp) as (m0 & E0 & _). destruct (pcalm_slot junk D y0 y p m0 Pc Dp E0) as (m & E & C & So).
  cbn [player_part pt_field pt_ids]. destruct (field_found _ y0 p q m0 (Wh _ _ I) E0) as (-> & _). destruct (field_found _ y p q m (Wh _ _ I) E) as (_ & ->).
  rewrite <- (calm_field m0 m q C (slot_carries junk D y0 p q m0 A0 I E0)). destruct p as [l|]; cbn [slot] in E, E0.
  - pose proof I as I0. apply in_lot in I. destruct I as (t & It & <- & Iq). unfold ids_of. rewrite E0, <- (calm_ids _ _ C). destruct Ay as (_ & L). destruct (L t It) as (m' & E' & K & Cm & _). rewrite E in E'. injection E' as <-.
    destruct (lot_limit D wk t q It Iq) as (_ & _ & _ & _ & Lim). now apply (local_item junk m q K (Cm q Iq) Lim).
  - injection E as <-. injection E0 as <-. apply in_base in I. destruct Ay as ((S1 & Pl & W) & _). now apply (item_field junk B (y_base y) q S1 Pl W I).
Qed.
End P.
