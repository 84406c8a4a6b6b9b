(** Registration of the fields of processes; simulation of programs by sessions. *)
From Coq Require Import String Sorting.Sorted.
From Verif Require Import Base CIntModel GridModel GridSpec StridedModel UnitsModel LayoutModel LayoutSpec LayoutProofs FieldModel FieldSpec.
From Verif Require Import RegistryModel RegistrySpec RegistryProofs RegistryProofs2 NumpyModel NumpySpec PyArrayModel PyArraySpec PyArrayProofs.
From Verif Require Import FrameModel CommModel NetCDFModel NetCDFSpec NetCDFProofs4 NetCDFProofs5 NetCDFProofs8 SessionModel SessionSpec SessionProofs SessionProofs5 StackModel StackSpec StackProofs.
Local Open Scope Z_scope.
Local Open Scope list_scope.

(** ** Variables *)
Lemma same_variable name f g v w : registered_as false None name f v -> registered_as false None name g w -> sane (nf_lay f) -> sane (nf_lay g) -> same_array f g -> v = w.
Proof.
  intros (-> & _) (-> & _) Sf Sg (E1 & E2 & E3 & E4). destruct Sf as (F1 & _). destruct Sg as (G1 & _).
  unfold subpt_dims, subpt_dim, single. rewrite F1, G1, E1, E2, E3, E4. reflexivity.
Qed.
Lemma grid_seen names : forall seen dom s g, grid_dims names seen dom = (s, Ok g) -> length s = length seen /\
  (forall i, (i < length dom)%nat -> zn s i = zn dom i).
Proof.
  induction names as [|n names IH]; intros [|o seen] [|d dom] s g E; cbn [grid_dims] in E; try (injection E as <- _; split; [reflexivity|]; intros i Hi; cbn in Hi; lia); try discriminate E.
  destruct (negb (o =? 0) && negb (o =? d)); [discriminate E|]. destruct (grid_dims names seen dom) as [s1 r1] eqn:E1. injection E as <- E.
  destruct r1 as [g1| |]; try discriminate E. destruct (IH _ _ _ _ E1) as [L H]. split; [cbn; lia|]. intros [|i] Hi; [reflexivity|]. cbn in Hi. apply (H i). lia.
Qed.
Lemma register_seen seen name f s v : register_global seen false None name f = (s, Ok v) -> length s = length seen /\ (forall i, (i < length (nf_dom f))%nat -> zn s i = zn (nf_dom f) i) /\ v_name v = name.
Proof.
  intros E. pose proof E as E0. apply register_global_inv in E0. destruct E0 as [(-> & _) _]. unfold register_global, add_field_dims_global in E.
  destruct (grid_dims grid_names seen (nf_dom f)) as [s1 r1] eqn:EG. injection E as <- E. destruct r1 as [g| |]; try discriminate E.
  destruct (grid_seen _ _ _ _ _ EG). auto.
Qed.

Section P.
Context {A : Type} (zero junk : A).
Implicit Types (m : member A) (ms : list (member A)).
Variable S : scheme.
Hypothesis acc : acceptable S.
Notation sound := (@sound A junk).

Definition fine m : Prop := sound m /\ placed S m /\ with_items S m.
Definition team ms : Prop := ms <> [] /\ Forall fine ms /\
  ForallOrdPairs (fun a b : member A => forall x, has a x -> has b x -> False) ms /\ (forall x, in_shape (sc_dom S) x -> exists m, In m ms /\ has m x).
Lemma together_team ms : together zero junk S ms -> team ms.
Proof.
  intros (N & F & D & C). split; [exact N|]. split; [|auto]. eapply Forall_impl; [|exact F]. intros m Hm. unfold fine. now apply (prepared_sound zero).
Qed.
Lemma steady_fine m m' : steady m m' -> sound m' -> fine m -> fine m'.
Proof. intros T So (_ & Pl & W). split; [exact So|]. split; [exact (steady_placed S m m' T Pl)|exact (steady_items S m m' T W)]. Qed.
Lemma steady_team ms ms' : Forall2 steady ms ms' -> Forall sound ms' -> team ms -> team ms'.
Proof.
  intros F2 So (N & F & D & C). split; [|split; [|split]].
  - intros ->. inversion F2; subst; contradiction.
  - clear - F2 So F. induction F2 as [|a b l l' T F2 IH]; [constructor|]. inversion So; inversion F; subst. constructor; [now apply (steady_fine a)|auto].
  - clear - F2 D. induction F2 as [|a b l l' T F2 IH]; [constructor|]. inversion D as [|? ? D1 D2]; subst. constructor; [|auto].
    clear - T F2 D1. induction F2 as [|c d l l' T' F2 IH]; [constructor|]. inversion D1 as [|? ? D2 D3]; subst. constructor; [|auto].
    intros x Ha Hb. apply (D2 x); [now apply (steady_has a b)|now apply (steady_has c d)].
  - intros x Hx. destruct (C x Hx) as (m & Im & Hm). clear - F2 Im Hm. induction F2 as [|a b l l' T F2 IH]; [destruct Im|].
    destruct Im as [->|Im]; [exists b; split; [now left|now apply (steady_has m b)]|]. destruct (IH Im) as (m' & I' & H'). exists m'. split; [now right|exact H'].
Qed.
Lemma same_field m m' q : steady m m' -> fine m -> In q (sc_items S) -> nfield_of m' (i_name q) = nfield_of m (i_name q).
Proof.
  intros (D & L & B & F & _) (_ & _ & W) Iq. destruct (W q Iq) as (r & Lr & _). destruct (F _ _ Lr) as (r' & Lr' & (_ & P2 & _ & _ & _ & P6)).
  unfold nfield_of, field_for. rewrite Lr, Lr', D, L, P2, P6. reflexivity.
Qed.

(** ** Registration *)
Definition quantity_of (q : item) : quantity := mk_quantity (i_name q) None (i_comp q) (i_nsub q) (i_tag q) None.
Definition plan_of : plan := mk_plan (sc_dom S) (map quantity_of (sc_items S)) [] (fun _ _ => False) (fun _ => 0).
Lemma member_accepted m q seen : fine m -> In q (sc_items S) -> length seen = 3%nat ->
  (forall i, (i < length (sc_dom S))%nat -> zn seen i = 0 \/ zn seen i = zn (sc_dom S) i) ->
  exists s v, register_global seen false None (i_name q) (nfield_of m (i_name q)) = (s, Ok v).
Proof.
  intros (So & Pl & W) Iq L3 Z. destruct (item_field junk S m q So Pl W Iq) as (Sn & Ec & Es & Et & Ed & El & Ep & _ & _).
  destruct acc as (L & _ & Q). destruct (Q q Iq) as (PN & PT & LC & N1). destruct Pl as (_ & L1 & L2 & _).
  apply accepted; try assumption; rewrite ?Ed, ?El, ?Ep, ?Ec, ?Es, ?Et; try assumption; try (intros _; assumption).
  destruct Sn as (-> & _). now rewrite Ec.
Qed.
Lemma registered_item m q v : fine m -> In q (sc_items S) -> (exists m', fine m' /\ registered None (i_name q) (nfield_of m' (i_name q)) v) ->
  registered None (i_name q) (nfield_of m (i_name q)) v.
Proof.
  intros F Iq (m' & F' & (seen & s & E)). destruct (member_accepted m q [0; 0; 0] F Iq eq_refl) as (s1 & v1 & E1).
  { intros i Hi. left. destruct acc as (L & _). destruct i as [|[|[|i]]]; try reflexivity. lia. }
  exists [0; 0; 0], s1. rewrite E1. f_equal. f_equal.
  destruct F as (So & Pl & W). destruct F' as (So' & Pl' & W').
  destruct (item_field junk S m q So Pl W Iq) as (Sn & Ec & Es & Et & Ed & _). destruct (item_field junk S m' q So' Pl' W' Iq) as (Sn' & Ec' & Es' & Et' & Ed' & _).
  apply register_global_inv in E. apply register_global_inv in E1. apply (same_variable (i_name q) (nfield_of m (i_name q)) (nfield_of m' (i_name q))); try tauto.
  unfold same_array. repeat split; congruence.
Qed.
Lemma register_all m names : fine m -> incl names (map i_name (sc_items S)) -> NoDup names -> forall seen known, length seen = 3%nat ->
  (forall i, (i < length (sc_dom S))%nat -> zn seen i = 0 \/ zn seen i = zn (sc_dom S) i) -> (forall n, In n names -> ~ In n known) ->
  exists vs, register_names seen known m names = Ok vs /\ map (fun v => v_name (sv_var v)) vs = names /\
    forall q, In q (sc_items S) -> In (i_name q) names -> exists v, In (mk_svar v None) vs /\ registered None (i_name q) (nfield_of m (i_name q)) v.
Proof.
  intros F. induction names as [|n names IH]; intros Inc ND seen known L3 Z K; cbn [register_names].
  - exists []. split; [reflexivity|]. split; [reflexivity|]. intros q _ [].
  - destruct (existsb (String.eqb n) known) eqn:X.
    { exfalso. apply existsb_exists in X. destruct X as (y & Hy & E). apply String.eqb_eq in E. subst y. apply (K n); [now left|exact Hy]. }
    assert (In n (map i_name (sc_items S))) as Hn by (apply Inc; now left). apply in_map_iff in Hn. destruct Hn as (q0 & <- & Iq0).
    destruct (member_accepted m q0 seen F Iq0 L3 Z) as (s & v & E). pose proof F as (So & Pl & W). destruct (W q0 Iq0) as (r & Lr & _ & _ & _ & NC).
    unfold get_field. rewrite Lr. cbn [bind]. assert (EF : field_for m (i_name q0) r = nfield_of m (i_name q0)) by (unfold nfield_of; now rewrite Lr).
    rewrite EF, E. cbn [bind]. destruct (ftype_eqb (rf_type r) Complex) eqn:EC; [destruct (rf_type r); try discriminate EC; contradiction|]. cbn [bind].
    destruct (register_seen _ _ _ _ _ E) as (Ls & Zs & Vn). inversion ND as [|? ? N1 N2]; subst.
    destruct (IH ltac:(intros y Hy; apply Inc; now right) N2 s (i_name q0 :: known)) as (vs & -> & Mv & Hv).
    + congruence.
    + intros i Hi. right. rewrite (Zs i); [|unfold nfield_of; rewrite Lr; cbn; destruct Pl as (-> & _); exact Hi].
      unfold nfield_of; rewrite Lr; cbn. now destruct Pl as (-> & _).
    + intros y Hy [<-|H]; [contradiction|]. apply (K y); [now right|exact H].
    + cbn [bind]. eexists. split; [reflexivity|]. cbn [map sv_var]. split; [now rewrite Vn, Mv|]. intros q Iq Hq.
      destruct (String.eqb_spec (i_name q) (i_name q0)) as [Q|Q].
      * exists v. split; [now left|]. rewrite Q. now exists seen, s.
      * destruct Hq as [Hq|Hq]; [congruence|]. destruct (Hv q Iq Hq) as (v1 & I1 & R1). exists v1. split; [now right|exact R1].
Qed.
Lemma fop_map {X Y} (f : X -> Y) (R : X -> X -> Prop) (Q : Y -> Y -> Prop) l : (forall a b, In a l -> In b l -> R a b -> Q (f a) (f b)) -> ForallOrdPairs R l -> ForallOrdPairs Q (map f l).
Proof.
  intros H F. induction F as [|a l F1 F2 IH]; [constructor|]. cbn [map]. constructor.
  - apply Forall_forall. intros y Hy. apply in_map_iff in Hy. destruct Hy as (b & <- & Ib). rewrite Forall_forall in F1. apply H; [now left|now right|auto].
  - apply IH. intros; apply H; auto; now right.
Qed.
Lemma member_pixels m : fine m -> pixel_field (pt_sub (part_of m)) /\ nf_dom (pt_sub (part_of m)) = sc_dom S.
Proof.
  intros (_ & (D & L1 & L2 & R) & _). unfold part_of. cbn [pt_sub]. set (n := c_pix (p_coll (m_py m))). change (box m) with n in *.
  split; [|exact D].
  assert (Pn : Forall (fun x => 0 < x) n).
  { apply Forall_forall. intros x Hx. apply (In_nth _ _ 0) in Hx. destruct Hx as (i & Hi & <-). specialize (R i ltac:(congruence)). unfold zn in R. lia. }
  pose proof (bij_running n Pn) as Bi. assert (Em : embeds n (running 1 n) (zprod n)) by now apply bij_split in Bi.
  assert (Sn : forall k : Z, sane (mk_layout [1] 1 1 ColMajor n (running 1 n) k (zprod n))).
  { intros k. split; [reflexivity|]. split; [repeat constructor|]. split; [reflexivity|]. split; [now left|exact Em]. }
  split; [reflexivity|]. split; [reflexivity|]. split; [reflexivity|]. split; [split; [apply Sn|exact Bi]|].
  split; [apply Sn|]. cbn [nf_lay nf_loc nf_dom l_npix l_pix]. split; [reflexivity|]. rewrite D. split; [exact L1|]. split; [exact L2|]. split.
  - intros i Hi. specialize (R i Hi). lia.
  - rewrite repeat_length. unfold buffer_scalars. cbn [l_nbc l_nsub l_nbuf]. assert (0 <= zprod n); [|lia].
    clear - Pn. induction Pn as [|x l Hx _ IH]; [cbn; lia|]. change (zprod (x :: l)) with (x * zprod l). nia.
Qed.
Lemma part_owns m x : owns (pt_sub (part_of m)) x <-> has m x.
Proof. unfold owns, part_of, has. cbn [pt_sub nf_lay nf_loc l_pix]. reflexivity. Qed.
Lemma setup_ok ms names : team ms -> all_names S names -> exists u, setup_of ms names = Ok u /\ fits plan_of u /\ su_parts u = map part_of ms /\ su_colls u = [].
Proof.
  intros (NE & FF & DD & CC) (ND & AN). rewrite Forall_forall in FF. unfold setup_of.
  assert (EX : forall m, In m ms -> exists vs, register_names [0; 0; 0] [] m names = Ok vs /\ map (fun v => v_name (sv_var v)) vs = names /\
    forall q, In q (sc_items S) -> In (i_name q) names -> exists v, In (mk_svar v None) vs /\ registered None (i_name q) (nfield_of m (i_name q)) v).
  { intros m Im. apply register_all; auto.
    - intros n Hn. now apply AN.
    - intros i Hi. left. destruct acc as (L & _). destruct i as [|[|[|i]]]; try reflexivity. lia. }
  destruct (mapm_ok (fun m => register_names [0; 0; 0] [] m names) ms) as [vss EV]; [intros m Im; destruct (EX m Im) as (vs & E & _); eauto|].
  rewrite EV. cbn [bind]. destruct (mapm_at _ _ _ EV) as [LV HV]. destruct ms as [|m0 ms']; [contradiction|]. destruct vss as [|vs vss]; [discriminate LV|].
  destruct (HV 0%nat m0 eq_refl) as (vs' & E1 & E2). injection E1 as <-. destruct (EX m0 (or_introl eq_refl)) as (vs' & E3 & Mv & Rv). rewrite E2 in E3. apply Ok_inj in E3. subst vs'.
  set (ms := m0 :: ms') in *. eexists. split; [reflexivity|]. split; [|split; reflexivity].
  assert (PM : forall p, In p (map part_of ms) -> exists m, In m ms /\ fine m /\ p = part_of m).
  { intros p Ip. apply in_map_iff in Ip. destruct Ip as (m & <- & Im). exists m. auto. }
  unfold fits. cbn [su_vars su_parts su_colls su_hidden plan_of pl_dom pl_quantities pl_colls].
  split; [now rewrite Mv|]. split.
  { intros q Iq. apply in_map_iff in Iq. destruct Iq as (q0 & <- & Iq0). cbn [quantity_of q_local q_hist q_comp q_name].
    split; [discriminate|]. split; [discriminate|]. destruct acc as (_ & _ & Q). split; [now apply (Q q0)|].
    destruct (Rv q0 Iq0) as (v & Iv & R); [apply AN; now apply in_map|]. exists v. split; [exact Iv|]. intros p Ip. destruct (PM p Ip) as (m & Im & F & ->).
    cbn zeta. cbn [part_of pt_field]. pose proof F as (So & Pl & W). destruct (item_field junk S m q0 So Pl W Iq0) as (Sn & Ec & Es & Et & Ed & _).
    split; [unfold shaped; cbn; auto|]. split; [|exact Ed]. apply registered_item; [exact F|exact Iq0|]. exists m0. split; [apply FF; now left|exact R]. }
  split.
  { intros q Iq _. apply in_map_iff in Iq. destruct Iq as (q0 & <- & Iq0). cbn [quantity_of q_name]. eapply fop_map; [|exact DD]. intros a b Ia Ib H x Ha Hb. cbn [part_of pt_field] in *.
    destruct (FF a Ia) as (So & Pl & W). destruct (FF b Ib) as (So' & Pl' & W'). apply (H x).
    - now apply (item_field junk S a q0 So Pl W Iq0).
    - now apply (item_field junk S b q0 So' Pl' W' Iq0). }
  split; [discriminate|]. split; [constructor|]. split; [tauto|]. split.
  { intros p Ip. destruct (PM p Ip) as (m & Im & F & ->). now apply member_pixels. }
  split.
  { intros p q Ip Iq. destruct (PM p Ip) as (m & _ & _ & ->). destruct (PM q Iq) as (m' & _ & _ & ->). reflexivity. }
  split.
  { eapply fop_map; [|exact DD]. intros a b Ia Ib H x Ha Hb. apply (H x); now apply part_owns. }
  split; [|intros l []].
  intros x Hx. destruct (CC x Hx) as (m & Im & Hm). exists (part_of m). split; [now apply in_map|now apply part_owns].
Qed.

(** ** Memory *)
Lemma memory_sized ms0 ms u : team ms0 -> Forall2 steady ms0 ms -> Forall sound ms -> su_parts u = map part_of ms0 -> sized plan_of u (memory ms).
Proof.
  intros T0 F2 So EP. pose proof (steady_team _ _ F2 So T0) as (_ & FF & _). destruct T0 as (_ & FF0 & _). intros q h Iq _. apply in_map_iff in Iq. destruct Iq as (q0 & <- & Iq0). unfold memory. rewrite EP, !map_length. cbn [quantity_of q_name q_local].
  split; [symmetry; clear - F2; induction F2; cbn; congruence|]. intros i p mm Ep Em. rewrite nth_error_map in Ep, Em.
  destruct (nth_error ms0 i) as [m0|] eqn:N0; [|discriminate Ep]. destruct (nth_error ms i) as [m|] eqn:N; [|discriminate Em]. injection Ep as <-. injection Em as <-.
  assert (T : steady m0 m) by (clear - F2 N0 N; revert i N0 N; induction F2 as [|a b l l' T F2 IH]; intros [|i] N0 N; cbn in *; try discriminate; [congruence|eauto]).
  rewrite Forall_forall in FF0, FF. pose proof (FF0 m0 (nth_error_In _ _ N0)) as F0. pose proof (FF m (nth_error_In _ _ N)) as (S1 & Pl & W).
  cbn [part_of pt_field]. rewrite <- (same_field m0 m q0 T F0 Iq0). now apply (item_field junk S m q0 S1 Pl W Iq0).
Qed.
End P.
