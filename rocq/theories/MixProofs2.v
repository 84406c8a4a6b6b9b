(** Processes with global and local collections; registration of their fields. *)
From Coq Require Import String Sorting.Sorted.
From Verif Require Import Base CIntModel GridModel GridSpec StridedModel UnitsModel LayoutModel LayoutSpec LayoutProofs FieldModel FieldSpec.
From Verif Require Import RegistryModel RegistrySpec RegistryProofs RegistryProofs2 NumpyModel NumpySpec PyArrayModel PyArraySpec PyArrayProofs.
From Verif Require Import FrameModel CommModel NetCDFModel NetCDFSpec NetCDFProofs4 NetCDFProofs5 NetCDFProofs7 NetCDFProofs8 NetCDFProofs10 NetCDFProofs12.
From Verif Require Import SessionModel SessionSpec SessionProofs SessionProofs2 SessionProofs3 SessionProofs5 StackModel StackSpec StackProofs StackProofs2 MixModel MixSpec MixProofs.
Local Open Scope Z_scope.
Local Open Scope list_scope.

(** ** Lists *)
Lemma map_inj {X Y} (f : X -> Y) l a b : NoDup (map f l) -> In a l -> In b l -> f a = f b -> a = b.
Proof.
  induction l as [|x l IH]; intros N Ia Ib E; [destruct Ia|]. cbn [map] in N. inversion N as [|? ? N1 N2]; subst.
  destruct Ia as [->|Ia], Ib as [->|Ib]; auto; exfalso; apply N1; [rewrite E|rewrite <- E]; now apply in_map.
Qed.
Lemma nodup_app {X} (a b : list X) : NoDup (a ++ b) <-> NoDup a /\ NoDup b /\ forall x, In x a -> In x b -> False.
Proof.
  induction a as [|x a IH]; cbn [app].
  - split; [intros N; split; [constructor|split; [exact N|intros x []]]|intros (_ & N & _); exact N].
  - split.
    + intros N. inversion N as [|? ? N1 N2]; subst. apply IH in N2. destruct N2 as (A1 & A2 & A3). split; [constructor; [intros I; apply N1; apply in_or_app; now left|exact A1]|]. split; [exact A2|].
      intros y [->|Iy] Ib; [apply N1; apply in_or_app; now right|eauto].
    + intros (A1 & A2 & A3). inversion A1 as [|? ? N1 N2]; subst. constructor; [intros I; apply in_app_or in I; destruct I as [I|I]; [auto|apply (A3 x); [now left|exact I]]|].
      apply IH. split; [exact N2|]. split; [exact A2|]. intros y Iy Ib. apply (A3 y); [now right|exact Ib].
Qed.

(** ** Hidden variables *)
Lemma accepted_hidden seen name f :
  sane (nf_lay f) -> length (nf_loc f) = length (nf_dom f) -> length (l_pix (nf_lay f)) = length (nf_dom f) ->
  (length (nf_dom f) <= 3)%nat -> Z.of_nat (length (l_comp (nf_lay f))) <= 2 ^ 31 ->
  (l_nbc (nf_lay f) = 1 -> l_nsub (nf_lay f) = 1) -> single (nf_lay f) = true -> plain_name name ->
  length seen = 3%nat -> (forall i, (i < length (nf_dom f))%nat -> zn seen i = 0 \/ zn seen i = zn (nf_dom f) i) ->
  exists s v, register_global seen true None name f = (s, Ok v).
Proof.
  intros Sn L1 L2 L3 LC N1 SG PN LS CS. destruct (grid_dims_ok grid_names seen (nf_dom f)) as (s & g & EG); [exact L3|exact LS|exact CS|].
  unfold register_global, add_field_dims_global. rewrite EG. cbn [bind]. set (v := mk_ncvar _ _ _).
  assert (R : registered_as true None name f v).
  { destruct (grid_dims_eq _ _ _ _ _ EG) as [-> _]. split; [reflexivity|]. split; [exact L3|]. split; [|split; [|split; [|exact LC]]].
    - now apply plain_tensors.
    - congruence.
    - discriminate. }
  destruct (imap_vector true None name f v R) as (a & b & t & EI & _ & EM & _); [auto|exact Sn|exact L2|exact N1|].
  unfold consistency_check_global.
  rewrite (start_vector _ _ _ _ _ R) by (lia || assumption). cbn [bind].
  rewrite (count_vector _ _ _ _ _ R) by assumption. cbn [bind]. rewrite (stride_vector _ _ _ _ _ R). cbn [bind]. rewrite EI. cbn [bind].
  assert (LT : length t = length (body_shape (nf_lay f))) by (destruct EM as (-> & _); reflexivity).
  unfold body_shape in *. rewrite !app_length in LT. rewrite !app_length, !repeat_length.
  assert (LH : forall x y x' y', length (header true None x y) = length (header true None x' y')) by (intros; unfold header; rewrite !app_length; reflexivity).
  assert (LQ : forall x y, length (sub_part (nf_lay f) x) = length (sub_part (nf_lay f) y)) by (intros; unfold sub_part; destruct (single (nf_lay f)); reflexivity).
  rewrite LT. rewrite (LH 0 0 1 1), (LH 1 (hist_nb None) 1 1), (LH a b 1 1). rewrite (LQ (l_nsub (nf_lay f)) 0). rewrite L1, L2.
  rewrite (Nat.add_assoc (length (l_comp (nf_lay f)))). rewrite !Nat.eqb_refl. cbn [andb]. do 2 eexists. reflexivity.
Qed.

Section P.
Context {A : Type} (zero junk : A).
Implicit Types (m : member A) (y : player A) (ys : list (player A)).
Variable D : design.
Hypothesis wk : workable D.
Notation sound := (@StackProofs.sound A junk).
Notation B := (d_base D).

(** ** The design *)
Lemma base_acceptable : acceptable B.
Proof.
  destruct wk as (L & N & Q & _). split; [exact L|]. apply nodup_app in N. destruct N as (N & _). unfold field_names, holdings in N. rewrite map_app in N. apply nodup_app in N. destruct N as (N & _).
  rewrite map_map in N. split; [exact N|]. intros q Iq. destruct (Q None q) as (Q1 & Q2 & Q3 & Q4 & _); [unfold holdings; apply in_or_app; left; now apply in_map|]. auto.
Qed.
Lemma in_base q : In (None, q) (holdings D) <-> In q (sc_items B).
Proof.
  unfold holdings. split.
  - intros I. apply in_app_or in I. destruct I as [I|I]; [apply in_map_iff in I; destruct I as (q' & E & I); congruence|]. apply in_flat_map in I. destruct I as (t & _ & I). apply in_map_iff in I. destruct I as (q' & E & _). discriminate E.
  - intros I. apply in_or_app. left. now apply in_map.
Qed.
Lemma in_lot l q : In (Some l, q) (holdings D) <-> exists t, In t (d_lots D) /\ o_name t = l /\ In q (o_items t).
Proof.
  unfold holdings. split.
  - intros I. apply in_app_or in I. destruct I as [I|I]; [apply in_map_iff in I; destruct I as (q' & E & I); congruence|]. apply in_flat_map in I. destruct I as (t & It & I). apply in_map_iff in I. destruct I as (q' & E & I). injection E as E1 E2. subst q'. eauto.
  - intros (t & It & <- & Iq). apply in_or_app. right. apply in_flat_map. exists t. split; [exact It|]. now apply in_map.
Qed.
Lemma holding_unique p q p' q' : In (p, q) (holdings D) -> In (p', q') (holdings D) -> i_name q = i_name q' -> p = p' /\ q = q'.
Proof.
  intros I I' E. destruct wk as (_ & N & _). apply nodup_app in N. destruct N as (N & _). pose proof (map_inj _ _ (p, q) (p', q') N I I' E) as H. injection H as H1 H2. auto.
Qed.
Lemma lot_unique t t' : In t (d_lots D) -> In t' (d_lots D) -> o_name t = o_name t' -> t = t'.
Proof. destruct wk as (_ & N & _). apply nodup_app in N. destruct N as (_ & N & _). now apply map_inj. Qed.
Lemma not_a_field p q t : In (p, q) (holdings D) -> In t (d_lots D) -> i_name q <> o_name t.
Proof.
  intros I It E. destruct wk as (_ & N & _). apply nodup_app in N. destruct N as (_ & _ & N). apply (N (i_name q)); [unfold field_names; exact (in_map (fun h => i_name (snd h)) _ _ I)|rewrite E; now apply in_map].
Qed.
Lemma find_lot t : In t (d_lots D) -> find (fun t' => String.eqb (o_name t') (o_name t)) (d_lots D) = Some t.
Proof.
  intros It. destruct (find _ _) as [t'|] eqn:F.
  - apply find_some in F. destruct F as (I' & E). apply String.eqb_eq in E. f_equal. now apply lot_unique.
  - exfalso. apply (find_none _ _ F) in It. now rewrite String.eqb_refl in It.
Qed.

(** ** Processes *)
Definition keeps_lot y t m : Prop :=
  y_locals y (o_name t) = Some m /\ local_kept junk m /\ (forall q, In q (o_items t) -> carries m q) /\ StronglySorted Z.lt (pixel_ids m) /\
  (forall i, In i (pixel_ids m) -> exists x, has (y_base y) x /\ i = number_of y x) /\
  (forall x, has (y_base y) x -> (In (number_of y x) (pixel_ids m) <-> o_pixels t x)).
Definition able y : Prop := fine junk B (y_base y) /\ forall t, In t (d_lots D) -> exists m, keeps_lot y t m.
Definition troupe ys : Prop := team junk B (map y_base ys) /\ Forall able ys /\
  forall t, In t (d_lots D) -> zsum (map (fun y => Z.of_nat (length (ids_of y (o_name t)))) ys) = o_total t.
Lemma assembled_troupe ys : assembled zero junk D ys -> troupe ys.
Proof.
  intros (T & L). pose proof (together_team zero junk B _ T) as Tm. split; [exact Tm|]. split; [|intros t It; now apply L].
  apply Forall_forall. intros y Iy. split.
  - destruct Tm as (_ & F & _). rewrite Forall_forall in F. apply F. now apply in_map.
  - intros t It. destruct (L t It) as (L1 & _). destruct (L1 y Iy) as (m & E & P). exists m. split; [exact E|]. destruct (local_prepared zero junk t y m P) as (K & C). destruct P as (_ & P1 & P2 & P3 & _). auto.
Qed.
(** Only values changed. *)
Definition pcalm y y' : Prop := calm (y_base y) (y_base y') /\ sound (y_base y') /\
  forall t m, In t (d_lots D) -> y_locals y (o_name t) = Some m -> exists m', y_locals y' (o_name t) = Some m' /\ calm m m' /\ sound m'.
Lemma able_sound y t m : able y -> In t (d_lots D) -> y_locals y (o_name t) = Some m -> sound m.
Proof. intros (_ & L) It E. destruct (L t It) as (m' & E' & (So & _) & _). congruence. Qed.
Lemma pcalm_refl y : able y -> pcalm y y.
Proof.
  intros Ab. split; [apply calm_refl|]. split; [apply Ab|]. intros t m It E. exists m. split; [exact E|]. split; [apply calm_refl|]. exact (able_sound y t m Ab It E).
Qed.
Lemma pcalm_trans a b c : pcalm a b -> pcalm b c -> pcalm a c.
Proof.
  intros (C1 & _ & L1) (C2 & S2 & L2). split; [exact (calm_trans _ _ _ C1 C2)|]. split; [exact S2|]. intros t m It E. destruct (L1 t m It E) as (m1 & E1 & K1 & _). destruct (L2 t m1 It E1) as (m2 & E2 & K2 & So). exists m2. split; [exact E2|]. split; [exact (calm_trans _ _ _ K1 K2)|exact So].
Qed.
Lemma pcalm_number y y' x : pcalm y y' -> number_of y' x = number_of y x.
Proof. intros (((_ & El & Eb & _) & _) & _). unfold number_of. now rewrite El, Eb. Qed.
Lemma pcalm_has y y' x : pcalm y y' -> (has (y_base y') x <-> has (y_base y) x).
Proof. intros ((S & _) & _). now apply steady_has. Qed.
Lemma pcalm_able y y' : able y -> pcalm y y' -> able y'.
Proof.
  intros (F & L) Pc. pose proof Pc as ((S & _) & So & H). split; [exact (steady_fine junk B _ _ S So F)|]. intros t It. destruct (L t It) as (m & E & K & C & P1 & P2 & P3).
  destruct (H t m It E) as (m' & E' & Cm & Sm). exists m'. pose proof (calm_ids _ _ Cm) as Ei. split; [exact E'|]. split; [exact (calm_kept junk m m' Cm Sm K)|]. split; [intros q Iq; apply (calm_carries m m' q Cm); auto|]. rewrite Ei. split; [exact P1|]. split.
  - intros i Ii. destruct (P2 i Ii) as (x & Hx & ->). exists x. rewrite (pcalm_number y y' x Pc). split; [now apply (pcalm_has y y')|reflexivity].
  - intros x Hx. rewrite (pcalm_number y y' x Pc). apply P3. now apply (pcalm_has y y').
Qed.
Lemma pcalm_ids y y' t : able y -> pcalm y y' -> In t (d_lots D) -> ids_of y' (o_name t) = ids_of y (o_name t).
Proof.
  intros (_ & L) (_ & _ & H) It. destruct (L t It) as (m & E & _). destruct (H t m It E) as (m' & E' & C & _). unfold ids_of. rewrite E, E'. now apply calm_ids.
Qed.
Lemma pcalm_troupe ys ys' : Forall2 pcalm ys ys' -> troupe ys -> troupe ys'.
Proof.
  intros F2 (T & Ab & Z). split; [|split].
  - apply (steady_team junk B (map y_base ys)); [| |exact T].
    + clear - F2. induction F2 as [|a b l l' ((S & _) & _) F2 IH]; cbn [map]; constructor; auto.
    + clear - F2. induction F2 as [|a b l l' (_ & So & _) F2 IH]; cbn [map]; constructor; auto.
  - clear - F2 Ab. induction F2 as [|a b l l' Pc F2 IH]; [constructor|]. inversion Ab; subst. constructor; [now apply (pcalm_able a)|auto].
  - intros t It. rewrite <- (Z t It). f_equal. clear - F2 Ab It. induction F2 as [|a b l l' Pc F2 IH]; [reflexivity|]. inversion Ab; subst. cbn [map]. rewrite IH by assumption. now rewrite (pcalm_ids a b t).
Qed.
(** A slot of the design *)
Definition of_design (p : option string) : Prop := match p with None => True | Some l => In l (map o_name (d_lots D)) end.
Lemma held_design p q : In (p, q) (holdings D) -> of_design p.
Proof. destruct p as [l|]; [|exact (fun _ => Logic.I)]. intros I. apply in_lot in I. destruct I as (t & It & <- & _). now apply in_map. Qed.
Lemma slot_able y p : able y -> of_design p -> exists m, slot y p = Some m /\ sound m.
Proof.
  intros Ab Dp. destruct p as [l|]; cbn [slot of_design] in *; [|exists (y_base y); split; [reflexivity|apply Ab]].
  apply in_map_iff in Dp. destruct Dp as (t & <- & It). pose proof Ab as (_ & L). destruct (L t It) as (m & E & _). exists m. split; [exact E|]. exact (able_sound y t m Ab It E).
Qed.
Lemma slot_carries y p q m : able y -> In (p, q) (holdings D) -> slot y p = Some m -> carries m q.
Proof.
  intros (F & L) I E. destruct p as [l|]; cbn [slot] in E.
  - apply in_lot in I. destruct I as (t & It & <- & Iq). destruct (L t It) as (m' & E' & _ & C & _). rewrite E in E'. injection E' as <-. now apply C.
  - injection E as <-. apply in_base in I. destruct F as (_ & _ & W). exact (W q I).
Qed.
Lemma pcalm_slot y y' p m : pcalm y y' -> of_design p -> slot y p = Some m -> exists m', slot y' p = Some m' /\ calm m m' /\ sound m'.
Proof.
  intros (C & So & H) Dp E. destruct p as [l|]; cbn [slot of_design] in *; [|injection E as <-; exists (y_base y'); auto].
  apply in_map_iff in Dp. destruct Dp as (t & <- & It). now apply H.
Qed.
Lemma slot_alter y p p' m : slot (alter y p m) p' = if (match p, p' with None, None => true | Some a, Some b => String.eqb b a | _, _ => false end) then Some m else slot y p'.
Proof. destruct p as [a|], p' as [b|]; cbn [alter slot y_base y_locals]; reflexivity. Qed.
Lemma alter_calm y p m m' : able y -> slot y p = Some m -> (of_design p -> calm m m' /\ sound m') -> pcalm y (alter y p m').
Proof.
  intros Ab E H. destruct p as [l|]; cbn [alter slot] in *.
  - split; [apply calm_refl|]. split; [apply Ab|]. intros t m0 It E0. cbn [y_locals]. unfold set_at. destruct (String.eqb_spec (o_name t) l) as [El|N].
    + rewrite El, E in E0. injection E0 as <-. exists m'. split; [reflexivity|]. apply H. cbn. rewrite <- El. now apply in_map.
    + exists m0. split; [exact E0|]. split; [apply calm_refl|]. exact (able_sound y t m0 Ab It E0).
  - injection E as <-. destruct (H Logic.I) as (C & So). split; [exact C|]. split; [exact So|]. intros t m0 It E0. exists m0. split; [exact E0|]. split; [apply calm_refl|]. exact (able_sound y t m0 Ab It E0).
Qed.

(** ** Numbers of pixels *)
Lemma number_id y x : pixel_id (pt_sub (part_of (y_base y))) x = number_of y x.
Proof. unfold pixel_id, part_of, number_of, box. cbn [pt_sub nf_lay l_pstr nf_loc]. rewrite off_running. lia. Qed.

(** ** Registration of fields of local collections *)
Definition quantity_at (h : option string * item) : quantity := mk_quantity (i_name (snd h)) None (i_comp (snd h)) (i_nsub (snd h)) (i_tag (snd h)) (fst h).
Definition total_of (l : string) : Z := match find (fun t => String.eqb (o_name t) l) (d_lots D) with Some t => o_total t | None => 0 end.
Definition plan_mix : plan := mk_plan (sc_dom B) (map quantity_at (holdings D)) (map o_name (d_lots D))
  (fun l x => exists t, In t (d_lots D) /\ o_name t = l /\ o_pixels t x) total_of.
Lemma lot_limit t q : In t (d_lots D) -> In q (o_items t) -> plain_name (i_name q) /\ plain_name (i_tag q) /\ Z.of_nat (length (i_comp q)) <= 2 ^ 31 /\
  (zprod (i_comp q) = 1 -> i_nsub q = 1) /\ zprod (i_comp q) * i_nsub q < 2 ^ 31.
Proof.
  intros It Iq. destruct wk as (_ & _ & Q & _). destruct (Q (Some (o_name t)) q) as (Q1 & Q2 & Q3 & Q4 & Q5); [apply in_lot; eauto|]. repeat (split; [assumption|]). apply Q5. discriminate.
Qed.
Lemma item_accepted y t m q pixels : able y -> In t (d_lots D) -> keeps_lot y t m -> In q (o_items t) ->
  exists v, register_local (o_total t) None (i_name q) (nfield_of m (i_name q)) pixels = Ok v /\ local_as (o_total t) None (i_name q) (nfield_of m (i_name q)) v.
Proof.
  intros Ab It (E & K & C & _) Iq. destruct (lot_limit t q It Iq) as (PN & PT & LC & N1 & Lim). destruct (local_item junk m q K (C q Iq) Lim) as (Ec & Es & Et & _ & En & LF).
  destruct (@accepted_local A (o_total t) None (i_name q) (nfield_of m (i_name q)) pixels (Z.of_nat (length (pixel_ids m)))) as (v & Ev).
  - eauto.
  - destruct wk as (_ & _ & _ & W). now apply W.
  - now rewrite Ec.
  - now rewrite En, Es.
  - exact PN.
  - intros _. now rewrite Et.
  - exists v. split; [exact Ev|]. now apply register_local_inv in Ev.
Qed.
Lemma local_equal y y' t m m' q v w : keeps_lot y t m -> keeps_lot y' t m' -> In t (d_lots D) -> In q (o_items t) ->
  local_as (o_total t) None (i_name q) (nfield_of m (i_name q)) v -> local_as (o_total t) None (i_name q) (nfield_of m' (i_name q)) w -> v = w.
Proof.
  intros (_ & K & C & _) (_ & K' & C' & _) It Iq (-> & _) (-> & _). destruct (lot_limit t q It Iq) as (_ & _ & _ & _ & Lim).
  destruct (local_item junk m q K (C q Iq) Lim) as (Ec & Es & Et & _ & En & _). destruct (local_item junk m' q K' (C' q Iq) Lim) as (Ec' & Es' & Et' & _ & En' & _).
  unfold subpt_dims, subpt_dim, single. rewrite Ec, Ec', Es, Es', Et, Et', En, En'. reflexivity.
Qed.
Lemma locals_ok y t m pixels names : able y -> In t (d_lots D) -> keeps_lot y t m -> incl names (map i_name (o_items t)) -> NoDup names -> forall known, (forall n, In n names -> ~ In n known) ->
  exists vs, register_locals (o_name t) (o_total t) pixels known m names = Ok vs /\ map (fun v => v_name (sv_var v)) vs = names /\ (forall v, In v vs -> sv_local v = Some (o_name t)) /\
    forall q, In q (o_items t) -> In (i_name q) names -> exists v, In (mk_svar v (Some (o_name t))) vs /\ local_as (o_total t) None (i_name q) (nfield_of m (i_name q)) v.
Proof.
  intros Ab It K. induction names as [|n names IH]; intros Inc ND known Kn; cbn [register_locals].
  - exists []. split; [reflexivity|]. split; [reflexivity|]. split; [intros v []|intros q _ []].
  - destruct (existsb (String.eqb n) known) eqn:X.
    { exfalso. apply existsb_exists in X. destruct X as (z & Hz & E). apply String.eqb_eq in E. subst z. apply (Kn n); [now left|exact Hz]. }
    assert (In n (map i_name (o_items t))) as Hn by (apply Inc; now left). apply in_map_iff in Hn. destruct Hn as (q0 & <- & Iq0).
    destruct (item_accepted y t m q0 pixels Ab It K Iq0) as (v & Ev & Av). pose proof K as (_ & _ & C & _). destruct (C q0 Iq0) as (r & Lr & _ & _ & _ & NC).
    unfold get_field. rewrite Lr. cbn [bind]. assert (EF : field_for m (i_name q0) r = nfield_of m (i_name q0)) by (unfold nfield_of; now rewrite Lr).
    rewrite EF, Ev. cbn [bind]. destruct (ftype_eqb (rf_type r) Complex) eqn:EC; [destruct (rf_type r); try discriminate EC; contradiction|]. cbn [bind].
    inversion ND as [|? ? N1 N2]; subst. destruct (IH ltac:(intros z Hz; apply Inc; now right) N2 (i_name q0 :: known)) as (vs & -> & Mv & Lv & Hv).
    { intros z Hz [<-|H]; [contradiction|]. apply (Kn z); [now right|exact H]. }
    cbn [bind]. eexists. split; [reflexivity|]. cbn [map sv_var]. assert (Vn : v_name v = i_name q0) by (destruct Av as (-> & _); reflexivity). split; [now rewrite Vn, Mv|]. split; [intros w [<-|Iw]; [reflexivity|auto]|].
    intros q Iq Hq. destruct (String.eqb_spec (i_name q) (i_name q0)) as [Q|Q].
    + exists v. split; [now left|]. now rewrite Q.
    + destruct Hq as [Hq|Hq]; [congruence|]. destruct (Hv q Iq Hq) as (v1 & I1 & R1). exists v1. split; [now right|exact R1].
Qed.

(** ** Positions *)
Lemma part_pixels vs y : fine junk B (y_base y) -> pixel_field (pt_sub (player_part vs y)) /\ nf_dom (pt_sub (player_part vs y)) = sc_dom B.
Proof. apply member_pixels. Qed.
Lemma coll_part_sound y t : able y -> In t (d_lots D) -> NetCDFProofs10.sound (@in_coll A (o_name t) (player_part [] y)).
Proof.
  intros (F & L) It. destruct (L t It) as (m & E & K & C & P1 & P2 & P3). unfold NetCDFProofs10.sound. cbn [in_coll pr_sub pr_ids player_part pt_sub pt_ids]. split; [exact (proj1 (member_pixels junk B _ F))|].
  unfold ids_of. rewrite E. split; [now apply sorted_nodup|]. intros i Ii. destruct (P2 i Ii) as (x & Hx & ->). exists x. split; [now apply part_owns|]. symmetry. apply number_id.
Qed.
Lemma positions_ok md ys t : troupe ys -> In t (d_lots D) -> exists hs, @first_positions A md (map (player_part []) ys) (o_name t) = Ok hs.
Proof.
  intros (_ & Ab & _) It. rewrite Forall_forall in Ab. destruct md; cbn [first_positions]; [|eauto..]. set (ws := map _ (map _ ys)).
  destruct (hidden_fields_spec (counts_of ws) ws 0) as (hs & E & _); [|unfold counts_of; rewrite map_length; lia|eauto].
  intros w Iw. unfold ws in Iw. rewrite map_map in Iw. apply in_map_iff in Iw. destruct Iw as (y & <- & Iy). apply coll_part_sound; auto.
Qed.
Lemma total_eq ys t vs : troupe ys -> In t (d_lots D) -> zsum (map (fun p => Z.of_nat (length (pt_ids p (o_name t)))) (map (player_part vs) ys)) = o_total t.
Proof. intros (_ & _ & Z) It. rewrite map_map. cbn [player_part pt_ids]. now apply Z. Qed.
Lemma hidden_accepted y t seen : fine junk B (y_base y) -> In t (d_lots D) -> length seen = 3%nat ->
  (forall i, (i < length (sc_dom B))%nat -> zn seen i = 0 \/ zn seen i = zn (sc_dom B) i) ->
  exists s v, register_global seen true None (o_name t) (pt_sub (part_of (y_base y))) = (s, Ok v).
Proof.
  intros F It L3 Z. destruct (member_pixels junk B _ F) as ((E1 & E2 & _ & (Sn & _) & _) & Ed). destruct F as (_ & (Dm & L1 & L2 & _) & _). destruct wk as (L & _ & _ & W). destruct (W t It) as (PN & _).
  apply accepted_hidden; try assumption; rewrite ?Ed; try assumption; try reflexivity.
  cbn. lia.
Qed.
Lemma zn_first (d : list Z) i : (i < length d)%nat -> (length d <= 3)%nat -> zn (firstn 3 (d ++ [0; 0; 0])) i = zn d i.
Proof.
  intros H L. destruct d as [|a [|b [|c [|e d]]]]; cbn in L; try lia; destruct i as [|[|[|i]]]; cbn in H; try lia; reflexivity.
Qed.
Lemma colls_ok md ys i y ls : troupe ys -> able y ->
  NoDup (concat (map (fun x => fst x :: snd x) ls)) ->
  (forall l names, In (l, names) ls -> exists t, In t (d_lots D) /\ o_name t = l /\ forall n, In n names <-> In n (map i_name (o_items t))) ->
  forall known colls, (forall n, In n (concat (map (fun x => fst x :: snd x) ls)) -> ~ In n known) -> (forall l, In l (map fst ls) -> ~ In l colls) ->
  exists r, register_colls md (map (player_part []) ys) i y known colls ls = Ok r /\
    map (fun v => v_name (sv_var v)) (fst r) = concat (map snd ls) /\ (forall v, In v (fst r) -> exists l, sv_local v = Some l /\ In l (map fst ls)) /\
    (forall t m q, In t (d_lots D) -> In (o_name t) (map fst ls) -> keeps_lot y t m -> In q (o_items t) -> exists v, In (mk_svar v (Some (o_name t))) (fst r) /\ local_as (o_total t) None (i_name q) (nfield_of m (i_name q)) v) /\
    (forall l, In l (map fst ls) -> registered_pixels l (pt_sub (part_of (y_base y))) (snd r l)).
Proof.
  intros T Ab. induction ls as [|[l names] ls IH]; intros ND AL known colls Kn Kc; cbn [register_colls].
  - eexists. split; [reflexivity|]. cbn [fst snd map concat]. split; [reflexivity|]. split; [intros v []|]. split; [intros t m q _ []|intros l []].
  - destruct (AL l names (or_introl eq_refl)) as (t & It & <- & AN). pose proof Ab as (F & L). destruct (L t It) as (m & K). pose proof K as (E & _). rewrite E.
    cbn [map concat fst snd] in ND, Kn, Kc. change ((o_name t :: names) ++ concat (map (fun x => fst x :: snd x) ls)) with (o_name t :: (names ++ concat (map (fun x => fst x :: snd x) ls))) in ND, Kn.
    inversion ND as [|? ? N1 N2]; subst. apply nodup_app in N2. destruct N2 as (N2 & N3 & N4).
    assert (Ex : forall n (k : list string), ~ In n k -> existsb (String.eqb n) k = false).
    { intros n k H. destruct (existsb _ _) eqn:X; [|reflexivity]. exfalso. apply existsb_exists in X. destruct X as (z & Hz & Ez). apply String.eqb_eq in Ez. now subst z. }
    rewrite (Ex _ colls) by (apply Kc; now left). destruct (positions_ok md ys t T It) as (hs & ->). cbn [bind]. rewrite (Ex _ known) by (apply Kn; now left).
    pose proof F as (_ & (Dm & _) & _). pose proof wk as (W3 & _).
    destruct (hidden_accepted y t (firstn 3 (m_dom (y_base y) ++ [0; 0; 0])) F It) as (sn & hv & Eh).
    { rewrite firstn_length, app_length. cbn [length]. lia. }
    { intros j Hj. right. rewrite Dm. now apply zn_first. }
    rewrite Eh. cbn [snd bind]. rewrite (total_eq ys t [] T It).
    destruct (locals_ok y t m (nth i hs []) names Ab It K) with (known := o_name t :: known) as (vs & -> & Mv & Lv & Hv).
    { intros n Hn. now apply AN. }
    { exact N2. }
    { intros n Hn [<-|H]; [apply N1; apply in_or_app; now left|]. apply (Kn n); [right; apply in_or_app; now left|exact H]. }
    cbn [bind]. destruct (IH N3 ltac:(intros l0 n0 H0; apply (AL l0 n0); now right) (names ++ o_name t :: known) (o_name t :: colls)) as (r & -> & Mr & Lr & Qr & Hr).
    { intros n Hn H. apply in_app_or in H. destruct H as [H|[<-|H]]; [exact (N4 n H Hn)|apply N1; apply in_or_app; now right|]. apply (Kn n); [right; apply in_or_app; now right|exact H]. }
    { intros l0 Hl0 [<-|H]; [|apply (Kc l0); [now right|exact H]]. apply N1. apply in_or_app. right. apply in_concat. apply in_map_iff in Hl0. destruct Hl0 as ([l1 n1] & <- & I1). exists (l1 :: n1). split; [exact (in_map (fun x => fst x :: snd x) _ _ I1)|now left]. }
    cbn [bind]. eexists. split; [reflexivity|]. cbn [fst snd]. split; [cbn [map concat snd]; now rewrite map_app, Mv, Mr|]. split; [|split].
    + intros v Iv. apply in_app_or in Iv. destruct Iv as [Iv|Iv]; [exists (o_name t); split; [now apply Lv|now left]|]. destruct (Lr v Iv) as (l0 & E0 & I0). exists l0. split; [exact E0|now right].
    + intros t' m' q It' Il Kt' Iq. destruct (String.eqb_spec (o_name t') (o_name t)) as [Et|Nt].
      * pose proof (lot_unique t' t It' It Et) as ->. assert (m' = m) as -> by (destruct Kt' as (E' & _); congruence).
        destruct (Hv q Iq) as (v & Iv & Av); [apply AN; now apply in_map|]. exists v. split; [apply in_or_app; now left|exact Av].
      * destruct Il as [Il|Il]; [cbn in Il; congruence|]. destruct (Qr t' m' q It' Il Kt' Iq) as (v & Iv & Av). exists v. split; [apply in_or_app; now right|exact Av].
    + intros l0 Hl0. unfold set_at. destruct (String.eqb_spec l0 (o_name t)) as [->|Nl]; [exists (firstn 3 (m_dom (y_base y) ++ [0; 0; 0])), sn; exact Eh|]. destruct Hl0 as [Hl0|Hl0]; [cbn in Hl0; congruence|now apply Hr].
Qed.
End P.
