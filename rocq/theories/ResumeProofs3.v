(** Registration of fields and state fields with the file. *)
From Coq Require Import String Sorting.Sorted.
From Verif Require Import Base CIntModel GridModel GridSpec StridedModel UnitsModel LayoutModel LayoutSpec LayoutProofs FieldModel FieldSpec.
From Verif Require Import RegistryModel RegistrySpec RegistryProofs RegistryProofs2 StateModel StateSpec StateProofs StateProofs2 NumpyModel NumpySpec PyArrayModel PyArraySpec PyArrayProofs.
From Verif Require Import FrameModel CommModel NetCDFModel NetCDFSpec NetCDFProofs4 NetCDFProofs5 NetCDFProofs8 SessionModel SessionSpec SessionProofs SessionProofs5 StackModel StackSpec StackProofs StackProofs2.
From Verif Require Import ResumeModel ResumeSpec ResumeProofs ResumeProofs2.
Local Open Scope Z_scope.
Local Open Scope list_scope.

Lemma same_variable_hist hist name f g v w : registered_as false hist name f v -> registered_as false hist name g w -> sane (nf_lay f) -> sane (nf_lay g) -> same_array f g -> v = w.
Proof.
  intros (-> & _) (-> & _) Sf Sg (E1 & E2 & E3 & E4). destruct Sf as (F1 & _). destruct Sg as (G1 & _).
  unfold subpt_dims, subpt_dim, single. rewrite F1, G1, E1, E2, E3, E4. reflexivity.
Qed.
Lemma register_seen_hist seen hist name f s v : register_global seen false hist name f = (s, Ok v) -> length s = length seen /\ (forall i, (i < length (nf_dom f))%nat -> zn s i = zn (nf_dom f) i) /\ v_name v = name.
Proof.
  intros E. pose proof E as E0. apply register_global_inv in E0. destruct E0 as [(-> & _) _]. unfold register_global, add_field_dims_global in E.
  destruct (grid_dims grid_names seen (nf_dom f)) as [s1 r1] eqn:EG. injection E as <- E. destruct r1 as [g| |]; try discriminate E.
  destruct (grid_seen _ _ _ _ _ EG). auto.
Qed.

Section P.
Context {A : Type} (zero junk : A).
Implicit Types (m : member A) (p : proc A).
Variable D : design.
Notation S := (phys D).
Notation sound := (@sound A junk).
Notation kept := (kept junk D).
Hypothesis suit : suitable D.

Definition hist_of (g : thing) : option Z := option_map (fun mem => mem + 1) (g_mem g).
Definition wanted (g : thing) : quantity := mk_quantity (g_name g) (hist_of g) (i_comp (g_item g)) (i_nsub (g_item g)) (i_tag (g_item g)) None.
Definition plan_for : plan := mk_plan (ds_dom D) (map wanted (ds_things D)) [] (fun _ _ => False) (fun _ => 0).

(** The field of an entry, as the file sees it. *)
Lemma entry_item p g n : kept p -> In g (ds_things D) -> In (item_at g n) (items_of g) ->
  let f := nfield_of (r_m p) n in
  sane (nf_lay f) /\ l_comp (nf_lay f) = i_comp (g_item g) /\ l_nsub (nf_lay f) = i_nsub (g_item g) /\ nf_tag f = i_tag (g_item g) /\ nf_dom f = ds_dom D /\ nf_loc f = m_loc (r_m p) /\
  l_pix (nf_lay f) = box (r_m p) /\ distributed f (values (r_m p) n) /\ (forall x, owns f x <-> has (r_m p) x).
Proof.
  intros K Ig I. destruct (kept_fine junk D p K) as (So & Pl & W). exact (item_field junk S (r_m p) (item_at g n) So Pl W (item_in D g n Ig I)).
Qed.
Lemma entry_lookup p g n : kept p -> In g (ds_things D) -> In (item_at g n) (items_of g) -> exists r, lookup n (c_fields (p_coll (m_py (r_m p)))) = Some r /\ rf_type r <> Complex /\ nfield_of (r_m p) n = field_for (r_m p) n r.
Proof.
  intros K Ig I. destruct (kept_fine junk D p K) as (_ & _ & W). destruct (W _ (item_in D g n Ig I)) as (r & L & _ & _ & _ & NC). exists r. split; [exact L|]. split; [exact NC|]. unfold nfield_of. cbn [item_at i_name] in L. now rewrite L.
Qed.

(** ** One variable *)
Definition open_to (seen : list Z) : Prop := length seen = 3%nat /\ forall i, (i < length (ds_dom D))%nat -> zn seen i = 0 \/ zn seen i = zn (ds_dom D) i.
Lemma open_first : open_to [0; 0; 0].
Proof. split; [reflexivity|]. intros i Hi. left. destruct suit as (L & _). destruct i as [|[|[|i]]]; try reflexivity. lia. Qed.
Lemma thing_accepted p g n seen : kept p -> In g (ds_things D) -> In (item_at g n) (items_of g) -> open_to seen ->
  exists s v, register_global seen false (hist_of g) (g_name g) (nfield_of (r_m p) n) = (s, Ok v) /\ open_to s /\ v_name v = g_name g.
Proof.
  intros K Ig I (L3 & Z). destruct (entry_item p g n K Ig I) as (Sn & Ec & Es & Et & Ed & El & Ep & _ & _). pose proof K as (_ & (_ & L1 & L2 & _) & _). cbn [phys sc_dom] in L1, L2.
  destruct suit as (L & _ & Q). destruct (Q g Ig) as (PN & PT & LC & N1 & _).
  assert (AC : exists s v, register_global seen false (hist_of g) (g_name g) (nfield_of (r_m p) n) = (s, Ok v)).
  { apply accepted; try assumption; rewrite ?Ed, ?El, ?Ep, ?Ec, ?Es, ?Et; try assumption; try (intros _; assumption). destruct Sn as (-> & _). now rewrite Ec. }
  destruct AC as (s & v & E). exists s, v. split; [exact E|]. destruct (register_seen_hist _ _ _ _ _ _ E) as (Ls & Zs & Vn). rewrite Ed in Zs. split; [|exact Vn]. split; [congruence|]. intros i Hi. right. exact (Zs i Hi).
Qed.
Definition current p g : string := match field_of p g 0 with Ok n => n | _ => EmptyString end.
Lemma state_zero g : In g (ds_things D) -> state_of g 0.
Proof. intros Ig. destruct suit as (_ & _ & Q). destruct (Q g Ig) as (_ & _ & _ & _ & M & _). unfold state_of. destruct (g_mem g) as [mem|]; [|reflexivity]. specialize (M mem eq_refl). lia. Qed.
Lemma current_spec p g : kept p -> In g (ds_things D) -> field_of p g 0 = Ok (current p g) /\ In (item_at g (current p g)) (items_of g).
Proof. intros K Ig. destruct (field_found junk D p g 0 K Ig (state_zero g Ig)) as (n & E & I). unfold current. rewrite E. auto. Qed.
Definition registered_for p g (v : ncvar) : Prop := registered (hist_of g) (g_name g) (nfield_of (r_m p) (current p g)) v.
Lemma registered_any p p' g v : kept p -> kept p' -> In g (ds_things D) -> registered_for p' g v -> registered_for p g v.
Proof.
  intros K K' Ig (seen & s & E). destruct (current_spec p g K Ig) as (_ & I). destruct (current_spec p' g K' Ig) as (_ & I').
  destruct (thing_accepted p g _ [0; 0; 0] K Ig I open_first) as (s1 & v1 & E1 & _). exists [0; 0; 0], s1. rewrite E1. f_equal. f_equal.
  destruct (entry_item p g _ K Ig I) as (Sn & Ec & Es & Et & Ed & _). destruct (entry_item p' g _ K' Ig I') as (Sn' & Ec' & Es' & Et' & Ed' & _).
  apply register_global_inv in E. apply register_global_inv in E1. apply (same_variable_hist (hist_of g) (g_name g) (nfield_of (r_m p) (current p g)) (nfield_of (r_m p') (current p' g))); try tauto.
  unfold same_array. repeat split; congruence.
Qed.
Lemma not_known n known : ~ In n known -> existsb (String.eqb n) known = false.
Proof.
  intros N. destruct (existsb (String.eqb n) known) eqn:E; [|reflexivity]. exfalso. apply existsb_exists in E. destruct E as (y & Hy & E). apply String.eqb_eq in E. subst y. contradiction.
Qed.
Lemma register_one p g seen known skip rest : kept p -> In g (ds_things D) -> open_to seen -> ~ In (g_name g) known -> (stateful g = false -> ~ In (g_name g) skip) ->
  exists s v, open_to s /\ v_name v = g_name g /\ registered_for p g v /\
    register_vars seen known skip p ((stateful g, g_name g) :: rest) =
    (let! vs := register_vars s (g_name g :: known) (skip ++ match g_mem g with Some mem => sub_names (g_name g) mem | None => [] end) p rest in Ok (mk_svar v None :: vs)).
Proof.
  intros K Ig O N Ns. destruct (current_spec p g K Ig) as (E & I). destruct (thing_accepted p g _ seen K Ig I O) as (s & v & R & O' & Vn). exists s, v. split; [exact O'|]. split; [exact Vn|].
  split; [exists seen, s; exact R|]. destruct (entry_lookup p g _ K Ig I) as (r & L & NC & EF). cbn [register_vars]. rewrite (not_known _ _ N). rewrite entry_field, E. cbn [bind].
  assert (Es : negb (stateful g) && existsb (String.eqb (g_name g)) skip = false).
  { destruct (stateful g) eqn:Eg; [reflexivity|]. cbn [negb andb]. apply not_known. now apply Ns. }
  rewrite Es. assert (Eh : (if stateful g then let! s := get_state (sys_of p) (g_name g) in Ok (Some (s_mem s + 1), sub_names (g_name g) (s_mem s)) else Ok (None, [])) =
    Ok (hist_of g, match g_mem g with Some mem => sub_names (g_name g) mem | None => [] end)).
  { unfold stateful, hist_of. destruct (g_mem g) as [mem|] eqn:Em; [|reflexivity]. destruct K as (_ & _ & _ & St). destruct (St g mem Ig Em) as (s1 & L1 & <-). unfold get_state. cbn [sys_of y_states]. rewrite L1. reflexivity. }
  rewrite Eh. cbn [bind fst snd]. unfold get_field. rewrite L. cbn [bind]. rewrite <- EF, R. cbn [bind]. destruct (ftype_eqb (rf_type r) Complex) eqn:EC; [destruct (rf_type r); try discriminate EC; contradiction|]. reflexivity.
Qed.

(** ** All of them *)
Definition names_in (vs : list svar) : list string := map (fun v => v_name (sv_var v)) vs.
Definition sub_of (n : string) : Prop := exists g i, In g (ds_things D) /\ stateful g = true /\ n = sub_name (g_name g) i.
Lemma fields_registered p names : kept p -> forall seen known skip, open_to seen -> NoDup names ->
  (forall n, In n skip -> sub_of n) -> (forall n, In n names -> ~ In n known) ->
  (forall n, In n names -> (exists g, In g (ds_things D) /\ stateful g = false /\ g_name g = n) \/ In n skip) ->
  exists vs, register_vars seen known skip p (map (pair false) names) = Ok vs /\ NoDup (names_in vs) /\ incl (names_in vs) names /\
    forall g, In g (ds_things D) -> stateful g = false -> In (g_name g) names -> exists v, In (mk_svar v None) vs /\ registered_for p g v.
Proof.
  intros K. induction names as [|n names IH]; intros seen known skip O ND Sk Kn Cl; cbn [map].
  - exists []. split; [reflexivity|]. split; [constructor|]. split; [intros x []|]. intros g _ _ [].
  - inversion ND as [|? ? N1 N2]; subst. destruct (in_dec string_dec n skip) as [J|J].
    + destruct (IH seen known skip O N2 Sk) as (vs & E & NV & IV & RV); [intros y Hy; apply Kn; now right|intros y Hy; apply Cl; now right|].
      exists vs. split.
      { cbn [register_vars]. rewrite (not_known _ _ (Kn n (or_introl eq_refl))). cbn [negb andb]. replace (existsb (String.eqb n) skip) with true; [exact E|]. symmetry. apply existsb_exists. exists n. split; [exact J|apply String.eqb_refl]. }
      split; [exact NV|]. split; [intros y Hy; right; now apply IV|]. intros g Ig Sg [Hn|Hn]; [|now apply RV].
      exfalso. subst n. destruct (Sk _ J) as (g' & i & Ig' & Sg' & E'). destruct suit as (_ & _ & Q). destruct (Q g Ig) as (_ & _ & _ & _ & _ & Qg). exact (Qg g' i Ig' Sg' E').
    + destruct (Cl n (or_introl eq_refl)) as [(g & Ig & Sg & <-)|H]; [|contradiction].
      destruct (register_one p g seen known skip (map (pair false) names) K Ig O (Kn _ (or_introl eq_refl)) (fun _ => J)) as (s & v & O' & Vn & R & E). rewrite Sg in E. rewrite E.
      replace (match g_mem g with Some mem => sub_names (g_name g) mem | None => [] end) with (@nil string) in * by (unfold stateful in Sg; destruct (g_mem g); [discriminate|reflexivity]). rewrite app_nil_r.
      destruct (IH s (g_name g :: known) skip O' N2 Sk) as (vs & -> & NV & IV & RV); [intros y Hy [<-|H]; [contradiction|]; apply (Kn y); [now right|exact H]|intros y Hy; apply Cl; now right|].
      cbn [bind]. eexists. split; [reflexivity|]. unfold names_in in *. cbn [map sv_var]. rewrite Vn. split; [constructor; [intros H; apply N1; now apply IV|exact NV]|].
      split; [intros y [<-|Hy]; [now left|right; now apply IV]|]. intros g' Ig' Sg' [Hn|Hn].
      * rewrite <- (same_thing D suit g g' Ig Ig' Hn). exists v. split; [now left|exact R].
      * destruct (RV g' Ig' Sg' Hn) as (v' & I' & R'). exists v'. split; [now right|exact R'].
Qed.
Lemma states_registered p names prefixes : kept p -> forall seen known skip, open_to seen -> NoDup prefixes -> NoDup names ->
  (forall n, In n skip -> sub_of n) -> (forall n, In n prefixes -> ~ In n known) -> (forall n, In n names -> ~ In n known) -> (forall n, In n names -> ~ In n prefixes) ->
  (forall n, In n prefixes -> exists g, In g (ds_things D) /\ stateful g = true /\ g_name g = n) ->
  (forall n, In n names -> (exists g, In g (ds_things D) /\ stateful g = false /\ g_name g = n) \/ In n skip \/
     exists g mem, In g (ds_things D) /\ g_mem g = Some mem /\ In (g_name g) prefixes /\ In n (sub_names (g_name g) mem)) ->
  exists vs, register_vars seen known skip p (vars_of prefixes names) = Ok vs /\ NoDup (names_in vs) /\ incl (names_in vs) (prefixes ++ names) /\
    forall g, In g (ds_things D) -> In (g_name g) (if stateful g then prefixes else names) -> exists v, In (mk_svar v None) vs /\ registered_for p g v.
Proof.
  intros K. unfold vars_of. induction prefixes as [|n prefixes IH]; intros seen known skip O NP NN Sk Kp Kn Ds Pr Cl; cbn [map app].
  - destruct (fields_registered p names K seen known skip O NN Sk Kn) as (vs & E & NV & IV & RV).
    { intros n Hn. destruct (Cl n Hn) as [H|[H|(g & mem & _ & _ & [] & _)]]; auto. }
    exists vs. split; [exact E|]. split; [exact NV|]. split; [exact IV|]. intros g Ig Hg. destruct (stateful g) eqn:Sg; [destruct Hg|]. now apply RV.
  - destruct (Pr n (or_introl eq_refl)) as (g & Ig & Sg & <-). inversion NP as [|? ? N1 N2]; subst.
    destruct (register_one p g seen known skip (map (pair true) prefixes ++ map (pair false) names) K Ig O (Kp _ (or_introl eq_refl))) as (s & v & O' & Vn & R & E); [rewrite Sg; discriminate|].
    rewrite Sg in E. rewrite E. destruct (g_mem g) as [mem|] eqn:Em; [|unfold stateful in Sg; rewrite Em in Sg; discriminate].
    destruct (IH s (g_name g :: known) (skip ++ sub_names (g_name g) mem) O' N2 NN) as (vs & -> & NV & IV & RV).
    + intros y Hy. apply in_app_iff in Hy. destruct Hy as [Hy|Hy]; [now apply Sk|]. apply in_sub_names in Hy. destruct Hy as (i & _ & ->). exists g, i. auto.
    + intros y Hy [<-|H]; [contradiction|]. apply (Kp y); [now right|exact H].
    + intros y Hy [<-|H]; [apply (Ds _ Hy); now left|exact (Kn y Hy H)].
    + intros y Hy H. apply (Ds y Hy). now right.
    + intros y Hy. apply Pr. now right.
    + intros y Hy. destruct (Cl y Hy) as [H|[H|(g' & mem' & Ig' & Em' & [Hp|Hp] & Hs)]]; [now left|right; left; apply in_app_iff; now left| |right; right; eauto 10].
      right. left. apply in_app_iff. right. rewrite <- (same_thing D suit g g' Ig Ig' Hp) in Em', Hs. congruence.
    + cbn [bind]. eexists. split; [reflexivity|]. unfold names_in in *. cbn [map sv_var app]. rewrite Vn. split.
      { constructor; [|exact NV]. intros H. apply IV in H. apply in_app_iff in H. destruct H as [H|H]; [contradiction|]. apply (Ds _ H). now left. }
      split; [intros y [<-|Hy]; [now left|right; now apply IV]|]. intros g' Ig' Hn. destruct (stateful g') eqn:Sg'.
      * destruct Hn as [Hn|Hn].
        { rewrite <- (same_thing D suit g g' Ig Ig' Hn). exists v. split; [now left|exact R]. }
        { destruct (RV g' Ig') as (v' & I' & R'); [now rewrite Sg'|]. exists v'. split; [now right|exact R']. }
      * destruct (RV g' Ig') as (v' & I' & R'); [now rewrite Sg'|]. exists v'. split; [now right|exact R'].
Qed.

(** ** Processes together *)
Definition able (ps : list (proc A)) : Prop := ps <> [] /\ Forall kept ps /\
  ForallOrdPairs (fun a b : proc A => forall x, has (r_m a) x -> has (r_m b) x -> False) ps /\ (forall x, in_shape (ds_dom D) x -> exists p, In p ps /\ has (r_m p) x).
Lemma crew_able ps : crew zero junk D ps -> able ps.
Proof. intros (N & F & Dj & C). split; [exact N|]. split; [|auto]. eapply Forall_impl; [|exact F]. intros p. apply outfitted_kept. Qed.
Lemma follows_able ps ps' : Forall2 follows ps ps' -> Forall (firm junk) ps' -> able ps -> able ps'.
Proof.
  intros F2 So (N & F & Dj & C). split; [|split; [|split]].
  - intros ->. inversion F2; subst; contradiction.
  - clear - F2 So F. induction F2 as [|a b l l' T F2 IH]; [constructor|]. inversion So; inversion F; subst. constructor; [now apply (follows_kept junk D a)|auto].
  - clear - F2 Dj. induction F2 as [|a b l l' T F2 IH]; [constructor|]. inversion Dj as [|? ? D1 D2]; subst. constructor; [|auto].
    clear - T F2 D1. induction F2 as [|c d l l' T' F2 IH]; [constructor|]. inversion D1 as [|? ? D2 D3]; subst. constructor; [|auto].
    intros x Ha Hb. apply (D2 x); [now apply (steady_has (r_m a) (r_m b) x (proj1 T))|now apply (steady_has (r_m c) (r_m d) x (proj1 T'))].
  - intros x Hx. destruct (C x Hx) as (p & Im & Hm). clear - F2 Im Hm. induction F2 as [|a b l l' T F2 IH]; [destruct Im|].
    destruct Im as [->|Im]; [exists b; split; [now left|now apply (steady_has (r_m p) (r_m b) x (proj1 T))]|]. destruct (IH Im) as (p' & I' & H'). exists p'. split; [now right|exact H'].
Qed.
Definition knows (pre : list string) : Prop := forall g, In g (ds_things D) -> is_state pre (g_name g) = stateful g.
Lemma all_knows prefixes names : all_vars D prefixes names -> knows prefixes.
Proof.
  intros (_ & _ & P & _) g Ig. unfold is_state. destruct (stateful g) eqn:Sg.
  - apply existsb_exists. exists (g_name g). split; [apply P; eauto|apply String.eqb_refl].
  - apply not_known. intros H. apply P in H. destruct H as (g' & Ig' & Sg' & E). rewrite (same_thing D suit g' g Ig' Ig E) in Sg'. congruence.
Qed.
Lemma part_field pre p g : knows pre -> kept p -> In g (ds_things D) -> pt_field (part_at pre p) (g_name g) = nfield_of (r_m p) (current p g).
Proof. intros Kn K Ig. cbn [part_at pt_field]. rewrite (Kn g Ig), entry_field. destruct (current_spec p g K Ig) as (-> & _). reflexivity. Qed.
Lemma setup_ok ps prefixes names : able ps -> all_vars D prefixes names -> exists u, setup_at ps prefixes names = Ok u /\ fits plan_for u /\ su_parts u = map (part_at prefixes) ps /\ su_colls u = [].
Proof.
  intros (NE & FF & DD & CC) AV. pose proof (all_knows _ _ AV) as KN. pose proof AV as (NP & NN & P1 & P2 & P3). rewrite Forall_forall in FF. unfold setup_at.
  assert (EX : forall p, In p ps -> exists vs, register_vars [0; 0; 0] [] [] p (vars_of prefixes names) = Ok vs /\ NoDup (names_in vs) /\
    forall g, In g (ds_things D) -> exists v, In (mk_svar v None) vs /\ registered_for p g v).
  { intros p Ip. destruct (states_registered p names prefixes (FF p Ip) [0; 0; 0] [] [] open_first NP NN) as (vs & E & NV & _ & RV).
    - intros n [].
    - intros n _ [].
    - intros n _ [].
    - intros n Hn Hp. apply P1 in Hp. destruct Hp as (g & Ig & Sg & <-). destruct (P3 _ Hn) as [(g' & Ig' & Sg' & E)|(g' & mem & Ig' & Em & Hs)].
      + rewrite (same_thing D suit g' g Ig' Ig E) in Sg'. congruence.
      + apply in_sub_names in Hs. destruct Hs as (i & _ & E). destruct suit as (_ & _ & Q). destruct (Q g Ig) as (_ & _ & _ & _ & _ & Qg). apply (Qg g' i Ig'); [unfold stateful; now rewrite Em|exact E].
    - intros n Hn. now apply P1.
    - intros n Hn. destruct (P3 n Hn) as [H|(g & mem & Ig & Em & Hs)]; [now left|]. right. right. exists g, mem. split; [exact Ig|]. split; [exact Em|]. split; [|exact Hs]. apply P1. exists g. unfold stateful. rewrite Em. auto.
    - exists vs. split; [exact E|]. split; [exact NV|]. intros g Ig. apply RV; [exact Ig|]. destruct (stateful g) eqn:Sg; [apply P1; eauto|auto]. }
  destruct (mapm_ok (fun p => register_vars [0; 0; 0] [] [] p (vars_of prefixes names)) ps) as [vss EV]; [intros p Ip; destruct (EX p Ip) as (vs & E & _); eauto|].
  rewrite EV. cbn [bind]. destruct (mapm_at _ _ _ EV) as [LV HV]. destruct ps as [|p0 ps']; [contradiction|]. destruct vss as [|vs vss]; [discriminate LV|].
  destruct (HV 0%nat p0 eq_refl) as (vs' & E1 & E2). injection E1 as <-. destruct (EX p0 (or_introl eq_refl)) as (vs' & E3 & Mv & Rv). rewrite E2 in E3. apply Ok_inj in E3. subst vs'.
  set (ps := p0 :: ps') in *. eexists. split; [reflexivity|]. split; [|split; reflexivity].
  assert (PM : forall q, In q (map (part_at prefixes) ps) -> exists p, In p ps /\ kept p /\ q = part_at prefixes p).
  { intros q Iq. apply in_map_iff in Iq. destruct Iq as (p & <- & Ip). exists p. auto. }
  unfold fits. cbn [su_vars su_parts su_colls su_hidden plan_for pl_dom pl_quantities pl_colls].
  split; [exact Mv|]. split.
  { intros q Iq. apply in_map_iff in Iq. destruct Iq as (g & <- & Ig). cbn [wanted q_local q_hist q_comp q_name]. destruct suit as (_ & _ & Q). destruct (Q g Ig) as (_ & _ & LC & _ & M1 & _).
    split; [discriminate|]. split; [unfold hist_of; destruct (g_mem g) as [mem|]; cbn; intros n E; [injection E as <-; specialize (M1 mem eq_refl); lia|discriminate]|]. split; [exact LC|].
    destruct (Rv g Ig) as (v & Iv & R). exists v. split; [exact Iv|]. intros q Iq. destruct (PM q Iq) as (p & Ip & K & ->).
    cbn zeta. rewrite (part_field prefixes p g KN K Ig). destruct (current_spec p g K Ig) as (_ & I). destruct (entry_item p g _ K Ig I) as (Sn & Ec & Es & Et & Ed & _).
    split; [unfold shaped; cbn; auto|]. split; [|exact Ed]. apply (registered_any p p0 g v K); [apply FF; now left|exact Ig|exact R]. }
  split.
  { intros q Iq _. apply in_map_iff in Iq. destruct Iq as (g & <- & Ig). cbn [wanted q_name]. eapply fop_map; [|exact DD]. intros a b Ia Ib H x Ha Hb.
    rewrite (part_field prefixes a g KN (FF a Ia) Ig) in Ha. rewrite (part_field prefixes b g KN (FF b Ib) Ig) in Hb. destruct (current_spec a g (FF a Ia) Ig) as (_ & I). destruct (current_spec b g (FF b Ib) Ig) as (_ & I').
    apply (H x); [now apply (entry_item a g _ (FF a Ia) Ig I)|now apply (entry_item b g _ (FF b Ib) Ig I')]. }
  split; [discriminate|]. split; [constructor|]. split; [tauto|]. split.
  { intros q Iq. destruct (PM q Iq) as (p & _ & K & ->). exact (member_pixels junk S (r_m p) (kept_fine junk D p K)). }
  split.
  { intros a b Ia Ib. destruct (PM a Ia) as (p & _ & _ & ->). destruct (PM b Ib) as (p' & _ & _ & ->). reflexivity. }
  split.
  { eapply fop_map; [|exact DD]. intros a b Ia Ib H x Ha Hb. apply (H x); now apply (part_owns (r_m _)). }
  split; [|intros l []].
  intros x Hx. destruct (CC x Hx) as (p & Ip & Hp). exists (part_at prefixes p). split; [now apply in_map|now apply (part_owns (r_m p))].
Qed.

(** ** Memory *)
Lemma kept_like p p' g n n' : kept p -> follows p p' -> In g (ds_things D) -> In (item_at g n) (items_of g) -> In (item_at g n') (items_of g) ->
  kept p' -> like (nfield_of (r_m p) n) (nfield_of (r_m p') n').
Proof.
  intros K (T & _) Ig I I' K'. pose proof (same_field junk S (r_m p) (r_m p') (item_at g n) T (kept_fine junk D p K) (item_in D g n Ig I)) as E. cbn [item_at i_name] in E. rewrite <- E.
  destruct (kept_fine junk D p' K') as (So & _ & W). now apply (same_layout junk D (r_m p') n n' g).
Qed.
Lemma like_distributed f f' (mem : list A) : like f f' -> distributed f' mem -> distributed f mem.
Proof. intros (E1 & E2 & E3 & E4). unfold distributed. now rewrite E1, E3, E4. Qed.
Lemma wanted_entry g h : SessionSpec.entry_of (wanted g) h <-> state_of g h.
Proof. unfold SessionSpec.entry_of, state_of, wanted, hist_of. cbn [q_hist]. destruct (g_mem g) as [mem|]; cbn [option_map]; lia. Qed.
Lemma values_found pre p g h n : knows pre -> In g (ds_things D) -> field_of p g h = Ok n -> values_at p (is_state pre (g_name g)) (g_name g) h = values (r_m p) n.
Proof. intros Kn Ig E. unfold values_at. rewrite (Kn g Ig), entry_field, E. reflexivity. Qed.
Lemma follow_nth ps ps' i p' : Forall2 follows ps ps' -> nth_error ps' i = Some p' -> exists p : proc A, nth_error ps i = Some p /\ follows p p'.
Proof.
  intros F. revert i. induction F as [|a b l l' T F IH]; intros [|i] N; cbn in N; try discriminate; [injection N as <-; exists a; auto|now apply IH].
Qed.
Lemma able_kept ps i p : able ps -> nth_error ps i = Some p -> kept p.
Proof. intros (_ & F & _) N. rewrite Forall_forall in F. exact (F _ (nth_error_In _ _ N)). Qed.
Lemma memory_sized ps0 ps u pre : able ps0 -> Forall2 follows ps0 ps -> able ps -> knows pre -> su_parts u = map (part_at pre) ps0 -> sized plan_for u (memory_at pre ps).
Proof.
  intros T0 F2 T Kn EP q h Iq Eh. apply in_map_iff in Iq. destruct Iq as (g & <- & Ig). apply wanted_entry in Eh. unfold memory_at. rewrite EP, !map_length. cbn [wanted q_name q_local].
  split; [symmetry; clear - F2; induction F2; cbn; congruence|]. intros i pt mm Ep Em. rewrite nth_error_map in Ep, Em.
  destruct (nth_error ps0 i) as [p0|] eqn:N0; [|discriminate Ep]. destruct (nth_error ps i) as [p|] eqn:N; [|discriminate Em]. injection Ep as <-. injection Em as <-.
  destruct (follow_nth _ _ _ _ F2 N) as (p1 & N1 & Fo). rewrite N0 in N1. injection N1 as <-.
  pose proof (able_kept _ _ _ T0 N0) as K0. pose proof (able_kept _ _ _ T N) as K. destruct (field_found junk D p g h K Ig Eh) as (n & E & I).
  rewrite (part_field pre p0 g Kn K0 Ig). rewrite (values_found pre p g h n Kn Ig E). destruct (current_spec p0 g K0 Ig) as (_ & I0).
  apply (like_distributed _ _ _ (kept_like p0 p g _ n K0 Fo Ig I0 I K)). now apply (entry_item p g n K Ig I).
Qed.
End P.
