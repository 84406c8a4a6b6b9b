(** Pixels of initialised collections, order of registration and
    initialisation, filling of local collections, sub-point indices, names. *)
From Coq Require Import String Ascii DecimalString NArith DecimalN DecimalPos.
From Verif Require Import Base CIntModel GridModel GridSpec StridedModel UnitsModel LayoutModel LayoutSpec LayoutProofs LayoutProofs2.
From Verif Require Import FieldModel FieldSpec FieldProofs FieldProofs3 RegistryModel RegistrySpec RegistryProofs RegistryProofs2 RegistryProofs3.
Local Open Scope Z_scope.
Local Open Scope list_scope.

Section Reg.
Context {A : Type}.
Implicit Types (f : field A) (c : coll A) (r : rfield A).

(** ** A successful initialisation *)
Lemma finish_success zero c idx : snd (finish_init zero c idx) = Ok tt -> inv c ->
  let c' := fst (finish_init zero c idx) in
  c_init c' = true /\ c_npix c' = c_npix c /\ c_nbuf c' = c_nbuf c /\ c_pix c' = c_pix c /\ c_pstr c' = c_pstr c /\ c_index c' = idx /\
  c_order c' = c_order c /\ c_glob c' = c_glob c /\ c_tags c' = c_tags c /\
  forall k, lookup k (c_fields c') = option_map (fun r => set_field r (attach c' (fst (resize zero (rf_field r))))) (lookup k (c_fields c)).
Proof.
  cbn zeta. unfold finish_init. pose proof (allocate_ok zero (c_fields c)) as Ek. destruct (allocate_fields zero (c_fields c)) as [l [u|e|]]; cbn [snd fst]; try discriminate.
  intros _ I. repeat (split; [reflexivity|]). intros k. rewrite sync_fields. cbn [c_fields]. destruct (Ek l u eq_refl k) as [E _]. rewrite E.
  destruct (lookup k (c_fields c)); reflexivity.
Qed.

Lemma init_local_good zero c : c_glob c = false -> c_order c = ColMajor \/ c_order c = RowMajor -> inv c -> snd (step zero c OInitLocal) = Ok tt ->
  let c' := fst (step zero c OInitLocal) in
  c_init c' = true /\ good_pixels c' /\ c_index c' = c_index c /\ c_npix c' = Z.of_nat (length (c_index c)) /\ c_nbuf c' = c_npix c' /\
  c_pix c' = [c_npix c'].
Proof.
  intros G Ho I. cbn [step]. rewrite G. unfold init_local. destruct (c_init c) eqn:Ini; [discriminate|]. set (n := Z.of_nat (length (c_index c))).
  intros H. destruct (finish_success zero _ _ H (inv_with_pixels c n n [n] [1] I)) as (E1 & E2 & E3 & E4 & E5 & E6 & E7 & _). cbn zeta in *.
  split; [exact E1|]. split.
  - unfold good_pixels. rewrite E2, E3, E4, E5, E7. cbn. split; [exact Ho|]. pose proof (bij_single n) as B. apply bij_split in B.
    split; [apply B|]. unfold zprod, n; cbn. lia.
  - split; [exact E6|]. split; [rewrite E2; reflexivity|]. split; [rewrite E2, E3; reflexivity|]. rewrite E4, E2. reflexivity.
Qed.

Lemma init_global_facts zero c nd nsd loc pstr : inv c -> snd (init_global zero c nd nsd loc pstr) = Ok tt ->
  let n := if (length nsd =? 0)%nat then nd else nsd in let c' := fst (init_global zero c nd nsd loc pstr) in
  c_init c' = true /\ c_pix c' = n /\ c_pstr c' = pstr /\ c_npix c' = get_size n /\ get_buffer_size n pstr = Ok (c_nbuf c') /\ c_order c' = c_order c /\
  c_index c' = zrange (Z.to_nat (get_size n)) /\ (exists p, pixels_strided n loc pstr = Ok p).
Proof.
  intros I. cbn zeta. unfold init_global. set (n := if (length nsd =? 0)%nat then nd else nsd). destruct (_ <=? 0); [discriminate|]. destruct (_ <? 0); [discriminate|].
  destruct (c_init c) eqn:Ini; [discriminate|]. destruct (pixels_strided n loc pstr) as [p|e|] eqn:Ep; [|discriminate|destruct (get_buffer_size n pstr); discriminate].
  destruct (get_buffer_size n pstr) as [nb|e|] eqn:Eb; try discriminate. intros H.
  destruct (finish_success zero _ _ H (inv_with_pixels c (get_size n) nb n pstr I)) as (E1 & E2 & E3 & E4 & E5 & E6 & E7 & _). cbn zeta in *.
  rewrite E1, E2, E3, E4, E5, E6, E7. cbn. eauto 12.
Qed.

Lemma init_global_order_good zero c nd nsd loc o : c_glob c = true -> c_order c = ColMajor \/ c_order c = RowMajor -> inv c ->
  let n := if (length nsd =? 0)%nat then nd else nsd in Forall (fun x => 0 < x) n ->
  snd (step zero c (OInitGlobalOrder nd nsd loc o)) = Ok tt ->
  let c' := fst (step zero c (OInitGlobalOrder nd nsd loc o)) in
  c_init c' = true /\ good_pixels c' /\ c_pix c' = n /\ c_npix c' = zprod n /\ c_nbuf c' = zprod n /\ c_index c' = zrange (Z.to_nat (zprod n)).
Proof.
  intros G Ho I. cbn zeta. set (n := if (length nsd =? 0)%nat then nd else nsd). intros Hp. cbn [step]. rewrite G. unfold init_global_order. fold n.
  set (o' := match o with Automatic => c_order c | _ => o end). destruct (pixel_strides_for o' n) as [s|e|] eqn:Es; try discriminate. intros H.
  destruct (init_global_facts zero c nd n loc s I H) as (E1 & E2 & E3 & E4 & E5 & E6 & E7 & p & Ep). cbn zeta in *.
  assert (En : (if (length n =? 0)%nat then nd else n) = n).
  { unfold n. destruct (length nsd =? 0)%nat eqn:El; [destruct (length nd =? 0)%nat; reflexivity|now rewrite El]. }
  rewrite En in *.
  assert (GL : global_layout_order (c_order c) o n loc [1] 1 = Ok (layout_of_shape [1] 1 (c_order c) n s (get_size n) (c_nbuf (fst (init_global zero c nd n loc s))))).
  { unfold global_layout_order. fold o'. rewrite Es. cbn [bind]. unfold global_layout. rewrite Ep, E5. cbn [bind].
    unfold pixels_strided, pixels_strided_with in Ep. destruct (is_buffer_contiguous_ax _ _ _); cbn [bind] in Ep; try discriminate.
    destruct (negb _); [discriminate|]. destruct (negb _); [discriminate|]. apply Ok_inj in Ep. subst p. reflexivity. }
  assert (P1 : Forall (fun x : Z => 0 < x) [1]) by (repeat constructor).
  destruct (global_order_dense _ _ _ _ _ _ _ GL Hp P1 ltac:(vm_compute; reflexivity) ltac:(lia) Ho) as ((_ & B) & B1 & B2 & _).
  cbn [layout_of_shape l_nbuf l_npix l_pix l_pstr] in *. rewrite E1, E2, E4, E7. rewrite B1, B2. split; [reflexivity|]. split; [|auto].
  unfold good_pixels. rewrite E6, E2, E3, E4, B1, B2. split; [exact Ho|]. rewrite B1 in B. apply bij_split in B. split; [apply B|]. pose proof (zprod_pos _ Hp). lia.
Qed.

(** ** Registering before or after initialisation *)
Lemma attach_resize zero c' f : sees c' (mk_field (f_lay f) (f_glob f) (c_init c') (f_cur f) (f_pad f) (f_vals f) (f_cap f) (f_gen f) (f_ptr f)) ->
  attach c' (fst (resize zero f)) = fst (resize zero (mk_field (f_lay f) (f_glob f) (c_init c') (f_cur f) (f_pad f) (f_vals f) (f_cap f) (f_gen f) (f_ptr f))).
Proof.
  unfold sees. cbn [f_lay f_glob f_init]. intros (S1 & S2 & S3 & S4 & S5 & S6 & _). unfold resize, has_nsub. cbn [f_lay f_glob f_init f_cur f_pad f_vals f_cap f_gen f_ptr].
  assert (E : forall cu p v ca g pt, attach c' (mk_field (f_lay f) (f_glob f) (f_init f) cu p v ca g pt) = mk_field (f_lay f) (f_glob f) (c_init c') cu p v ca g pt).
  { intros. unfold attach; cbn. rewrite <- S1, <- S2, <- S3, <- S4, <- S5, <- S6. destruct (f_lay f); reflexivity. }
  destruct (negb _); cbn [fst]; [destruct f; apply E|]. destruct (_ && _); cbn [fst]; [apply E|]. destruct (_ <? 0); cbn [fst]; apply E.
Qed.

Lemma option_map_ext {X Y} (g h : X -> Y) o : (forall x, o = Some x -> g x = h x) -> option_map g o = option_map h o.
Proof. destruct o; cbn; intros H; [f_equal; auto|reflexivity]. Qed.

Lemma register_then_finish zero c name ty comp tag u allow a b p q idx : inv c -> c_init c = false -> lookup name (c_fields c) = None ->
  sub_pts_of c tag <> unknown -> 0 <= sub_pts_of c tag * b * comp_nb comp ->
  snd (finish_init zero (with_pixels c a b p q) idx) = Ok tt ->
  let c1 := fst (register_field zero c name ty comp tag u allow) in
  let x := finish_init zero (with_pixels c1 a b p q) idx in
  let y := register_field zero (fst (finish_init zero (with_pixels c a b p q) idx)) name ty comp tag u allow in
  snd x = Ok tt /\ snd y = Ok tt /\ (forall k, get_field (fst x) k = get_field (fst y) k) /\
  same_pixels (fst x) (fst y) /\ c_tags (fst x) = c_tags (fst y).
Proof.
  intros I Ini L Nu Sz H. cbn zeta.
  assert (T : touch_tag c tag = c).
  { unfold touch_tag. unfold sub_pts_of in Nu. destruct (tag_number c tag); [reflexivity|congruence]. }
  set (r0 := mk_rfield tag u ty (new_field (mk_layout (comp_shape comp) (comp_nb comp) (sub_pts_of c tag) (c_order c) (c_pix c) (c_pstr c) (c_npix c) (c_nbuf c)) (c_glob c) false : field A)).
  assert (E1 : fst (register_field zero c name ty comp tag u allow) = with_fields c (insert name r0 (c_fields c))).
  { unfold register_field. rewrite L, T, Ini. reflexivity. }
  rewrite E1. set (c1 := with_fields c (insert name r0 (c_fields c))).
  assert (I1 : inv c1) by (unfold c1; rewrite <- E1; now apply inv_register).
  pose proof (inv_with_pixels c a b p q I) as Ip. pose proof (inv_with_pixels c1 a b p q I1) as Ip1.
  set (P := with_pixels c a b p q) in *. set (P1 := with_pixels c1 a b p q) in *.
  assert (LP : forall k, lookup k (c_fields P) = option_map (fun r => set_field r (attach P (rf_field r))) (lookup k (c_fields c)))
    by (intros k; unfold P, with_pixels; rewrite sync_fields; reflexivity).
  assert (LP1 : forall k, lookup k (c_fields P1) = if String.eqb k name then Some (set_field r0 (attach P (rf_field r0))) else lookup k (c_fields P)).
  { intros k. unfold P1, with_pixels. rewrite sync_fields. cbn [c_fields c1 with_fields]. rewrite lookup_insert, LP. destruct (String.eqb k name); reflexivity. }
  assert (Hx : snd (finish_init zero P1 idx) = Ok tt).
  { apply finish_iff; [exact Ip1|]. pose proof (proj1 (finish_iff zero P idx Ip) H) as Al. intros k r. rewrite LP1. destruct (String.eqb k name).
    - intros E; injection E as <-. unfold allocatable. cbn. split; [exact Nu|]. split; [now left|]. right. rewrite Z.add_0_r. exact Sz.
    - intros E. apply (Al k r E). }
  split; [exact Hx|].
  destruct (finish_success zero P idx H Ip) as (F1 & F2 & F3 & F4 & F5 & F6 & F7 & F8 & F9 & F10). cbn zeta in *.
  destruct (finish_success zero P1 idx Hx Ip1) as (G1 & G2 & G3 & G4 & G5 & G6 & G7 & G8 & G9 & G10). cbn zeta in *.
  set (d := fst (finish_init zero P idx)) in *. set (d1 := fst (finish_init zero P1 idx)) in *.
  assert (Ld : lookup name (c_fields d) = None) by (rewrite F10, LP, L; reflexivity).
  assert (Sd : sub_pts_of d tag = sub_pts_of c tag) by (apply sub_pts_same; rewrite F9; reflexivity).
  assert (Td : touch_tag d tag = d).
  { unfold touch_tag. unfold sub_pts_of in Sd, Nu. destruct (tag_number d tag); [reflexivity|congruence]. }
  unfold register_field. rewrite Ld, Td, F1, Sd. set (g := new_field _ _ true : field A).
  assert (Rg : snd (resize zero g) = Ok tt).
  { apply resize_succeeds; unfold g; cbn; [exact Nu|]. rewrite F3, Z.add_0_r. exact Sz. }
  assert (Ad : forall f, attach d1 f = attach d f).
  { intros f. unfold attach. rewrite G1, G2, G3, G4, G5, G7, G8, F1, F2, F3, F4, F5, F7, F8. reflexivity. }
  destruct (resize zero g) as [g' og] eqn:Eg. cbn [snd] in Rg. subst og. split; [reflexivity|]. cbn [fst]. split; [|split].
  - intros k. unfold get_field. cbn [with_fields c_fields]. rewrite G10, LP1, lookup_insert, F10. destruct (String.eqb_spec k name) as [->|Nk].
    + cbn [option_map]. f_equal. f_equal. unfold set_field; cbn [rf_tag rf_unit rf_type rf_field r0]. f_equal. rewrite Ad.
      rewrite attach_resize.
      * rewrite F1. assert (Eg' : fst (resize zero g) = g') by now rewrite Eg. rewrite <- Eg'. f_equal. f_equal. unfold g, new_field, attach; cbn.
        rewrite F2, F3, F4, F5, F7, F8. reflexivity.
      * unfold sees; cbn. rewrite F2, F3, F4, F5, F7, F8. cbn. auto 10.
    + destruct (lookup k (c_fields P)) as [rk|]; cbn [option_map]; [|reflexivity]. now rewrite Ad.
  - unfold same_pixels. cbn. rewrite G1, G2, G3, G4, G5, G6, F1, F2, F3, F4, F5, F6. cbn. auto 10.
  - cbn. rewrite G9, F9. reflexivity.
Qed.

(** ** Filling a local collection *)
Definition added (h : list (op A)) : list Z := flat_map (fun o => match o with OAddPixel i => [i] | _ => [] end) h.
Definition pushed (name : string) (h : list (op A)) : list (list A) :=
  flat_map (fun o => match o with OPush n v => if String.eqb n name then [v] else [] | _ => [] end) h.
(** Operations that may occur while a field is being filled. *)
Definition filling (name : string) (nbc : Z) (o : op A) : Prop :=
  match o with
  | OPush n v => n = name -> len v = nbc
  | OPop n | OSetPad n _ | OPushSingle n _ | OReshape n _ | OReshapeTag n _ _ | OWrite n _ _ => n <> name
  | OInitLocal | OInitGlobal _ _ _ _ | OInitGlobalOrder _ _ _ _ => False
  | _ => True
  end.

Lemma filling_keeps_entry zero c o name r : inv c -> get_field c name = Ok r -> l_nsub (f_lay (rf_field r)) <> unknown ->
  filling name (l_nbc (f_lay (rf_field r))) o -> (forall v, o <> OPush name v) -> get_field (fst (step zero c o)) name = Ok r.
Proof.
  intros I G Nu F Np. destruct (addressed o) as [n|] eqn:Ad.
  - destruct (String.eqb_spec name n) as [<-|N]; [|rewrite (step_isolated zero c o name n Ad N); exact G].
    destruct o; cbn [addressed filling] in *; try discriminate; injection Ad as ->; try congruence; cbn [step].
    destruct (register_existing zero c name ty comp tag u allow_existing r G) as [-> _]. exact G.
  - destruct o; cbn [addressed filling] in *; try discriminate; try contradiction; cbn [step].
    + destruct (set_nb_cases c tag n) as [(_ & -> & _)|(Hn & Ht & E)]; [exact G|]. rewrite E. unfold get_field in *. cbn [fst with_fields c_fields].
      rewrite lookup_map_fields. destruct (lookup name (c_fields c)) as [r0|] eqn:L; [|discriminate]. apply Ok_inj in G; subst r0. cbn [option_map].
      destruct (String.eqb_spec (rf_tag r) tag) as [Et|]; [|reflexivity]. f_equal. destruct (proj2 I _ _ L) as [_ Ns]. rewrite Et in Ns. unfold sub_pts_of in Ns.
      destruct Ht as [Ht|Ht]; rewrite Ht in Ns; [congruence|]. unfold set_nsub, set_field, with_lay. rewrite <- Ns.
      destruct r as [t u y [l ? ? ? ? ? ? ? ?]]; destruct l; reflexivity.
    + destruct (c_glob c); [exact G|]. unfold add_pixel. destruct (c_init c); exact G.
Qed.

Lemma filling_run zero name h : forall c r, inv c -> c_glob c = false -> c_init c = false -> get_field c name = Ok r -> 0 < l_nsub (f_lay (rf_field r)) ->
  Forall (filling name (l_nbc (f_lay (rf_field r)))) h ->
  let c' := run zero c h in
  c_init c' = false /\ c_glob c' = false /\ c_order c' = c_order c /\ c_index c' = c_index c ++ added h /\
  exists r', get_field c' name = Ok r' /\ rf_tag r' = rf_tag r /\ pushes (rf_field r) (pushed name h) = Ok (rf_field r').
Proof.
  cbn zeta. unfold run. induction h as [|o h IH]; intros c r I Gl Ini G Ns F; cbn [fold_left added pushed flat_map].
  - rewrite app_nil_r. repeat (split; [assumption || reflexivity|]). exists r. auto.
  - apply Forall_cons_iff in F. destruct F as [Fo F].
    assert (S : c_init (fst (step zero c o)) = false /\ c_glob (fst (step zero c o)) = false /\ c_order (fst (step zero c o)) = c_order c /\
              c_index (fst (step zero c o)) = c_index c ++ match o with OAddPixel i => [i] | _ => [] end).
    { destruct o; try (match goal with |- context [step zero c ?o] => pose proof (step_quiet zero c o) as Q end;
        destruct Q as (Q1 & Q2 & Q3 & _ & _ & _ & _ & Q4); [cbn in *; tauto|congruence|rewrite app_nil_r, Q1, Q2, Q3, Q4; auto]).
      cbn [step]. rewrite Gl. unfold add_pixel. rewrite Ini. cbn. auto. }
    destruct S as (S1 & S2 & S3 & S4).
    assert (X : exists r1, get_field (fst (step zero c o)) name = Ok r1 /\ rf_tag r1 = rf_tag r /\ f_lay (rf_field r1) = f_lay (rf_field r) /\
              pushes (rf_field r) (match o with OPush n v => if String.eqb n name then [v] else [] | _ => [] end) = Ok (rf_field r1)).
    { assert (Nu : l_nsub (f_lay (rf_field r)) <> unknown) by (unfold unknown; lia).
      assert (D : (exists v, o = OPush name v) \/ forall v, o <> OPush name v).
      { destruct o; try (right; congruence). destruct (String.eqb_spec name0 name) as [->|]; [left; eauto|right; congruence]. }
      destruct D as [(v & ->)|Np].
      - cbn [filling] in Fo. specialize (Fo eq_refl). rewrite String.eqb_refl. cbn [pushes].
        assert (Gf : f_glob (rf_field r) = false).
        { unfold get_field in G. destruct (lookup name (c_fields c)) eqn:L; [|discriminate]. apply Ok_inj in G; subst r0. destruct (proj2 I _ _ L) as [(_ & _ & _ & _ & _ & S6 & _) _]. congruence. }
        destruct (push_back_ok (rf_field r) v Gf Ns Fo) as (f' & E & _ & _ & El & _). rewrite E. cbn [bind].
        exists (set_field r f'). cbn [set_field rf_tag rf_field]. split; [|auto]. cbn [step]. unfold get_field in *. rewrite on_field_lookup, String.eqb_refl.
        destruct (lookup name (c_fields c)); [|discriminate]. apply Ok_inj in G; subst r0. cbn [option_map]. unfold keep. rewrite E. reflexivity.
      - exists r. split; [now apply filling_keeps_entry|]. split; [reflexivity|]. split; [reflexivity|].
        destruct o; try reflexivity. destruct (String.eqb_spec name0 name) as [->|]; [now contradiction (Np v)|reflexivity]. }
    destruct X as (r1 & X1 & X2 & X3 & X4).
    assert (Ns1 : 0 < l_nsub (f_lay (rf_field r1))) by now rewrite X3.
    rewrite <- X3 in F. destruct (IH _ r1 (step_inv zero c o I) S2 S1 X1 Ns1 F) as (Y1 & Y2 & Y3 & Y4 & r' & Y5 & Y6 & Y7).
    split; [exact Y1|]. split; [exact Y2|]. split; [congruence|]. split; [rewrite Y4, S4, <- app_assoc; reflexivity|].
    exists r'. split; [exact Y5|]. split; [congruence|]. fold (pushed name h).
    set (vs := match o with OPush n v => if String.eqb n name then [v] else [] | _ => [] end) in *. clearbody vs.
    revert X4 Y7. clear. generalize (rf_field r). induction vs as [|v vs IH]; intros f0 X4 Y7; cbn [pushes app] in *; [apply Ok_inj in X4; now subst|].
    destruct (push_back f0 v) as [f1|e|]; cbn [bind] in *; try discriminate. now apply IH.
Qed.

Lemma filled_value zero comp nsub f (vs : list (list A)) : Forall (fun x => 0 < x) comp -> zprod comp < 2 ^ 31 -> 0 < nsub ->
  Forall (fun v => len v = zprod comp) vs -> f_lay f = local_layout (Z.of_nat (length vs)) comp nsub -> f_init f = true -> f_pad f = 0 ->
  f_cur f = nsub * Z.of_nat (length vs) -> f_vals f = concat (map (fun v => concat (repeat v (Z.to_nat nsub))) vs) ->
  ready (fst (resize zero f)) /\ forall x q i, in_shape comp x -> 0 <= q < nsub -> (i < length vs)%nat ->
    value (fst (resize zero f)) (x ++ [q] ++ [Z.of_nat i]) = rd (nth i vs []) (off (running 1 comp) x).
Proof.
  intros Hc Hv Hs Fv L I P C V.
  set (es := concat (map (fun v : list A => repeat v (Z.to_nat nsub)) vs)).
  assert (Fr : Forall (fun e : list (list A) => length e = Z.to_nat nsub) (map (fun v : list A => repeat v (Z.to_nat nsub)) vs)).
  { apply Forall_forall. intros e He. apply in_map_iff in He. destruct He as (v & <- & _). apply repeat_length. }
  assert (Ees : concat (map (fun v : list A => concat (repeat v (Z.to_nat nsub))) vs) = concat es).
  { unfold es. clear. induction vs as [|v vs IH]; [reflexivity|]. cbn [map concat]. rewrite concat_app, IH. reflexivity. }
  rewrite Ees in V.
  destruct (pushed_value zero comp nsub (Z.of_nat (length vs)) f es Hc Hv Hs ltac:(lia) L I P C V) as (f' & E' & R' & _ & _ & Val).
  - apply Forall_forall. intros e He. unfold es in He. apply in_concat in He. destruct He as (l & Hl & He). apply in_map_iff in Hl.
    destruct Hl as (v & <- & Hv'). apply repeat_spec in He. subst e. rewrite Forall_forall in Fv. now apply Fv.
  - unfold es. rewrite (concat_uniform_length _ _ Fr), map_length. nia.
  - rewrite E'. cbn [fst]. split; [exact R'|]. intros x q i H1 H2 H3. rewrite Val by (assumption || lia).
    f_equal. unfold es. replace (Z.to_nat (q + nsub * Z.of_nat i)) with (i * Z.to_nat nsub + Z.to_nat q)%nat by nia.
    rewrite concat_uniform_nth by (try exact Fr; rewrite ?map_length; lia).
    rewrite (nth_indep _ [] (repeat [] (Z.to_nat nsub))) by (rewrite map_length; lia).
    rewrite (map_nth (fun v : list A => repeat v (Z.to_nat nsub))). apply repeat_nth_in. lia.
Qed.

Lemma local_fill zero c name ty comp tag u allow h nsub :
  inv c -> c_glob c = false -> c_init c = false -> c_order c = ColMajor -> c_index c = [] -> get_field c name = Err FieldCollectionError ->
  tag_number c tag = Some nsub -> 0 < nsub -> Forall (fun x => 0 < x) comp -> zprod comp < 2 ^ 31 ->
  Forall (filling name (zprod comp)) h ->
  let c1 := run zero c (ORegister name ty (inr comp) tag u allow :: h) in
  let c2 := fst (step zero c1 OInitLocal) in
  snd (step zero c1 OInitLocal) = Ok tt ->
  c_index c2 = added h /\
  (length (pushed name h) = 0%nat \/ length (pushed name h) = length (added h)) /\
  exists r, get_field c2 name = Ok r /\
    (length (pushed name h) = length (added h) -> ready (rf_field r) /\ forall x q i, in_shape comp x -> 0 <= q < nsub -> (i < length (pushed name h))%nat ->
      value (rf_field r) (x ++ [q] ++ [Z.of_nat i]) = rd (nth i (pushed name h) []) (off (running 1 comp) x)).
Proof.
  intros I Gl Ini Ord Idx Gf Tg Ns Fc Lc Fh. cbn zeta. cbn [run fold_left]. fold (run zero (fst (step zero c (ORegister name ty (inr comp) tag u allow))) h).
  assert (L : lookup name (c_fields c) = None) by (unfold get_field in Gf; destruct (lookup name (c_fields c)); [discriminate|reflexivity]).
  pose proof (nb_from_shape_exact comp Fc Lc) as Nb.
  assert (Tt : touch_tag c tag = c) by (unfold touch_tag; now rewrite Tg).
  assert (Sp : sub_pts_of c tag = nsub) by (unfold sub_pts_of; now rewrite Tg).
  set (f0 := new_field (mk_layout comp (get_nb_from_shape comp) nsub ColMajor (c_pix c) (c_pstr c) (c_npix c) (c_nbuf c)) false false : field A).
  set (c0 := fst (step zero c (ORegister name ty (inr comp) tag u allow))).
  assert (E0 : c0 = with_fields c (insert name (mk_rfield tag u ty f0) (c_fields c))).
  { unfold c0; cbn [step]. unfold register_field. rewrite L, Tt, Sp, Ini, Ord, Gl. reflexivity. }
  assert (I0 : inv c0) by (unfold c0; now apply step_inv).
  assert (G0 : get_field c0 name = Ok (mk_rfield tag u ty f0)) by (rewrite E0; unfold get_field; cbn [with_fields c_fields]; now rewrite lookup_insert_same).
  assert (Fh' : Forall (filling name (l_nbc (f_lay (rf_field (mk_rfield tag u ty f0))))) h) by (cbn; now rewrite Nb).
  destruct (filling_run zero name h c0 _ I0 ltac:(rewrite E0; exact Gl) ltac:(rewrite E0; exact Ini) G0 Ns Fh') as (R1 & R2 & R3 & R4 & r1 & R5 & R6 & R7).
  cbn zeta in *. set (c1 := run zero c0 h) in *. cbn [rf_field rf_tag] in R7.
  assert (Ix : c_index c1 = added h) by (rewrite R4, E0; cbn [with_fields c_index]; now rewrite Idx).
  assert (I1 : inv c1) by (unfold c1; now apply run_inv).
  assert (Fv : Forall (fun v => len v = l_nbc (f_lay f0)) (pushed name h)).
  { apply Forall_forall. intros v Hv. unfold pushed in Hv. apply in_flat_map in Hv. destruct Hv as (o & Ho & Hv). rewrite Forall_forall in Fh'. specialize (Fh' o Ho).
    destruct o; try contradiction. destruct (String.eqb_spec name0 name); [|contradiction]. destruct Hv as [<-|[]]. cbn [filling rf_field] in Fh'. auto. }
  destruct (pushes_ok (pushed name h) f0 eq_refl Ns Fv) as (f1 & P1 & P2 & P3 & P4 & P5 & P6 & P7). rewrite R7 in P1. apply Ok_inj in P1. subst f1.
  cbn [step]. rewrite R2. unfold init_local. rewrite R1, Ix. set (n := Z.of_nat (length (added h))). intros Hok.
  pose proof (inv_with_pixels c1 n n [n] [1] I1) as Ip.
  destruct (finish_success zero _ _ Hok Ip) as (F1 & F2 & F3 & F4 & F5 & F6 & F7 & F8 & F9 & F10). cbn zeta in *.
  pose proof (proj1 (finish_iff zero _ _ Ip) Hok name) as Al. split; [exact F6|].
  unfold get_field in R5. destruct (lookup name (c_fields c1)) as [rr|] eqn:L1; [|discriminate]. apply Ok_inj in R5; subst rr.
  assert (LP : lookup name (c_fields (with_pixels c1 n n [n] [1])) = Some (set_field r1 (attach (with_pixels c1 n n [n] [1]) (rf_field r1))))
    by (unfold with_pixels; rewrite sync_fields; cbn [c_fields]; rewrite L1; reflexivity).
  specialize (Al _ LP). destruct Al as (_ & Cu & _). cbn in Cu. rewrite P4 in Cu. cbn in Cu. rewrite P3 in Cu. cbn in Cu.
  split; [clear -Cu Ns; unfold n in Cu; nia|].
  eexists. split; [unfold get_field; rewrite F10, LP; cbn [option_map]; reflexivity|]. cbn [rf_field set_field].
  intros Le.
  set (P := with_pixels c1 n n [n] [1]) in *. set (d := fst (finish_init zero P (added h))) in *.
  assert (Od : c_order c1 = ColMajor) by (rewrite R3, E0; exact Ord).
  assert (El : f_lay (attach P (rf_field r1)) = local_layout n comp nsub).
  { unfold attach. cbn [f_lay]. rewrite P4. unfold f0, P; cbn. rewrite Od. reflexivity. }
  rewrite attach_resize.
  - rewrite F1. apply filled_value; auto.
    + cbn in Fv. now rewrite Nb in Fv.
    + cbn [f_lay]. rewrite El, Le. reflexivity.
  - unfold sees. cbn [f_lay f_glob f_init]. rewrite El. cbn. rewrite F2, F3, F4, F5, F7, F8. cbn. auto 10.
Qed.

(** ** Sub-point indices *)
Definition sub_pt_list (pix : list Z) (s : nat) : list Z := concat (map (fun p => map (fun q => p * Z.of_nat s + q) (zrange s)) pix).

Lemma sub_pt_uniform pix s : Forall (fun e => length e = s) (map (fun p => map (fun q => p * Z.of_nat s + q) (zrange s)) pix).
Proof. apply Forall_forall. intros e H. apply in_map_iff in H. destruct H as (p & <- & _). rewrite map_length. apply zrange_length. Qed.

Lemma sub_pt_length pix s : length (sub_pt_list pix s) = (length pix * s)%nat.
Proof. unfold sub_pt_list. rewrite (concat_uniform_length _ _ (sub_pt_uniform pix s)), map_length. reflexivity. Qed.

Lemma zrange_nth n k d : (k < n)%nat -> nth k (zrange n) d = Z.of_nat k.
Proof.
  intros H. unfold zrange. rewrite (nth_indep _ d (Z.of_nat 0)) by (rewrite map_length, seq_length; lia). rewrite map_nth, seq_nth by lia. reflexivity.
Qed.

Lemma sub_pt_nth pix s k q d : (k < length pix)%nat -> (q < s)%nat -> nth (k * s + q) (sub_pt_list pix s) d = nth k pix 0 * Z.of_nat s + Z.of_nat q.
Proof.
  intros Hk Hq. unfold sub_pt_list. rewrite (concat_uniform_nth _ s) by (try apply sub_pt_uniform; rewrite ?map_length; lia).
  rewrite (nth_indep _ [] (map (fun q => 0 * Z.of_nat s + q) (zrange s))) by (rewrite map_length; lia).
  rewrite (map_nth (fun p => map (fun q => p * Z.of_nat s + q) (zrange s))).
  rewrite (nth_indep _ d (nth k pix 0 * Z.of_nat s + 0)) by (rewrite map_length, zrange_length; lia).
  rewrite (map_nth (fun q => nth k pix 0 * Z.of_nat s + q)), zrange_nth by lia. reflexivity.
Qed.

Lemma skipn_nth {X} (l : list X) n d : (n < length l)%nat -> skipn n l = nth n l d :: skipn (S n) l.
Proof. revert n; induction l as [|x l IH]; intros n H; cbn in H; [lia|]. destruct n; [reflexivity|]. cbn [skipn nth]. rewrite (IH n) by lia. destruct l; reflexivity. Qed.

Lemma index_loop_ok pix s fuel : (0 < s)%nat -> forall k q, (k < length pix)%nat /\ (q < s)%nat \/ k = length pix /\ q = 0%nat ->
  (length pix * s - (k * s + q) <= fuel)%nat ->
  index_loop fuel pix (Z.of_nat s) (k, Z.of_nat q) = Ok (skipn (k * s + q) (sub_pt_list pix s)).
Proof.
  intros Hs. assert (End_ : forall k, k = length pix -> skipn (k * s + 0) (sub_pt_list pix s) = []).
  { intros k ->. rewrite Nat.add_0_r, <- sub_pt_length. apply skipn_all. }
  induction fuel as [|fuel IH]; intros k q C Hf; cbn [index_loop fst snd].
  - destruct C as [[C1 C2]|[-> ->]]; [exfalso; clear -C1 C2 Hf; nia|]. rewrite Nat.eqb_refl. cbn [andb Z.eqb]. now rewrite End_.
  - destruct C as [[C1 C2]|[-> ->]]; [|rewrite Nat.eqb_refl; cbn [andb Z.eqb]; now rewrite End_].
    destruct (Nat.eqb_spec k (length pix)) as [|_]; [lia|]. cbn [andb].
    unfold index_deref. rewrite (nth_error_nth' pix 0 C1). cbn [bind]. unfold index_next.
    destruct (Z.eqb_spec (Z.of_nat s) 0) as [|_]; [lia|]. cbn [bind].
    assert (N : S (k * s + q) = (k * s + S q)%nat) by lia.
    rewrite (skipn_nth _ (k * s + q) 0) by (rewrite sub_pt_length; clear -C1 C2; nia). rewrite sub_pt_nth by assumption. rewrite N.
    replace (Z.of_nat q + 1) with (Z.of_nat (S q)) by lia.
    destruct (Nat.eq_dec (S q) s) as [Es|Ns].
    + assert (R : Z.rem (Z.of_nat (S q)) (Z.of_nat s) = 0) by (rewrite Es; apply Z.rem_same; lia). rewrite R. cbn [Z.eqb].
      change 0 with (Z.of_nat 0) at 1. rewrite IH; [cbn [bind]; do 2 f_equal; f_equal; lia| |].
      * destruct (Nat.eq_dec (S k) (length pix)); [now right|left; lia].
      * clear -Hf C1 Es. nia.
    + assert (R : Z.rem (Z.of_nat (S q)) (Z.of_nat s) = Z.of_nat (S q)) by (apply Z.rem_small; lia). rewrite R.
      destruct (Z.eqb_spec (Z.of_nat (S q)) 0); [lia|]. rewrite IH; [reflexivity|left; lia|lia].
Qed.

Lemma sub_pt_NoDup pix s : NoDup pix -> NoDup (sub_pt_list pix s).
Proof.
  intros D. apply (NoDup_nth _ 0). intros i j Hi Hj E. rewrite sub_pt_length in Hi, Hj.
  assert (S : s <> 0%nat) by (intros ->; lia).
  assert (Bi : (i / s < length pix)%nat) by (apply Nat.div_lt_upper_bound; lia).
  assert (Bj : (j / s < length pix)%nat) by (apply Nat.div_lt_upper_bound; lia).
  pose proof (Nat.mod_upper_bound i s S) as Mi. pose proof (Nat.mod_upper_bound j s S) as Mj.
  pose proof (Nat.div_mod i s S) as Di. pose proof (Nat.div_mod j s S) as Dj.
  rewrite Di, Dj in E. rewrite !(Nat.mul_comm s) in E. rewrite !sub_pt_nth in E by assumption.
  remember (nth (i / s) pix 0) as x eqn:Ex. remember (nth (j / s) pix 0) as y eqn:Ey.
  assert (Exy : x = y /\ Z.of_nat (i mod s) = Z.of_nat (j mod s)).
  { apply (Z.div_mod_unique (Z.of_nat s)); [left; lia|left; lia|]. lia. }
  destruct Exy as [Exy Em]. subst x y. rewrite (NoDup_nth pix 0) in D. apply D in Exy; [|assumption|assumption].
  rewrite Di, Dj, Exy. lia.
Qed.

(** An initialised collection has as many pixel indices as pixels. *)
Definition counted c : Prop := c_init c = true -> c_npix c = Z.of_nat (length (c_index c)).

Lemma step_counted zero c o : inv c -> counted c -> (match o with OInitGlobal nd nsd _ _ | OInitGlobalOrder nd nsd _ _ => Forall (fun x => 0 <= x) (if (length nsd =? 0)%nat then nd else nsd) | _ => True end) ->
  counted (fst (step zero c o)).
Proof.
  intros I C P. destruct (c_init c) eqn:Ini.
  - intros _. pose proof (init_forever zero [o] c Ini) as (S1 & S2 & S3 & S4 & S5 & S6). cbn [run fold_left] in *. rewrite S2, S6. now apply C.
  - destruct o; try (match goal with |- context [step zero c ?o] => pose proof (step_quiet zero c o) as Q end; destruct Q as (_ & _ & Q & _); [solve [cbn; auto]|congruence|intros X; rewrite Q in X; congruence]).
    + cbn [step]. destruct (c_glob c); [intros X; cbn in X; congruence|]. unfold add_pixel. rewrite Ini. intros X; cbn in X; congruence.
    + cbn [step]. destruct (c_glob c); [intros X; cbn in X; congruence|]. unfold init_local. rewrite Ini.
      destruct (finish_init zero (with_pixels c _ _ _ _) (c_index c)) as [c' o] eqn:E. cbn [fst].
      assert (X : o = Ok tt \/ c_init c' = false).
      { unfold finish_init in E. destruct (allocate_fields zero _) as [l [u|e|]]; injection E as <- <-; [now left|right; exact Ini|right; exact Ini]. }
      destruct X as [->|X]; [|intros Y; congruence].
      match goal with E : finish_init zero ?P ?i = _ |- _ => destruct (finish_success zero P i) as (_ & F2 & _ & _ & _ & F6 & _); [now rewrite E|now apply inv_with_pixels|] end.
      cbn zeta in *. rewrite E in *. cbn [fst] in *. intros _. rewrite F2, F6. reflexivity.
    + cbn [step]. destruct (c_glob c); [|intros X; cbn in X; congruence].
      pose proof (init_global_facts zero c nd nsd loc pstr I) as G. destruct (init_global zero c nd nsd loc pstr) as [c' o] eqn:E. cbn [fst snd] in *.
      assert (X : o = Ok tt \/ c_init c' = false).
      { unfold init_global in E. destruct (_ <=? 0); [injection E as <- <-; now right|]. destruct (_ <? 0); [injection E as <- <-; now right|]. rewrite Ini in E.
        destruct (pixels_strided _ _ _); [|injection E as <- <-; now right|]; destruct (get_buffer_size _ _); try (injection E as <- <-; now right).
        unfold finish_init in E. destruct (allocate_fields zero _) as [l [u|e|]]; injection E as <- <-; [now left|right; exact Ini|right; exact Ini]. }
      destruct X as [->|X]; [|intros Y; congruence]. destruct (G eq_refl) as (_ & _ & _ & G1 & _ & _ & G2 & _). cbn zeta in *. intros _. rewrite G1, G2, zrange_length.
      rewrite get_size_zprod, Z2Nat.id; [reflexivity|]. now apply zprod_nonneg.
    + cbn [step]. destruct (c_glob c); [|intros X; cbn in X; congruence]. unfold init_global_order. set (n := if (length nsd =? 0)%nat then nd else nsd) in *.
      destruct (pixel_strides_for _ n) as [s|e|]; try (intros X; cbn in X; congruence).
      assert (En : (if (length n =? 0)%nat then nd else n) = n).
      { unfold n. destruct (length nsd =? 0)%nat eqn:El; [destruct (length nd =? 0)%nat; reflexivity|now rewrite El]. }
      pose proof (init_global_facts zero c nd n loc s I) as G. rewrite En in G. destruct (init_global zero c nd n loc s) as [c' o'] eqn:E. cbn [fst snd] in *.
      assert (X : o' = Ok tt \/ c_init c' = false).
      { unfold init_global in E. destruct (_ <=? 0); [injection E as <- <-; now right|]. destruct (_ <? 0); [injection E as <- <-; now right|]. rewrite Ini in E.
        destruct (pixels_strided _ _ _); [|injection E as <- <-; now right|]; destruct (get_buffer_size _ _); try (injection E as <- <-; now right).
        unfold finish_init in E. destruct (allocate_fields zero _) as [l [u|e|]]; injection E as <- <-; [now left|right; exact Ini|right; exact Ini]. }
      destruct X as [->|X]; [|intros Y; congruence]. destruct (G eq_refl) as (_ & _ & _ & G1 & _ & _ & G2 & _). cbn zeta in *. intros _. rewrite G1, G2, zrange_length.
      rewrite get_size_zprod, Z2Nat.id; [reflexivity|]. now apply zprod_nonneg.
Qed.
End Reg.

(** ** Generated names *)
Lemma to_uint_nonnil n : N.to_uint n <> Decimal.Nil.
Proof. destruct n; cbn; [discriminate|]. apply DecimalPos.Unsigned.to_uint_nonnil. Qed.

Lemma decimal_inj a b : decimal a = decimal b -> a = b.
Proof.
  unfold decimal. intros E. apply (f_equal NilZero.uint_of_string) in E. rewrite !NilZero.usu in E by apply to_uint_nonnil.
  injection E as E. now apply DecimalN.Unsigned.to_uint_inj.
Qed.

Lemma generated_name_inj a b : generated_name a = generated_name b -> a = b.
Proof. unfold generated_name. cbn. intros E. injection E as E. now apply decimal_inj. Qed.

Lemma unique_name_aux exists_ : forall fuel ns counter, (length ns < fuel)%nat ->
  (forall n, (counter <= n)%N -> exists_ (generated_name n) = true -> In (generated_name n) ns) ->
  exists name next, unique_name_loop fuel exists_ counter = Some (name, next) /\ exists_ name = false /\ (counter < next)%N /\
    exists n, name = generated_name n /\ next = N.succ n /\ (counter <= n)%N.
Proof.
  induction fuel as [|fuel IH]; intros ns counter L H; [lia|]. cbn [unique_name_loop].
  destruct (exists_ (generated_name counter)) eqn:E.
  - assert (I : In (generated_name counter) ns) by (apply H; [lia|exact E]).
    destruct (IH (remove String.string_dec (generated_name counter) ns) (N.succ counter)) as (name & next & E1 & E2 & E3 & n & E4 & E5 & E6).
    + pose proof (remove_length_lt String.string_dec ns (generated_name counter) I). lia.
    + intros n Hn Ex. apply in_in_remove; [|apply H; [lia|exact Ex]]. intros X. apply generated_name_inj in X. lia.
    + exists name, next. split; [exact E1|]. split; [exact E2|]. split; [lia|]. exists n. split; [exact E4|]. split; [exact E5|]. lia.
  - exists (generated_name counter), (N.succ counter). split; [reflexivity|]. split; [exact E|]. split; [lia|]. exists counter. split; [reflexivity|]. split; [reflexivity|lia].
Qed.
