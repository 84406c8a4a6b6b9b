(** Lemmas on the processes of programs with arrays and files. *)
From Coq Require Import String.
From Verif Require Import Base CIntModel GridModel GridSpec StridedModel UnitsModel LayoutModel LayoutSpec LayoutProofs FieldModel FieldSpec.
From Verif Require Import RegistryModel RegistrySpec RegistryProofs RegistryProofs2 RegistryProofs3 NumpyModel NumpySpec NumpyProofs6 PyArrayModel PyArraySpec PyArrayProofs.
From Verif Require Import FrameModel NetCDFModel NetCDFSpec NetCDFProofs5 SessionModel StackModel StackSpec.
Local Open Scope Z_scope.
Local Open Scope list_scope.

Section P.
Context {A : Type} (zero junk : A).
Implicit Types (m : member A) (S : scheme).

(** What stays true of a process. *)
Definition with_items S m : Prop := forall q, In q (sc_items S) -> exists r,
  lookup (i_name q) (c_fields (p_coll (m_py m))) = Some r /\
  l_comp (f_lay (rf_field r)) = i_comp q /\ l_nsub (f_lay (rf_field r)) = i_nsub q /\ rf_tag r = i_tag q /\ rf_type r <> Complex.
Definition placed S m : Prop :=
  m_dom m = sc_dom S /\ length (m_loc m) = length (sc_dom S) /\ length (box m) = length (sc_dom S) /\
  (forall i, (i < length (sc_dom S))%nat -> 0 <= zn (m_loc m) i /\ 0 < zn (box m) i /\ zn (m_loc m) i + zn (box m) i <= zn (sc_dom S) i).
Definition sound m : Prop :=
  sinv true (p_coll (m_py m)) /\ c_init (p_coll (m_py m)) = true /\ good_pixels (p_coll (m_py m)) /\
  forall i v, nth_error (p_views (m_py m)) i = Some v -> exists r, on_memory junk (m_py m) i v r.
(** Nothing but values changed. *)
Definition steady m m' : Prop :=
  m_dom m' = m_dom m /\ m_loc m' = m_loc m /\ box m' = box m /\
  (forall n r, lookup n (c_fields (p_coll (m_py m))) = Some r -> exists r', lookup n (c_fields (p_coll (m_py m'))) = Some r' /\ in_place r r') /\
  (forall i v, nth_error (p_views (m_py m)) i = Some v -> nth_error (p_views (m_py m')) i = Some v).
Lemma steady_refl m : steady m m.
Proof. repeat split; eauto using in_place_refl. Qed.
Lemma steady_trans a b c : steady a b -> steady b c -> steady a c.
Proof.
  intros (D1 & L1 & B1 & F1 & V1) (D2 & L2 & B2 & F2 & V2). split; [congruence|]. split; [congruence|]. split; [congruence|]. split; [|auto].
  intros n r H. destruct (F1 n r H) as (r1 & H1 & P1). destruct (F2 n r1 H1) as (r2 & H2 & P2). exists r2. split; [exact H2|]. now apply (in_place_trans r r1).
Qed.
Lemma steady_items S m m' : steady m m' -> with_items S m -> with_items S m'.
Proof.
  intros (_ & _ & _ & F & _) W q Iq. destruct (W q Iq) as (r & L & E1 & E2 & E3 & E4). destruct (F _ _ L) as (r' & L' & (P1 & P2 & _ & _ & _ & P6)).
  exists r'. rewrite P1, P2, P6. auto.
Qed.
Lemma steady_placed S m m' : steady m m' -> placed S m -> placed S m'.
Proof. intros (D & L & B & _) (H1 & H2 & H3 & H4). unfold placed. rewrite D, L, B. auto. Qed.
Lemma steady_has m m' x : steady m m' -> (has m' x <-> has m x).
Proof. intros (_ & L & B & _). unfold has. now rewrite L, B. Qed.

(** Views. *)
Lemma new_views (s : PyArrayModel.session A) k i v : nth_error (p_views (fst (pystep zero junk s k))) i = Some v ->
  (exists v0, nth_error (p_views s) i = Some v0) \/
  (p_coll (fst (pystep zero junk s k)) = p_coll s /\ exists n u, get_array junk (p_coll s) n u = Ok v).
Proof.
  intros E. destruct k; cbn [pystep] in *.
  - left. destruct (from_python o); [|eauto]. destruct (RegistryModel.step zero (p_coll s) o). eauto.
  - destruct (get_array junk (p_coll s) name u) as [w| |] eqn:G; [|left; eauto..]. cbn [fst p_views p_coll] in *.
    destruct (Nat.lt_ge_cases i (length (p_views s))) as [H|H].
    + left. rewrite nth_error_app1 in E by exact H. eauto.
    + right. split; [reflexivity|]. rewrite nth_error_app2 in E by exact H. destruct (i - length (p_views s))%nat as [|j].
      * injection E as <-. eauto.
      * destruct j; discriminate E.
  - left. unfold view_put, get_view in E. destruct (nth_error (p_views s) i0) as [w|] eqn:Ew; [|eauto]. cbn [bind] in E.
    destruct (negb _); [eauto|]. destruct (view_memory s w) as [y| |]; [|eauto..]. destruct (v_ptr w) as [g|].
    + destruct (RegistryModel.step zero (p_coll s) _). eauto.
    + destruct (wr y _ x) as [y'| |]; [|eauto..]. cbn [fst p_views] in E.
      destruct (nth_error (p_views s) i) as [v0|] eqn:N; [eauto|]. apply nth_error_None in N. rewrite <- (upd_length (p_views s) i0 (mk_view (PyArrayModel.v_name w) (v_unit w) None (v_arr w) y')) in N.
      apply nth_error_None in N. congruence.
  - left. destruct (assign_array _ _ _ _ _). eauto.
  - left. destruct (on_field _ _ _). eauto.
Qed.

(** Calls. *)
Lemma pystep_pixels (s : PyArrayModel.session A) k : c_init (p_coll s) = true -> same_coll (p_coll s) (p_coll (fst (pystep zero junk s k))).
Proof.
  intros Ini. assert (R : same_coll (p_coll s) (p_coll s)) by (unfold same_coll; auto 10).
  destruct (pystep_coll zero junk s k) as [(o & _ & F & ->)|[(name & opf & V & ->)| ->]]; [|apply on_field_coll|exact R].
  destruct o; try (apply step_quiet; [solve [cbn; auto]|congruence]).
  - cbn [RegistryModel.step]. destruct (c_glob (p_coll s)); [exact R|]. unfold add_pixel. rewrite Ini. exact R.
  - destruct (double_init zero (p_coll s) OInitLocal Ini Logic.I) as [-> _]. exact R.
  - destruct (double_init zero (p_coll s) (OInitGlobal nd nsd loc pstr) Ini Logic.I) as [-> _]. exact R.
  - destruct (double_init zero (p_coll s) (OInitGlobalOrder nd nsd loc o) Ini Logic.I) as [-> _]. exact R.
Qed.
Lemma coll_good (c c' : coll A) : same_coll c c' -> good_pixels c -> good_pixels c'.
Proof. intros (_ & P2 & _ & P4 & P5 & P6 & P7 & _) (G1 & G2 & G3 & G4). unfold good_pixels. rewrite P2, P4, P5, P6, P7. auto. Qed.
Lemma step_member m k : c_init (p_coll (m_py m)) = true -> orderly k ->
  m_py (fst (member_step zero junk m k)) = fst (pystep zero junk (m_py m) k) /\
  m_dom (fst (member_step zero junk m k)) = m_dom m /\ m_loc (fst (member_step zero junk m k)) = m_loc m.
Proof.
  intros Ini O. unfold member_step. destruct (pystep zero junk (m_py m) k) as [s r] eqn:E. cbn [fst].
  destruct k as [o| | | |]; cbn [m_py m_dom m_loc]; auto. destruct r as [u| |]; [|destruct o; cbn; auto..].
  assert (N : ~ initialises o).
  { intros H. cbn [pystep] in E. destruct (from_python o); [|discriminate E]. destruct (double_init zero (p_coll (m_py m)) o Ini H) as [_ D].
    destruct (RegistryModel.step zero (p_coll (m_py m)) o) as [c' r']. cbn in D. injection E as _ E. subst r'. discriminate D. }
  destruct o; cbn in *; auto; tauto.
Qed.
Lemma member_steady m k : sound m -> orderly k -> sound (fst (member_step zero junk m k)) /\ steady m (fst (member_step zero junk m k)).
Proof.
  intros (Si & Ini & G & V) O. destruct (step_member m k Ini O) as (E & Ed & El). set (m' := fst (member_step zero junk m k)) in *.
  assert (Si' : sinv true (p_coll (m_py m'))) by (rewrite E; now apply pystep_sinv).
  assert (Ini' : c_init (p_coll (m_py m')) = true) by (rewrite E; now apply pystep_init).
  assert (VV : forall i v, nth_error (p_views (m_py m)) i = Some v -> exists r, on_memory junk (m_py m') i v r).
  { intros i v N. destruct (V i v N) as (r & M). destruct (on_memory_step zero junk _ k _ _ _ Si Ini M) as (r' & M' & _). rewrite E. eauto. }
  pose proof (pystep_pixels (m_py m) k Ini) as SP. rewrite <- E in SP.
  split; [split; [exact Si'|split; [exact Ini'|split]]|].
  - exact (coll_good _ _ SP G).
  - intros i v N. rewrite E in N. destruct (new_views _ _ _ _ N) as [(v0 & N0)|(C & n & u & Ga)].
    + destruct (VV i v0 N0) as (r & M). pose proof M as (N1 & _). rewrite E in N1. rewrite N in N1. injection N1 as <-. eauto.
    + destruct (get_array_fields _ _ _ _ _ Ga) as (Vn & Vu & r & L & Vp & W). exists r. rewrite E. unfold on_memory. rewrite C, Vn, Vu.
      split; [exact N|]. split; [exact L|]. split; [|exact Ga]. rewrite Vp. destruct Si as (_ & _ & _ & H). destruct (H _ _ L) as (_ & St). now destruct (St Ini) as (_ & -> & _).
  - split; [exact Ed|]. split; [exact El|]. split; [unfold box; apply SP|]. split.
    + intros n r L. rewrite E. now apply pystep_in_place.
    + intros i v N. destruct (VV i v N) as (r & (N' & _)). exact N'.
Qed.
Lemma member_run_steady l : forall m, sound m -> Forall orderly l -> sound (member_run zero junk m l) /\ steady m (member_run zero junk m l).
Proof.
  induction l as [|k l IH]; intros m So O; [split; [exact So|apply steady_refl]|]. inversion O as [|? ? O1 O2]; subst.
  change (member_run zero junk m (k :: l)) with (member_run zero junk (fst (member_step zero junk m k)) l).
  destruct (member_steady m k So O1) as (S1 & T1). destruct (IH _ S1 O2) as (S2 & T2). split; [exact S2|]. exact (steady_trans _ _ _ T1 T2).
Qed.
Lemma member_run_py l : forall m, m_py (member_run zero junk m l) = pyrun zero junk (m_py m) l.
Proof.
  induction l as [|k l IH]; intros m; [reflexivity|].
  change (member_run zero junk m (k :: l)) with (member_run zero junk (fst (member_step zero junk m k)) l).
  change (pyrun zero junk (m_py m) (k :: l)) with (pyrun zero junk (fst (pystep zero junk (m_py m) k)) l). rewrite IH. f_equal.
  unfold member_step. destruct (pystep zero junk (m_py m) k) as [s r]. cbn [fst]. destruct k as [o| | | |]; try reflexivity. destruct o, r; reflexivity.
Qed.
Lemma begun_sinv l m : begun zero junk l m -> sinv true (p_coll (m_py m)).
Proof.
  intros (order & tags & c0 & Ho & N & T & O & ->). rewrite member_run_py. apply (program_sinv zero junk true l). exists order, tags, c0. auto 10.
Qed.
Lemma prepared_sound S m : prepared zero junk S m -> sound m /\ placed S m /\ with_items S m.
Proof.
  intros ((l0 & m0 & l1 & B & Ini & V & G & O & ->) & D & L & N & R & F).
  assert (S0 : sound m0).
  { split; [exact (begun_sinv _ _ B)|]. split; [exact Ini|]. split; [exact G|]. rewrite V. intros [|i] v H; discriminate H. }
  destruct (member_run_steady l1 m0 S0 O) as (S1 & _). split; [exact S1|]. split; [unfold placed; auto|].
  intros q Iq. destruct (F q Iq) as (r & E & H). exists r. split; [|exact H]. unfold get_field in E. destruct (lookup _ _) as [r0|]; [|discriminate E]. apply Ok_inj in E. congruence.
Qed.

(** Transfers into memory. *)
Lemma put_only (v : list A) : values_only (fun f : field A => if (length v =? length (f_vals f))%nat then (with_vals f v, Ok tt) else (f, UB)).
Proof.
  intros f. destruct (Nat.eqb_spec (length v) (length (f_vals f))) as [E|E]; cbn [fst].
  - exists v. auto.
  - exists (f_vals f). now rewrite with_vals_same.
Qed.
Lemma put_coll m n v : m_py (put_values m n v) = PyArrayModel.mk_session (fst (on_field (p_coll (m_py m)) n (fun f => if (length v =? length (f_vals f))%nat then (with_vals f v, Ok tt) else (f, UB)))) (p_views (m_py m)) /\
  m_dom (put_values m n v) = m_dom m /\ m_loc (put_values m n v) = m_loc m.
Proof. unfold put_values. destruct (on_field _ _ _). auto. Qed.
Lemma put_steady m n v : sound m -> sound (put_values m n v) /\ steady m (put_values m n v).
Proof.
  intros (Si & Ini & G & V). destruct (put_coll m n v) as (E & Ed & El). set (m' := put_values m n v) in *.
  pose proof (put_only v) as PV. set (opf := fun f : field A => _) in *.
  assert (FP : forall n0 r, lookup n0 (c_fields (p_coll (m_py m))) = Some r -> exists r', lookup n0 (c_fields (p_coll (m_py m'))) = Some r' /\ in_place r r').
  { intros n0 r L. rewrite E. destruct (values_in_place (p_coll (m_py m)) n opf n0 r PV L) as (r' & L' & P & _). eauto. }
  pose proof (on_field_coll (p_coll (m_py m)) n opf) as SC.
  split; [split; [|split; [|split]]|].
  - rewrite E. now apply values_sinv.
  - rewrite E. cbn [p_coll]. destruct SC as (_ & _ & -> & _). exact Ini.
  - rewrite E. exact (coll_good _ _ SC G).
  - intros i w N. rewrite E in N. cbn [p_views] in N. destruct (V i w N) as (r & (N1 & L & P & Ga)). destruct (FP _ _ L) as (r' & L' & Q).
    exists r'. rewrite E. unfold on_memory. cbn [p_views p_coll]. split; [exact N|]. rewrite E in L'. split; [exact L'|].
    split; [pose proof Q as (_ & _ & -> & _); exact P|]. exact (get_array_in_place junk _ _ _ _ _ _ _ L L' Q Ga).
  - split; [exact Ed|]. split; [exact El|]. split; [unfold box; rewrite E; cbn [p_coll]; apply SC|]. split; [exact FP|]. intros i w N. now rewrite E.
Qed.
Lemma put_value m n v r : lookup n (c_fields (p_coll (m_py m))) = Some r -> length v = length (f_vals (rf_field r)) ->
  values (put_values m n v) n = v.
Proof.
  intros L E. unfold values. destruct (put_coll m n v) as (-> & _). cbn [p_coll]. rewrite on_field_lookup, String.eqb_refl, L.
  cbn [option_map]. rewrite (proj2 (Nat.eqb_eq _ _) E). reflexivity.
Qed.
Lemma put_other m n v n' : n' <> n -> values (put_values m n v) n' = values m n'.
Proof.
  intros E. unfold values. destruct (put_coll m n v) as (-> & _). cbn [p_coll]. rewrite on_field_lookup.
  destruct (String.eqb_spec n' n); [contradiction|]. reflexivity.
Qed.
Definition fetch (i : nat) (mem : string -> Z -> list (list A)) (names : list string) m : member A :=
  fold_left (fun m n => put_values m n (nth i (mem n 0) [])) names m.
Lemma fetch_steady i mem names : forall m, sound m -> sound (fetch i mem names m) /\ steady m (fetch i mem names m).
Proof.
  induction names as [|n names IH]; intros m So; [split; [exact So|apply steady_refl]|].
  change (fetch i mem (n :: names) m) with (fetch i mem names (put_values m n (nth i (mem n 0) []))).
  destruct (put_steady m n (nth i (mem n 0) []) So) as (S1 & T1). destruct (IH _ S1) as (S2 & T2). split; [exact S2|]. exact (steady_trans _ _ _ T1 T2).
Qed.
Lemma fetch_other i mem names n : forall m, ~ In n names -> values (fetch i mem names m) n = values m n.
Proof.
  induction names as [|n0 names IH]; intros m N; [reflexivity|].
  change (fetch i mem (n0 :: names) m) with (fetch i mem names (put_values m n0 (nth i (mem n0 0) []))).
  rewrite IH by (intros H; apply N; now right). apply put_other. intros ->. apply N. now left.
Qed.
Lemma fetch_value i mem names n : forall m r, sound m -> lookup n (c_fields (p_coll (m_py m))) = Some r ->
  length (nth i (mem n 0) []) = length (f_vals (rf_field r)) -> In n names \/ values m n = nth i (mem n 0) [] ->
  values (fetch i mem names m) n = nth i (mem n 0) [].
Proof.
  induction names as [|n0 names IH]; intros m r So L E H.
  - destruct H as [[]|H]. exact H.
  - change (fetch i mem (n0 :: names) m) with (fetch i mem names (put_values m n0 (nth i (mem n0 0) []))).
    destruct (put_steady m n0 (nth i (mem n0 0) []) So) as (S1 & (_ & _ & _ & F & _)). destruct (F _ _ L) as (r' & L' & (_ & _ & _ & _ & Q & _)).
    apply (IH _ r' S1 L'); [congruence|]. destruct (String.eqb_spec n n0) as [->|N].
    + right. now apply (put_value m n0 _ r).
    + destruct H as [[H|H]|H]; [congruence|now left|right]. now rewrite put_other.
Qed.
Lemma fetch_nth mem names ms : forall i j, nth_error (fetch_from i mem names ms) j = option_map (fetch (i + j) mem names) (nth_error ms j).
Proof.
  induction ms as [|m ms IH]; intros i [|j]; cbn [fetch_from nth_error]; try reflexivity.
  - rewrite Nat.add_0_r. reflexivity.
  - rewrite IH. now rewrite Nat.add_succ_r.
Qed.

(** ** The field of an item, as the file sees it *)
Lemma item_field S m q : sound m -> placed S m -> with_items S m -> In q (sc_items S) ->
  let f := nfield_of m (i_name q) in
  sane (nf_lay f) /\ l_comp (nf_lay f) = i_comp q /\ l_nsub (nf_lay f) = i_nsub q /\ nf_tag f = i_tag q /\ nf_dom f = sc_dom S /\ nf_loc f = m_loc m /\
  l_pix (nf_lay f) = box m /\ distributed f (values m (i_name q)) /\ (forall x, owns f x <-> has m x).
Proof.
  intros (Si & Ini & G & _) (D & Ll & Lb & R) W Iq. cbn zeta. destruct (W q Iq) as (r & L & E1 & E2 & E3 & E4). unfold nfield_of, values. rewrite L.
  cbn [field_for nf_lay nf_tag nf_dom nf_loc]. pose proof Si as ((_ & I) & T & B & H). destruct (I _ _ L) as [Se Ns]. destruct (H _ _ L) as [(A1 & A2 & A3 & A4) St].
  destruct (St Ini) as (N & P & Ln & Cu). destruct Se as (S1 & S2 & S3 & S4 & S5 & S6 & S7). destruct G as (Go & Ge & Gn & Gb).
  assert (Sn : sane (f_lay (rf_field r))) by (unfold sane; rewrite S1, S2, S3, S5; auto 10).
  split; [exact Sn|]. split; [exact E1|]. split; [exact E2|]. split; [exact E3|]. split; [exact D|]. split; [reflexivity|]. split; [exact S2|]. split.
  - unfold distributed. cbn [field_for nf_lay nf_tag nf_dom nf_loc]. split; [exact Sn|]. split; [rewrite S2, S4; exact Gn|]. rewrite S2. fold (box m). rewrite D. split; [exact Ll|]. split; [exact Lb|]. split.
    + intros i Hi. specialize (R i Hi). lia.
    + unfold len in Ln. rewrite Ln. unfold buffer_scalars. nia.
  - intros x. unfold owns, has. cbn [field_for nf_lay nf_loc]. now rewrite S2.
Qed.
(** Arrays show the memory that the file sees. *)
Lemma array_holds S m v w q c b x a : sound m -> placed S m -> with_items S m -> In q (sc_items S) ->
  nth_error (p_views (m_py m)) v = Some w -> PyArrayModel.v_name w = i_name q -> v_unit w = SubPt -> has m x -> in_shape (i_comp q) c -> 0 <= b < i_nsub q ->
  (shows m v c b x a <-> holds (nf_lay (nfield_of m (i_name q))) (values m (i_name q)) c b (shift (m_loc m) x) a).
Proof.
  intros So Pl W Iq N Vn Vu Hx Hc Hb. destruct (item_field S m q So Pl W Iq) as (Sn & Ec & Es & _ & _ & _ & Ep & _ & _).
  destruct So as (Si & Ini & G & V). destruct (V _ _ N) as (r & M). pose proof M as (_ & L & _ & Ga). rewrite Vn in L.
  unfold nfield_of, values in *. rewrite L in *. cbn [field_for nf_lay] in *.
  destruct (get_array_fields _ _ _ _ _ Ga) as (_ & _ & r' & L' & _ & Wr). rewrite Vn, L in L'. injection L' as <-.
  assert (Hv : viewable (f_lay (rf_field r)) SubPt) by (split; [exact Sn|exact Logic.I]).
  destruct (wrap_view _ SubPt _ Hv (size_pos (rf_type r))) as (s & ar & Es' & W' & Sh & It & Ls & _ & Of). rewrite Vu, W' in Wr. apply Ok_inj in Wr.
  assert (Hi : in_shape (get_shape (f_lay (rf_field r)) SubPt) (c ++ b :: shift (m_loc m) x)).
  { unfold get_shape, get_sub_pt_shape. rewrite Ec, Es, Ep, <- app_assoc. apply in_shape_app. exists c, (b :: shift (m_loc m) x). split; [reflexivity|]. split; [exact Hc|].
    apply in_shape_cons. exists b, (shift (m_loc m) x). split; [reflexivity|]. split; [exact Hb|].
    change (box m) with (l_pix (nf_lay (mk_nfield (i_name q) (i_tag q) (mk_layout [] 0 0 ColMajor (box m) [] 0 0) (sc_dom S) (m_loc m)))).
    apply (NetCDFProofs5.owns_shift (mk_nfield (i_name q) (i_tag q) (mk_layout [] 0 0 ColMajor (box m) [] 0 0) (sc_dom S) (m_loc m))); [|exact Hx].
    cbn. destruct Pl as (_ & L1 & L2 & _). congruence. }
  unfold shows. rewrite (on_memory_get junk _ _ _ _ _ M), <- Wr, Sh. replace (index_ok _ _) with true by (symmetry; now apply index_ok_spec).
  assert (Ad : address ar (c ++ b :: shift (m_loc m) x) = off s (c ++ b :: shift (m_loc m) x)).
  { unfold address. rewrite StridedProofs.linear_index_off by (rewrite Ls, Sh; apply Hi). rewrite (Of _ Hi), It. rewrite Z.mul_comm. apply Z.quot_mul. pose proof (size_pos (rf_type r)). lia. }
  rewrite Ad. unfold holds. split.
  - intros E. exists s. auto.
  - intros (s' & E1 & E2). rewrite Es' in E1. apply Ok_inj in E1. now subst s'.
Qed.

(** ** The place of a process *)
Lemma finish_pix (c : coll A) index c' : finish_init zero c index = (c', Ok tt) -> c_pix c' = c_pix c /\ c_init c' = true.
Proof. unfold finish_init. destruct (allocate_fields zero (c_fields c)) as [l [u| |]]; intros E; try discriminate E. injection E as <-. auto. Qed.
Lemma init_pix (c : coll A) nd nsd loc pstr c' : init_global zero c nd nsd loc pstr = (c', Ok tt) -> c_pix c' = (match nsd with [] => nd | _ => nsd end) /\ c_init c' = true.
Proof.
  unfold init_global. set (n := if (length nsd =? 0)%nat then nd else nsd). assert (En : n = match nsd with [] => nd | _ => nsd end) by (unfold n; destruct nsd; reflexivity).
  destruct (_ <=? 0); [discriminate|]. destruct (_ <? 0); [discriminate|]. destruct (c_init c); [discriminate|].
  destruct (pixels_strided n loc pstr); destruct (get_buffer_size n pstr); try discriminate. intros E. apply finish_pix in E. rewrite <- En. exact E.
Qed.
Lemma init_placed m nd nsd loc o m1 : member_step zero junk m (PColl o) = (m1, Ok tt) ->
  (exists pstr, o = OInitGlobal nd nsd loc pstr) \/ (exists so, o = OInitGlobalOrder nd nsd loc so) ->
  m_dom m1 = nd /\ box m1 = (match nsd with [] => nd | _ => nsd end) /\ m_loc m1 = default_loc (box m1) loc /\ c_init (p_coll (m_py m1)) = true.
Proof.
  unfold member_step. cbn [pystep]. intros E H.
  assert (K : exists c', from_python o = true /\ RegistryModel.step zero (p_coll (m_py m)) o = (c', Ok tt) /\
    m1 = mk_member (PyArrayModel.mk_session c' (p_views (m_py m))) nd (default_loc (c_pix c') loc)).
  { destruct H as [[pstr ->]|[so ->]]; cbn [from_python] in *; destruct (RegistryModel.step zero (p_coll (m_py m)) _) as [c' r]; injection E as E1 E2; subst r; cbn [p_coll] in E1; eauto. }
  destruct K as (c' & _ & Es & ->). cbn [m_dom m_loc m_py p_coll]. unfold box. cbn [m_py p_coll]. split; [reflexivity|].
  assert (I : c_pix c' = (match nsd with [] => nd | _ => nsd end) /\ c_init c' = true).
  { destruct H as [[pstr ->]|[so ->]]; cbn [RegistryModel.step] in Es; destruct (c_glob (p_coll (m_py m))); try discriminate Es; [exact (init_pix _ _ _ _ _ _ Es)|].
    unfold init_global_order in Es. set (n := if (length nsd =? 0)%nat then nd else nsd) in Es. assert (En : n = match nsd with [] => nd | _ => nsd end) by (unfold n; destruct nsd; reflexivity).
    destruct (pixel_strides_for _ n) as [s| |]; try discriminate Es. apply init_pix in Es. destruct Es as (Ep & Ei). split; [|exact Ei]. rewrite Ep, En. destruct nsd; [destruct nd; reflexivity|reflexivity]. }
  destruct I as [I1 I2]. auto.
Qed.
Lemma stays_placed l : forall m, c_init (p_coll (m_py m)) = true -> Forall orderly l ->
  m_dom (member_run zero junk m l) = m_dom m /\ m_loc (member_run zero junk m l) = m_loc m /\ box (member_run zero junk m l) = box m.
Proof.
  induction l as [|k l IH]; intros m Ini O; [auto|]. inversion O as [|? ? O1 O2]; subst.
  change (member_run zero junk m (k :: l)) with (member_run zero junk (fst (member_step zero junk m k)) l).
  destruct (step_member m k Ini O1) as (E & Ed & El). pose proof (pystep_pixels (m_py m) k Ini) as SP.
  assert (Ini' : c_init (p_coll (m_py (fst (member_step zero junk m k)))) = true) by (rewrite E; destruct SP as (_ & _ & -> & _); exact Ini).
  destruct (IH _ Ini' O2) as (D & L & B). split; [congruence|]. split; [congruence|]. rewrite B. unfold box. rewrite E. apply SP.
Qed.
End P.
