(** Lemmas on local collections with arrays. *)
From Coq Require Import String Sorting.Sorted.
From Verif Require Import Base CIntModel GridModel GridSpec StridedModel UnitsModel LayoutModel LayoutSpec LayoutProofs FieldModel FieldSpec.
From Verif Require Import RegistryModel RegistrySpec RegistryProofs RegistryProofs2 RegistryProofs3 RegistryProofs4 NumpyModel NumpySpec NumpyProofs6 PyArrayModel PyArraySpec PyArrayProofs.
From Verif Require Import FrameModel NetCDFModel NetCDFSpec NetCDFProofs5 SessionModel StackModel StackSpec StackProofs MixModel MixSpec.
Local Open Scope Z_scope.
Local Open Scope list_scope.

(** ** Numbers of pixels *)
Lemma zsum_cons a l : zsum (a :: l) = a + zsum l.
Proof. reflexivity. Qed.
Lemma off_cons s ss x xs : off (s :: ss) (x :: xs) = s * x + off ss xs.
Proof. unfold off. cbn [length seq map]. rewrite zsum_cons. f_equal. rewrite <- seq_shift, map_map. reflexivity. Qed.
Lemma off_nil_l x : off [] x = 0.
Proof. reflexivity. Qed.
Lemma off_nil_r s : off s [] = 0.
Proof. unfold off. rewrite (map_ext _ (fun _ => 0)) by (intros i; unfold zn; destruct i; cbn; lia). induction (seq 0 (length s)) as [|i l IH]; [reflexivity|]. cbn [map]. rewrite zsum_cons. lia. Qed.
Lemma off_running n : forall k x, off (running k n) x = k * number n x.
Proof.
  induction n as [|d n IH]; intros k x; cbn [running number]; [rewrite off_nil_l; lia|]. destruct x as [|y x]; [rewrite off_nil_r; lia|]. rewrite off_cons, IH. lia.
Qed.

Section P.
Context {A : Type} (zero junk : A).
Implicit Types (m : member A).

(** ** Initialised local collections *)
Definition local_shape (c : coll A) : Prop :=
  c_glob c = false /\ c_order c = ColMajor /\
  (c_init c = true -> let n := Z.of_nat (length (c_index c)) in c_pix c = [n] /\ c_pstr c = [1] /\ c_npix c = n /\ c_nbuf c = n).
Lemma local_coll (c c' : coll A) : same_coll c c' -> local_shape c -> local_shape c'.
Proof. intros (E1 & E2 & E3 & E4 & E5 & E6 & E7 & E8) (H1 & H2 & H3). unfold local_shape. rewrite E1, E2, E3, E4, E5, E6, E7, E8. auto. Qed.
Lemma with_pixels_facts (c : coll A) a b p q : c_glob (with_pixels c a b p q) = c_glob c /\ c_order (with_pixels c a b p q) = c_order c /\ c_npix (with_pixels c a b p q) = a /\ c_nbuf (with_pixels c a b p q) = b /\ c_pix (with_pixels c a b p q) = p /\ c_pstr (with_pixels c a b p q) = q.
Proof. repeat split. Qed.
Lemma local_shape_step (c : coll A) o : from_python o = true -> inv c -> local_shape c -> local_shape (fst (RegistryModel.step zero c o)).
Proof.
  intros F I H. pose proof H as (G & O & _).
  destruct o; try discriminate F; try (eapply local_coll; [apply step_quiet; [solve [cbn; auto]|congruence]|exact H]); cbn [RegistryModel.step]; rewrite G; [| |exact H..].
  - unfold add_pixel. destruct (c_init c) eqn:Ini; [exact H|]. cbn [fst]. split; [exact G|]. split; [exact O|]. cbn [c_init]. congruence.
  - unfold init_local. destruct (c_init c) eqn:Ini; [exact H|]. set (n := Z.of_nat (length (c_index c))).
    destruct (snd (finish_init zero (with_pixels c n n [n] [1]) (c_index c))) as [[]|e|] eqn:E.
    + destruct (finish_success zero _ _ E (inv_with_pixels c n n [n] [1] I)) as (E1 & E2 & E3 & E4 & E5 & E6 & E7 & E8 & _). cbn zeta in *.
      destruct (with_pixels_facts c n n [n] [1]) as (W1 & W2 & W3 & W4 & W5 & W6). unfold local_shape. rewrite E2, E3, E4, E5, E6, E7, E8, W1, W2, W3, W4, W5, W6.
      split; [exact G|]. split; [exact O|]. intros _. cbn zeta. auto.
    + unfold finish_init in *. destruct (allocate_fields zero _) as [l [u|e'|]]; cbn [fst snd] in *; try discriminate E; (split; [exact G|split; [exact O|]]); cbn; congruence.
    + unfold finish_init in *. destruct (allocate_fields zero _) as [l [u|e'|]]; cbn [fst snd] in *; try discriminate E; (split; [exact G|split; [exact O|]]); cbn; congruence.
Qed.
Lemma local_shape_pystep (s : PyArrayModel.session A) k : inv (p_coll s) -> local_shape (p_coll s) -> local_shape (p_coll (fst (pystep zero junk s k))).
Proof.
  intros I H. destruct (pystep_coll zero junk s k) as [(o & _ & F & ->)|[(name & opf & _ & ->)| ->]]; [now apply local_shape_step| |exact H].
  eapply local_coll; [apply on_field_coll|exact H].
Qed.
Lemma local_shape_run l : forall s : PyArrayModel.session A, sinv true (p_coll s) -> Forall orderly l -> local_shape (p_coll s) -> local_shape (p_coll (pyrun zero junk s l)).
Proof.
  induction l as [|k l IH]; intros s Si O H; [exact H|]. inversion O as [|? ? O1 O2]; subst.
  change (pyrun zero junk s (k :: l)) with (pyrun zero junk (fst (pystep zero junk s k)) l). apply IH; [now apply pystep_sinv|exact O2|]. apply local_shape_pystep; [apply Si|exact H].
Qed.
Lemma begun_local_facts l m : begun_local zero junk l m -> sinv true (p_coll (m_py m)) /\ local_shape (p_coll (m_py m)).
Proof.
  intros (tags & c0 & N & T & O & ->). rewrite member_run_py. cbn [m_py]. split.
  - apply (program_sinv zero junk false l). exists ColMajor, tags, c0. auto 10.
  - apply local_shape_run; [cbn; eapply new_coll_sinv; eassumption|exact O|]. cbn [p_coll]. clear - N. unfold new_coll in N.
    set (c := mk_coll _ _ _ _ _ _ _ _ _ _) in N. assert (H : local_shape c) by (split; [reflexivity|]; split; [reflexivity|]; cbn; discriminate).
    assert (SC : same_coll c (fst (set_nb_sub_pts c pixel_tag 1))) by (unfold set_nb_sub_pts; repeat (match goal with |- context [match ?x with _ => _ end] => destruct x end); unfold same_coll; cbn; auto 10).
    destruct (set_nb_sub_pts c pixel_tag 1) as [c' [u|e|]]; try discriminate N. apply Ok_inj in N. subst c'. exact (local_coll _ _ SC H).
Qed.
Lemma local_good (c : coll A) : local_shape c -> c_init c = true -> good_pixels c.
Proof.
  intros (_ & O & H) Ini. destruct (H Ini) as (E1 & E2 & E3 & E4). cbn zeta in *. unfold good_pixels. rewrite E1, E2, E3, E4. split; [now left|].
  pose proof (bij_single (Z.of_nat (length (c_index c)))) as B. apply bij_split in B. split; [apply B|]. unfold zprod; cbn. lia.
Qed.

(** ** Nothing but values changed *)
Definition calm m m' : Prop := steady m m' /\ same_coll (p_coll (m_py m)) (p_coll (m_py m')).
Lemma calm_refl m : calm m m.
Proof. split; [apply steady_refl|]. unfold same_coll. auto 10. Qed.
Lemma calm_trans a b c : calm a b -> calm b c -> calm a c.
Proof.
  intros (S1 & C1) (S2 & C2). split; [exact (steady_trans _ _ _ S1 S2)|]. destruct C1 as (? & ? & ? & ? & ? & ? & ? & ?). destruct C2 as (? & ? & ? & ? & ? & ? & ? & ?).
  unfold same_coll. repeat split; congruence.
Qed.
Lemma calm_ids m m' : calm m m' -> pixel_ids m' = pixel_ids m.
Proof. intros (_ & C). unfold pixel_ids. apply C. Qed.
Lemma member_calm m k : sound junk m -> orderly k -> sound junk (fst (member_step zero junk m k)) /\ calm m (fst (member_step zero junk m k)).
Proof.
  intros So O. destruct (member_steady zero junk m k So O) as (S1 & T1). split; [exact S1|]. split; [exact T1|].
  destruct So as (_ & Ini & _). destruct (step_member zero junk m k Ini O) as (-> & _). now apply pystep_pixels.
Qed.
Lemma put_calm m n v : sound junk m -> sound junk (put_values m n v) /\ calm m (put_values m n v).
Proof.
  intros So. destruct (put_steady junk m n v So) as (S1 & T1). split; [exact S1|]. split; [exact T1|].
  destruct (put_coll m n v) as (-> & _). cbn [p_coll]. apply on_field_coll.
Qed.
Lemma member_run_calm l : forall m, sound junk m -> Forall orderly l -> sound junk (member_run zero junk m l) /\ calm m (member_run zero junk m l).
Proof.
  induction l as [|k l IH]; intros m So O; [split; [exact So|apply calm_refl]|]. inversion O as [|? ? O1 O2]; subst.
  change (member_run zero junk m (k :: l)) with (member_run zero junk (fst (member_step zero junk m k)) l).
  destruct (member_calm m k So O1) as (S1 & T1). destruct (IH _ S1 O2) as (S2 & T2). split; [exact S2|]. exact (calm_trans _ _ _ T1 T2).
Qed.

(** ** Arrays *)
Definition carries m (q : item) : Prop := exists r, lookup (i_name q) (c_fields (p_coll (m_py m))) = Some r /\
  l_comp (f_lay (rf_field r)) = i_comp q /\ l_nsub (f_lay (rf_field r)) = i_nsub q /\ rf_tag r = i_tag q /\ rf_type r <> Complex.
Lemma calm_carries m m' q : calm m m' -> carries m q -> carries m' q.
Proof.
  intros ((_ & _ & _ & F & _) & _) (r & L & E1 & E2 & E3 & E4). destruct (F _ _ L) as (r' & L' & (P1 & P2 & _ & _ & _ & P6)). exists r'. rewrite P1, P2, P6. auto.
Qed.
Lemma calm_field m m' q : calm m m' -> carries m q -> nfield_of m' (i_name q) = nfield_of m (i_name q).
Proof.
  intros ((D & L & B & F & _) & _) (r & Lr & _). destruct (F _ _ Lr) as (r' & Lr' & (_ & P2 & _ & _ & _ & P6)). unfold nfield_of, field_for. rewrite Lr, Lr', D, L, P2, P6. reflexivity.
Qed.
Lemma view_holds m v w q c b idx a : sound junk m -> carries m q -> nth_error (p_views (m_py m)) v = Some w -> PyArrayModel.v_name w = i_name q -> v_unit w = SubPt ->
  in_shape (i_comp q) c -> 0 <= b < i_nsub q -> in_shape (box m) idx ->
  (view_get (m_py m) v (c ++ b :: idx) = Ok a <-> holds (nf_lay (nfield_of m (i_name q))) (values m (i_name q)) c b idx a).
Proof.
  intros So (r & L & Ec & Es & _) N Vn Vu Hc Hb Hx. pose proof So as (Si & Ini & G & V). destruct (V _ _ N) as (r' & M). pose proof M as (_ & L' & _ & Ga). rewrite Vn, L in L'. injection L' as <-.
  unfold nfield_of, values. rewrite L. cbn [field_for nf_lay].
  pose proof Si as ((_ & I) & T & B & H). destruct (I _ _ L) as [Se Ns]. destruct (H _ _ L) as [(A1 & A2 & A3 & A4) St]. destruct (St Ini) as (Np & P & Ln & Cu).
  destruct Se as (S1 & S2 & S3 & S4 & S5 & S6 & S7). destruct G as (Go & Ge & Gn & Gb).
  assert (Sn : sane (f_lay (rf_field r))) by (unfold sane; rewrite S1, S2, S3, S5; auto 10).
  destruct (get_array_fields _ _ _ _ _ Ga) as (_ & _ & r' & L' & _ & Wr). rewrite Vn, L in L'. injection L' as <-.
  assert (Hv : viewable (f_lay (rf_field r)) SubPt) by (split; [exact Sn|exact Logic.I]).
  destruct (wrap_view _ SubPt _ Hv (size_pos (rf_type r))) as (s & ar & Es' & W' & Sh & It & Ls & _ & Of). rewrite Vu, W' in Wr. apply Ok_inj in Wr.
  assert (Hi : in_shape (get_shape (f_lay (rf_field r)) SubPt) (c ++ b :: idx)).
  { unfold get_shape, get_sub_pt_shape. rewrite Ec, Es, S2, <- app_assoc. apply in_shape_app. exists c, (b :: idx). split; [reflexivity|]. split; [exact Hc|].
    apply in_shape_cons. exists b, idx. auto. }
  rewrite (on_memory_get junk _ _ _ _ _ M), <- Wr, Sh. replace (index_ok _ _) with true by (symmetry; now apply index_ok_spec).
  assert (Ad : address ar (c ++ b :: idx) = off s (c ++ b :: idx)).
  { unfold address. rewrite StridedProofs.linear_index_off by (rewrite Ls, Sh; apply Hi). rewrite (Of _ Hi), It. rewrite Z.mul_comm. apply Z.quot_mul. pose proof (size_pos (rf_type r)). lia. }
  rewrite Ad. unfold holds. split.
  - intros E. exists s. auto.
  - intros (s' & E1 & E2). rewrite Es' in E1. apply Ok_inj in E1. now subst s'.
Qed.

(** ** Fields of local collections, as the file sees them *)
Definition local_kept m : Prop := sound junk m /\ local_shape (p_coll (m_py m)).
Lemma calm_kept m m' : calm m m' -> sound junk m' -> local_kept m -> local_kept m'.
Proof. intros (_ & C) So (_ & H). split; [exact So|]. exact (local_coll _ _ C H). Qed.
Lemma local_prepared t (y : player A) m : prepared_local zero junk t y m -> local_kept m /\ forall q, In q (o_items t) -> carries m q.
Proof.
  intros ((l0 & m0 & l1 & B & Ini & V & O & ->) & _ & _ & _ & F). destruct (begun_local_facts _ _ B) as (Si & LS).
  assert (S0 : sound junk m0).
  { split; [exact Si|]. split; [exact Ini|]. split; [now apply local_good|]. rewrite V. intros [|i] v H; discriminate H. }
  destruct (member_run_calm l1 m0 S0 O) as (S1 & C1). split.
  - split; [exact S1|]. destruct C1 as (_ & C). exact (local_coll _ _ C LS).
  - intros q Iq. destruct (F q Iq) as (r & E & H). exists r. split; [|exact H]. unfold get_field in E. destruct (lookup _ _) as [r0|]; [|discriminate E]. apply Ok_inj in E. congruence.
Qed.
Lemma local_item m q : local_kept m -> carries m q -> zprod (i_comp q) * i_nsub q < 2 ^ 31 ->
  let f := nfield_of m (i_name q) in let n := Z.of_nat (length (pixel_ids m)) in
  l_comp (nf_lay f) = i_comp q /\ l_nsub (nf_lay f) = i_nsub q /\ nf_tag f = i_tag q /\ box m = [n] /\ l_nbc (nf_lay f) = zprod (i_comp q) /\
  local_field f n (values m (i_name q)).
Proof.
  intros (So & (G & O & Sh)) (r & L & Ec & Es & Et & _) Lim. pose proof So as (Si & Ini & _). destruct (Sh Ini) as (E1 & E2 & E3 & E4). cbn zeta in *.
  pose proof Si as ((_ & I) & T & B & H). destruct (I _ _ L) as [Se Ns]. destruct (H _ _ L) as [(A1 & A2 & A3 & A4) St]. destruct (St Ini) as (Np & P & Ln & Cu).
  destruct Se as (S1 & S2 & S3 & S4 & S5 & S6 & S7). unfold nfield_of, values, box, pixel_ids. rewrite L. cbn [field_for nf_lay nf_tag]. set (n := Z.of_nat (length (c_index (p_coll (m_py m))))) in *.
  split; [exact Ec|]. split; [exact Es|]. split; [exact Et|]. split; [exact E1|]. split; [congruence|].
  unfold local_field. cbn [field_for nf_lay]. rewrite <- Ec, <- Es in Lim. split; [|split; [lia|split; [exact A3|split; [exact Np|split; [exact Lim|]]]]].
  - unfold local_layout, layout_of_shape. destruct (f_lay (rf_field r)) as [cc nbc ns oo pp ps np nb] eqn:EL. cbn [l_comp l_nbc l_nsub l_order l_pix l_pstr l_npix l_nbuf] in *. subst oo pp ps np nb. rewrite O, E1, E2, E3, E4. f_equal.
    rewrite A2. symmetry. apply LayoutProofs2.nb_from_shape_exact; [assumption|nia].
  - unfold len in Ln. rewrite Ln, S5, E4, A2. nia.
Qed.
End P.
