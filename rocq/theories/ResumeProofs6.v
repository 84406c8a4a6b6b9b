(** Programs that go on from a file compute the same. *)
From Coq Require Import String Sorting.Sorted.
From Verif Require Import Base CIntModel GridModel GridSpec StridedModel StridedProofs UnitsModel LayoutModel LayoutSpec LayoutProofs FieldModel FieldSpec.
From Verif Require Import RegistryModel RegistrySpec RegistryProofs RegistryProofs2 StateModel StateSpec StateProofs StateProofs2 NumpyModel NumpySpec NumpyProofs6 PyArrayModel PyArraySpec PyArrayProofs.
From Verif Require Import FrameModel CommModel NetCDFModel NetCDFSpec NetCDFProofs4 NetCDFProofs5 NetCDFProofs6 SessionModel SessionSpec SessionProofs SessionProofs5 StackModel StackSpec StackProofs StackProofs2 StackProofs3.
From Verif Require Import ResumeModel ResumeSpec ResumeProofs ResumeProofs2 ResumeProofs3 ResumeProofs4 ResumeProofs5.
Local Open Scope Z_scope.
Local Open Scope list_scope.

Lemma shift_inj loc : forall x y, length x = length loc -> length y = length loc -> shift loc x = shift loc y -> x = y.
Proof.
  induction loc as [|a loc IH]; intros [|u x] [|v y] L L' E; cbn in *; try lia; [reflexivity|]. unfold shift in *. cbn in E. injection E as E1 E2. f_equal; [lia|apply IH; try lia; exact E2].
Qed.
Lemma nth_upd_eq {X} (l : list X) i x y : nth_error l i = Some y -> nth_error (upd l i x) i = Some x.
Proof. revert i. induction l as [|a l IH]; intros [|i] H; cbn in *; try discriminate; [reflexivity|now apply IH]. Qed.
Lemma nth_upd_other {X} (l : list X) i j x : i <> j -> nth_error (upd l i x) j = nth_error l j.
Proof. revert i j. induction l as [|a l IH]; intros [|i] [|j] H; cbn; try reflexivity; [congruence|]. apply IH. congruence. Qed.

Section P.
Context {A : Type} (zero junk : A).
Implicit Types (p : proc A) (ps : list (proc A)) (s t : rstate A) (m : member A).
Variable D : design.
Hypothesis suit : suitable D.
Notation able := (able junk D).
Notation kept := (kept junk D).
Notation firm := (firm junk).
Notation tied := (tied junk D).
Notation shown := (shown zero junk).
Notation step := (rstep zero junk).
Notation alike := (alike zero junk D).

(** ** Writing to an array *)
Lemma put_stored p g n v w c b x a : kept p -> In g (ds_things D) -> In (item_at g n) (items_of g) -> nth_error (p_views (m_py (r_m p))) v = Some w -> PyArrayModel.v_name w = n -> v_unit w = SubPt ->
  has (r_m p) x -> in_shape (i_comp (g_item g)) c -> 0 <= b < i_nsub (g_item g) ->
  exists p', proc_step zero junk p (RPy (PPut v (c ++ b :: shift (m_loc (r_m p)) x) a)) = (p', Ok tt) /\ r_states p' = r_states p /\ stored_at p' n c b x a /\
    forall g' n' c' b' x' a', In g' (ds_things D) -> In (item_at g' n') (items_of g') -> has (r_m p) x' -> in_shape (i_comp (g_item g')) c' -> 0 <= b' < i_nsub (g_item g') ->
      (n' = n -> (c', b', x') <> (c, b, x)) -> (stored_at p' n' c' b' x' a' <-> stored_at p n' c' b' x' a').
Proof.
  intros K Ig I N Vn Vu Hx Hc Hb. pose proof K as ((So & _) & _). pose proof So as (Si & Ini & _ & V). destruct (V _ _ N) as (r & M). pose proof M as (_ & L & Pt & Ga). rewrite Vn in L.
  destruct (entry_item junk D p g n K Ig I) as (Sn & Ec & Es & _ & _ & _ & Ep & _ & _). destruct (entry_lookup junk D p g n K Ig I) as (r0 & L0 & _ & Ef). assert (r0 = r) by congruence. subst r0.
  assert (EL : nf_lay (nfield_of (r_m p) n) = f_lay (rf_field r)) by (rewrite Ef; reflexivity). rewrite EL in Sn, Ec, Es, Ep.
  set (idx := c ++ b :: shift (m_loc (r_m p)) x).
  assert (Hv : viewable (f_lay (rf_field r)) SubPt) by (split; [exact Sn|exact Logic.I]).
  destruct (get_array_fields _ _ _ _ _ Ga) as (_ & _ & r' & L' & _ & Wr). rewrite Vn, L in L'. injection L' as <-.
  destruct (wrap_view _ SubPt _ Hv (size_pos (rf_type r))) as (st & ar & Es' & W' & Sh & It & Ls & _ & Of). rewrite Vu, W' in Wr. apply Ok_inj in Wr.
  destruct (entry_index junk D p g n c b x K Ig I Hx Hc Hb) as (st0 & E0 & Hi & (_ & Wi & Inj)). rewrite EL in E0, Hi, Wi, Inj. fold idx in Hi. rewrite Es' in E0. apply Ok_inj in E0. subst st0.
  assert (Vv : values (r_m p) n = f_vals (rf_field r)) by (unfold values; now rewrite L). rewrite Vv in Wi. pose proof (Wi _ Hi) as B.
  assert (Ad : address (v_arr w) idx = off st idx).
  { rewrite <- Wr. unfold address. rewrite linear_index_off by (rewrite Ls, Sh; apply Hi). rewrite (Of _ Hi), It. rewrite Z.mul_comm. apply Z.quot_mul. pose proof (size_pos (rf_type r)). lia. }
  assert (Iok : index_ok (np_shape (v_arr w)) idx = true) by (apply index_ok_spec; rewrite <- Wr, Sh; exact Hi).
  set (f' := with_vals (rf_field r) (upd (f_vals (rf_field r)) (Z.to_nat (off st idx)) a)).
  set (c1 := with_fields (p_coll (m_py (r_m p))) (insert n (set_field r f') (c_fields (p_coll (m_py (r_m p)))))).
  set (m' := mk_member (PyArrayModel.mk_session c1 (p_views (m_py (r_m p)))) (m_dom (r_m p)) (m_loc (r_m p))).
  exists (mk_proc m' (r_states p)). split; [|split; [reflexivity|split]].
  - cbn [proc_step]. unfold member_step. cbn [pystep]. unfold view_put, get_view. rewrite N, Iok. cbn [negb].
    unfold view_memory. rewrite Pt. unfold get_field. rewrite Vn, L. cbn [bind]. rewrite Z.eqb_refl. rewrite Ad.
    cbn [RegistryModel.step]. unfold on_field. rewrite L. unfold keep. rewrite (wr_ok _ _ a B). cbn [bind]. reflexivity.
  - exists st. cbn [r_m]. assert (L1 : lookup n (c_fields (p_coll (m_py m'))) = Some (set_field r f')) by (cbn; apply lookup_insert_same).
    unfold nfield_of, values. rewrite L1. split; [exact Es'|]. cbn [set_field rf_field f' with_vals f_vals field_for nf_lay f_lay m' m_loc]. now apply rd_upd_same.
  - intros g' n' c' b' x' a' Ig' I' Hx' Hc' Hb' Ne. destruct (string_dec n' n) as [->|Nn].
    + assert (Eg : i_comp (g_item g') = i_comp (g_item g) /\ i_nsub (g_item g') = i_nsub (g_item g)).
      { destruct (entry_item junk D p g' n K Ig' I') as (_ & Ec' & Es1 & _). rewrite EL in Ec', Es1. split; congruence. } destruct Eg as (Eg1 & Eg2). rewrite Eg1 in Hc'. rewrite Eg2 in Hb'.
      destruct (entry_index junk D p g n c' b' x' K Ig I Hx' Hc' Hb') as (st1 & E1 & Hi' & _). rewrite EL, Es' in E1. apply Ok_inj in E1. subst st1. rewrite EL in Hi'. set (idx' := c' ++ b' :: shift (m_loc (r_m p)) x') in *.
      assert (NE : off st idx <> off st idx').
      { intros E. apply (Ne eq_refl). apply (Inj _ _ Hi Hi') in E. unfold idx, idx' in E. apply NetCDFProofs6.app_inj_len in E; [|destruct Hc, Hc'; congruence]. destruct E as (-> & E). injection E as -> E.
        destruct K as (_ & (_ & L1 & L2 & _) & _). assert (x = x') as ->; [|reflexivity]. apply (shift_inj (m_loc (r_m p))); [destruct Hx; congruence|destruct Hx'; congruence|exact E]. }
      unfold stored_at, holds. assert (L1 : lookup n (c_fields (p_coll (m_py m'))) = Some (set_field r f')) by (cbn; apply lookup_insert_same).
      cbn [r_m]. unfold nfield_of, values. rewrite L1, L. cbn [field_for nf_lay set_field rf_field f' with_vals f_lay f_vals m' m_loc]. fold idx'. pose proof (Wi _ Hi') as B'.
      split; intros (s1 & E1 & R1); rewrite Es' in E1; apply Ok_inj in E1; subst s1; exists st; (split; [exact Es'|]); [rewrite upd_other in R1 by lia; exact R1|rewrite upd_other by lia; exact R1].
    + unfold stored_at. assert (L1 : lookup n' (c_fields (p_coll (m_py m'))) = lookup n' (c_fields (p_coll (m_py (r_m p))))) by (cbn; apply lookup_insert_other; congruence).
      cbn [r_m]. unfold nfield_of, values. rewrite L1. reflexivity.
Qed.

(** ** Cycling *)
Hypothesis rot : rotating D.
Definition before (g g' : thing) (h : Z) : Z := match g_mem g with Some mem => if string_dec (g_name g') (g_name g) then if h =? 0 then mem else h - 1 else h | None => h end.
Lemma before_state g g' h : In g (ds_things D) -> In g' (ds_things D) -> state_of g' h -> state_of g' (before g g' h).
Proof.
  intros Ig Ig' H. unfold before. destruct (g_mem g) as [mem|] eqn:Em; [|exact H]. destruct (string_dec _ _) as [E|]; [|exact H]. rewrite (same_thing D suit g' g Ig' Ig E) in *. unfold state_of in *. rewrite Em in *.
  destruct (Z.eqb_spec h 0); lia.
Qed.
Definition cycle_proc (g : thing) p : proc A := fst (proc_step zero junk p (RCycle (g_name g))).
Lemma cycle_m g p : r_m (cycle_proc g p) = r_m p.
Proof.
  unfold cycle_proc. cbn [proc_step]. pose proof (cycle_coll zero p (g_name g)) as E. destruct (sstep zero (sys_of p) (SCycle (g_name g))) as [y r]. cbn [fst] in *. unfold from_sys. cbn [r_m]. exact E.
Qed.
Lemma cycle_states g p : r_states (cycle_proc g p) = y_states (fst (sstep zero (sys_of p) (SCycle (g_name g)))).
Proof. unfold cycle_proc. cbn [proc_step]. destruct (sstep zero (sys_of p) (SCycle (g_name g))) as [y r]. reflexivity. Qed.
Lemma cycle_field g g' h p : kept p -> In g (ds_things D) -> In g' (ds_things D) -> state_of g' h -> field_of (cycle_proc g p) g' h = field_of p g' (before g g' h).
Proof.
  intros K Ig Ig' H. unfold before. destruct (g_mem g) as [mem|] eqn:Em.
  - destruct (string_dec (g_name g') (g_name g)) as [E|Nn].
    + rewrite (same_thing D suit g' g Ig' Ig E) in *. clear g' Ig' E. unfold field_of, state_of in *. rewrite Em in *. pose proof (rot g mem Ig Em) as P2.
      destruct (idx_at junk D p g mem h K Ig Em H) as (s & t & v & L & Es & M1 & Ht & _ & _ & _ & Ei). subst mem.
      pose proof (sstep_state zero (sys_of p) (SCycle (g_name g)) (g_name g) s L) as L'. cbv beta iota in L'. rewrite String.eqb_refl in L'. rewrite <- cycle_states in L'.
      assert (N : forall k, 0 <= k <= s_mem s -> nth_error (s_idx s) (Z.to_nat k) = Some ((t - k) mod (s_mem s + 1))).
      { intros k Hk. rewrite (idx_rotated s t (Z.to_nat k) Ei M1 P2) by lia. f_equal. f_equal. lia. }
      assert (N' : forall k, 0 <= k <= s_mem s -> nth_error (s_idx (cycled s)) (Z.to_nat k) = Some ((t - k + 1) mod (s_mem s + 1))).
      { intros k Hk. cbn [cycled s_idx]. rewrite nth_error_map, (N k Hk). cbn [option_map]. now rewrite Zplus_mod_idemp_l. }
      rewrite (name_at_spec (sys_of (cycle_proc g p)) (g_name g) (cycled s) _ _ L' (N' h H)).
      destruct (Z.eqb_spec h 0) as [->|Nz].
      * rewrite (name_at_spec (sys_of p) (g_name g) s _ _ L (N (s_mem s) ltac:(lia))). do 3 f_equal. replace (t - 0 + 1) with (t - s_mem s + 1 * (s_mem s + 1)) by lia. apply Z_mod_plus_full.
      * rewrite (name_at_spec (sys_of p) (g_name g) s _ _ L (N (h - 1) ltac:(lia))). do 4 f_equal. lia.
    + unfold field_of. destruct (g_mem g') as [mem'|] eqn:Em'; [|reflexivity]. unfold name_at, get_state. cbn [sys_of y_states]. rewrite cycle_states. cbn [sstep]. destruct (lookup (g_name g) (y_states (sys_of p))); [|reflexivity]. cbn [fst y_states]. rewrite lookup_insert_other by congruence. reflexivity.
  - unfold field_of. destruct (g_mem g') as [mem'|] eqn:Em'; [|reflexivity]. assert (Nn : g_name g' <> g_name g) by (intros E; rewrite (same_thing D suit g' g Ig' Ig E) in Em'; congruence).
    unfold name_at, get_state. cbn [sys_of y_states]. rewrite cycle_states. cbn [sstep]. destruct (lookup (g_name g) (y_states (sys_of p))); [|reflexivity]. cbn [fst y_states]. rewrite lookup_insert_other by congruence. reflexivity.
Qed.
Lemma cycle_all g : forall s, fold_left (fun s i => fst (step s (QProc i (RCycle (g_name g))))) (seq 0 (length (r_procs s))) s = mk_rstate (map (cycle_proc g) (r_procs s)) (r_file s) (r_open s) (r_prefixes s).
Proof.
  intros s. assert (G : forall done rest fl op pre, fold_left (fun s i => fst (step s (QProc i (RCycle (g_name g))))) (seq (length done) (length rest)) (mk_rstate (done ++ rest) fl op pre) = mk_rstate (done ++ map (cycle_proc g) rest) fl op pre).
  { intros done rest. revert done. induction rest as [|p rest IH]; intros done fl op pre; [reflexivity|]. cbn [length seq fold_left].
    assert (E : fst (step (mk_rstate (done ++ p :: rest) fl op pre) (QProc (length done) (RCycle (g_name g)))) = mk_rstate ((done ++ [cycle_proc g p]) ++ rest) fl op pre).
    { cbn [rstep r_procs]. rewrite nth_error_app2, Nat.sub_diag by lia. cbn [nth_error]. unfold cycle_proc. destruct (proc_step zero junk p (RCycle (g_name g))) as [p' r]. cbn [fst r_file r_open r_prefixes]. f_equal.
      clear. induction done as [|d done IH]; cbn; [reflexivity|]. now rewrite IH. }
    rewrite E. set (p' := cycle_proc g p) in *.
    specialize (IH (done ++ [p']) fl op pre). rewrite app_length in IH. cbn [length] in IH. rewrite Nat.add_1_r in IH. rewrite IH. rewrite <- app_assoc. reflexivity. }
  specialize (G [] (r_procs s) (r_file s) (r_open s) (r_prefixes s)). cbn [app length] in G. destruct s. exact G.
Qed.

(** ** Steps of a computation *)
Lemma put_shown s g h c b x a i v p : able (r_procs s) -> place D g h c b x -> array_on s i v g h p -> has (r_m p) x ->
  let s' := fst (step s (QProc i (RPy (PPut v (c ++ b :: shift (m_loc (r_m p)) x) a)))) in
  able (r_procs s') -> (forall a', shown s' g h c b x a' <-> a' = a) /\
  forall g' h' c' b' x' a', place D g' h' c' b' x' -> (g', h', c', b', x') <> (g, h, c, b, x) -> (shown s' g' h' c' b' x' a' <-> shown s g' h' c' b' x' a').
Proof.
  intros T Pl (N & n & w & E & Nw & Vn & Vu) Hx s' T'. pose proof (able_kept junk D _ _ _ T N) as K. pose proof Pl as (Ig & Hh & Hc & Hb & _).
  destruct (field_found junk D p g h K Ig Hh) as (n0 & E0 & I). assert (n0 = n) by congruence. subst n0.
  destruct (put_stored p g n v w c b x a K Ig I Nw Vn Vu Hx Hc Hb) as (p' & Ep & Es & Ha & Ho).
  assert (Es' : r_procs s' = upd (r_procs s) i p') by (unfold s'; cbn [rstep]; rewrite N, Ep; reflexivity).
  assert (N' : nth_error (r_procs s') i = Some p') by (rewrite Es'; now apply (nth_upd_eq _ _ _ p)). pose proof (able_kept junk D _ _ _ T' N') as K'.
  pose proof (proc_firm zero junk p (RPy (PPut v (c ++ b :: shift (m_loc (r_m p)) x) a)) (proj1 K) Logic.I) as (_ & Fo). rewrite Ep in Fo. cbn [fst] in Fo.
  assert (Ff : forall g' h', field_of p' g' h' = field_of p g' h') by (intros g' h'; rewrite <- !entry_field; now apply entry_states).
  split.
  - intros a'. rewrite (shown_stored zero junk D s' g h c b x a' i p' n T' Pl N'); [|now apply (steady_has (r_m p) (r_m p') x (proj1 Fo))|now rewrite Ff]. split; [intros H; exact (stored_fun _ _ _ _ _ _ _ H Ha)|intros ->; exact Ha].
  - intros g' h' c' b' x' a' Pl' Ne. pose proof Pl' as (Ig' & Hh' & Hc' & Hb' & Hx'). destruct (home junk D _ x' T Hx') as (j & q & Nj & Kq & Xq). destruct (field_found junk D q g' h' Kq Ig' Hh') as (n' & E' & I').
    rewrite (shown_stored zero junk D s g' h' c' b' x' a' j q n' T Pl' Nj Xq E'). destruct (Nat.eq_dec i j) as [<-|Nij].
    + assert (q = p) by congruence. subst q. rewrite (shown_stored zero junk D s' g' h' c' b' x' a' i p' n' T' Pl' N'); [|now apply (steady_has (r_m p) (r_m p') x' (proj1 Fo))|now rewrite Ff].
      apply (Ho g' n' c' b' x' a'); auto. intros -> Ec. apply Ne. injection Ec as -> -> ->. assert (g' = g) by exact (field_thing junk D suit p p g' g h' h n K K Ig' Ig E' E). subst g'.
      assert (h' = h) as -> by (apply (distinct junk D p g h' h rot K Ig Hh' Hh); congruence). reflexivity.
    + assert (Nj' : nth_error (r_procs s') j = Some q) by (rewrite Es'; rewrite nth_upd_other by exact Nij; exact Nj). rewrite (shown_stored zero junk D s' g' h' c' b' x' a' j q n' T' Pl' Nj' Xq E'). reflexivity.
Qed.
Lemma cycle_shown s g : able (r_procs s) -> In g (ds_things D) ->
  let s' := mk_rstate (map (cycle_proc g) (r_procs s)) (r_file s) (r_open s) (r_prefixes s) in able (r_procs s') ->
  forall g' h' c' b' x' a', place D g' h' c' b' x' -> (shown s' g' h' c' b' x' a' <-> shown s g' (before g g' h') c' b' x' a').
Proof.
  intros T Ig s' T' g' h' c' b' x' a' Pl'. pose proof Pl' as (Ig' & Hh' & Hc' & Hb' & Hx'). destruct (home junk D _ x' T Hx') as (j & q & Nj & Kq & Xq).
  pose proof (before_state g g' h' Ig Ig' Hh') as Hbh. destruct (field_found junk D q g' _ Kq Ig' Hbh) as (n' & E' & I').
  assert (Pl2 : place D g' (before g g' h') c' b' x') by (unfold place; auto). rewrite (shown_stored zero junk D s g' _ c' b' x' a' j q n' T Pl2 Nj Xq E').
  assert (Nj' : nth_error (r_procs s') j = Some (cycle_proc g q)) by (cbn [s' r_procs]; now apply map_nth_error).
  rewrite (shown_stored zero junk D s' g' h' c' b' x' a' j (cycle_proc g q) n' T' Pl' Nj'); [|now rewrite cycle_m|now rewrite (cycle_field g g' h' q Kq Ig Ig' Hh')]. unfold stored_at. now rewrite cycle_m.
Qed.
Lemma cycle_able s g : able (r_procs s) -> able (map (cycle_proc g) (r_procs s)).
Proof.
  intros T. pose proof (able_firm junk D _ T) as F. apply (follows_able junk D (r_procs s)); [| |exact T].
  - clear - F. induction F as [|p l Hp F IH]; cbn [map]; constructor; [|exact IH]. now apply (proc_firm zero junk p (RCycle (g_name g))).
  - clear - F. induction F as [|p l Hp F IH]; cbn [map]; constructor; [|exact IH]. now apply (proc_firm zero junk p (RCycle (g_name g))).
Qed.
Lemma cycle_tied s g : tied s -> tied (mk_rstate (map (cycle_proc g) (r_procs s)) (r_file s) (r_open s) (r_prefixes s)).
Proof.
  intros (T & B). split; cbn [r_procs r_file r_open r_prefixes]; [now apply cycle_able|]. destruct (r_file s) as [f|]; [|exact B]. intros O. apply (bound_follows junk D f f _ (r_procs s)); [now apply B| |reflexivity].
  pose proof (able_firm junk D _ T) as F. clear - F. induction F as [|p l Hp F IH]; cbn [map]; constructor; [|exact IH]. now apply (proc_firm zero junk p (RCycle (g_name g))).
Qed.

(** One step. *)
Inductive does s : action A -> rstate A -> Prop :=
| does_put g h c b x a i v p : place D g h c b x -> array_on s i v g h p -> has (r_m p) x -> does s (Put g h c b x a) (fst (step s (QProc i (RPy (PPut v (c ++ b :: shift (m_loc (r_m p)) x) a)))))
| does_cycle g : In g (ds_things D) -> stateful g = true -> does s (Cycle g) (mk_rstate (map (cycle_proc g) (r_procs s)) (r_file s) (r_open s) (r_prefixes s)).
Lemma does_tied s act s' : tied s -> does s act s' -> tied s'.
Proof. intros T H. destruct H; [apply (step_tied zero junk D suit); [exact T|exact Logic.I]|now apply cycle_tied]. Qed.
Lemma alike_refl s : alike s s.
Proof. intros g h c b x a _. reflexivity. Qed.
Lemma alike_sym s t : alike s t -> alike t s.
Proof. intros H g h c b x a Pl. symmetry. now apply H. Qed.
Lemma alike_trans s t u : alike s t -> alike t u -> alike s u.
Proof. intros H K g h c b x a Pl. rewrite (H g h c b x a Pl). now apply K. Qed.
Lemma same_place g (h : Z) (c : list Z) (b : Z) (x : list Z) g' h' c' b' x' : In g (ds_things D) -> In g' (ds_things D) -> {(g', h', c', b', x') = (g, h, c, b, x)} + {(g', h', c', b', x') <> (g, h, c, b, x)}.
Proof.
  intros Ig Ig'. destruct (string_dec (g_name g') (g_name g)) as [E|E]; [|right; intros H; injection H as -> -> -> -> ->; now apply E].
  destruct (Z.eq_dec h' h) as [->|]; [|right; congruence]. destruct (list_eq_dec Z.eq_dec c' c) as [->|]; [|right; congruence].
  destruct (Z.eq_dec b' b) as [->|]; [|right; congruence]. destruct (list_eq_dec Z.eq_dec x' x) as [->|]; [|right; congruence].
  left. now rewrite (same_thing D suit g' g Ig' Ig E).
Qed.
Lemma does_alike s t act s' t' : tied s -> tied t -> alike s t -> does s act s' -> does t act t' -> alike s' t'.
Proof.
  intros Ts Tt H Ds Dt. pose proof (does_tied _ _ _ Ts Ds) as Ts'. pose proof (does_tied _ _ _ Tt Dt) as Tt'. destruct Ds as [g h c b x a i v p Pl Ar Hx|g Ig Sg].
  - inversion Dt as [g0 h0 c0 b0 x0 a0 j w q Pl' Ar' Hx'|]; subst. destruct (put_shown s g h c b x a i v p (proj1 Ts) Pl Ar Hx (proj1 Ts')) as (S1 & S2). destruct (put_shown t g h c b x a j w q (proj1 Tt) Pl Ar' Hx' (proj1 Tt')) as (T1 & T2).
    intros g' h' c' b' x' a' Pl2. destruct (same_place g h c b x g' h' c' b' x' (proj1 Pl) (proj1 Pl2)) as [E|E].
    + injection E as -> -> -> -> ->. now rewrite S1, T1.
    + rewrite (S2 _ _ _ _ _ a' Pl2 E), (T2 _ _ _ _ _ a' Pl2 E). now apply H.
  - inversion Dt as [|g0 Ig' Sg']; subst. intros g' h' c' b' x' a' Pl2. rewrite (cycle_shown s g (proj1 Ts) Ig (proj1 Ts') _ _ _ _ _ a' Pl2), (cycle_shown t g (proj1 Tt) Ig (proj1 Tt') _ _ _ _ _ a' Pl2).
    apply H. destruct Pl2 as (Ig2 & Hh & Pl2). split; [exact Ig2|]. split; [now apply before_state|exact Pl2].
Qed.
Lemma computes_nil s l s' : computes zero junk D s l s' -> l = [] -> alike s s'.
Proof.
  intros R. induction R as [s| | |s k acts s' Pr Al R IH]; intros E; try discriminate E; [apply alike_refl|]. apply (alike_trans _ (fst (step s k))); auto.
Qed.
Lemma computes_cons s l s' : computes zero junk D s l s' -> tied s -> forall act acts, l = act :: acts -> exists s1 s2, tied s1 /\ alike s s1 /\ does s1 act s2 /\ computes zero junk D s2 acts s'.
Proof.
  intros R. induction R as [s|s g h c b x a i v p acts0 s' Pl Ar Hx R _|s g acts0 s' Ig Sg R _|s k acts0 s' Pr Al R IH]; intros T act acts E; [discriminate E|injection E as <- <-..|].
  - exists s. eexists. split; [exact T|]. split; [apply alike_refl|]. split; [eapply does_put; eassumption|exact R].
  - exists s. eexists. split; [exact T|]. split; [apply alike_refl|]. split; [now apply does_cycle|]. rewrite <- cycle_all. exact R.
  - subst acts0. destruct (IH (step_tied zero junk D suit s k T Pr) act acts eq_refl) as (s1 & s2 & T1 & A1 & D1 & R1). exists s1, s2. split; [exact T1|]. split; [exact (alike_trans _ _ _ Al A1)|]. auto.
Qed.
Theorem computes_alike acts : forall s t s' t', tied s -> tied t -> alike s t -> computes zero junk D s acts s' -> computes zero junk D t acts t' -> alike s' t'.
Proof.
  induction acts as [|act acts IH]; intros s t s' t' Ts Tt H Rs Rt.
  - apply (alike_trans _ s); [apply alike_sym; exact (computes_nil _ _ _ Rs eq_refl)|]. apply (alike_trans _ t); [exact H|exact (computes_nil _ _ _ Rt eq_refl)].
  - destruct (computes_cons _ _ _ Rs Ts _ _ eq_refl) as (s1 & s2 & Ts1 & As & Ds & Rs2). destruct (computes_cons _ _ _ Rt Tt _ _ eq_refl) as (t1 & t2 & Tt1 & At & Dt & Rt2).
    apply (IH s2 t2); auto; [exact (does_tied _ _ _ Ts1 Ds)|exact (does_tied _ _ _ Tt1 Dt)|]. apply (does_alike s1 t1 act); auto.
    apply (alike_trans _ s); [now apply alike_sym|]. now apply (alike_trans _ t).
Qed.

(** ** Calls that change no values *)
Lemma alike_procs s t : r_procs t = r_procs s -> alike s t.
Proof. intros E g h c b x a _. unfold ResumeSpec.shown. now rewrite E. Qed.
Lemma viewing p n u : let m' := fst (member_step zero junk (r_m p) (PArray n u)) in p_coll (m_py m') = p_coll (m_py (r_m p)) /\ m_loc m' = m_loc (r_m p) /\ m_dom m' = m_dom (r_m p).
Proof. unfold member_step. cbn [pystep]. destruct (get_array junk _ n u); cbn; auto. Qed.
Lemma alike_view s i p n u : able (r_procs s) -> nth_error (r_procs s) i = Some p ->
  let s' := mk_rstate (upd (r_procs s) i (mk_proc (fst (member_step zero junk (r_m p) (PArray n u))) (r_states p))) (r_file s) (r_open s) (r_prefixes s) in able (r_procs s') -> alike s s'.
Proof.
  intros T N. set (m' := fst (member_step zero junk (r_m p) (PArray n u))). destruct (viewing p n u) as (Ec & El & Ed). fold m' in Ec, El, Ed. set (p' := mk_proc m' (r_states p)). intros s' T' g h c b x a Pl.
  pose proof Pl as (Ig & Hh & Hc & Hb & Hx). destruct (home junk D _ x T Hx) as (j & q & Nj & Kq & Xq). destruct (field_found junk D q g h Kq Ig Hh) as (n' & E' & I').
  rewrite (shown_stored zero junk D s g h c b x a j q n' T Pl Nj Xq E'). destruct (Nat.eq_dec i j) as [<-|Nij].
  - assert (q = p) by congruence. subst q. assert (N' : nth_error (r_procs s') i = Some p') by (cbn [s' r_procs]; now apply (nth_upd_eq _ _ _ p)).
    rewrite (shown_stored zero junk D s' g h c b x a i p' n' T' Pl N').
    + unfold stored_at, p'. cbn [r_m]. unfold nfield_of, values. rewrite Ec, El. unfold field_for. rewrite El, Ed. reflexivity.
    + unfold p', has, box. cbn [r_m]. rewrite Ec, El. exact Xq.
    + rewrite <- entry_field, (entry_states p p') by reflexivity. rewrite entry_field. exact E'.
  - assert (N' : nth_error (r_procs s') j = Some q) by (cbn [s' r_procs]; rewrite nth_upd_other by exact Nij; exact Nj). now rewrite (shown_stored zero junk D s' g h c b x a j q n' T' Pl N' Xq E').
Qed.
Theorem quiet_alike s k : tied s -> proper_call zero junk D k -> quiet k -> alike s (fst (step s k)).
Proof.
  intros T Pr Q. pose proof (step_tied zero junk D suit s k T Pr) as (T' & _). destruct k as [i c| | | | | | |]; cbn [quiet] in Q; try contradiction.
  - cbn [rstep] in *. destruct (nth_error (r_procs s) i) as [p|] eqn:N; [|apply alike_refl]. destruct c as [[]| | |prefix k u]; try contradiction; cbn [proc_step] in *.
    + pose proof (alike_view s i p name u (proj1 T) N) as Av. cbn zeta in Av. destruct (member_step zero junk (r_m p) (PArray name u)) as [m r]. cbn [fst] in *. now apply Av.
    + assert (Eq : upd (r_procs s) i p = r_procs s) by (clear - N; revert i N; induction (r_procs s) as [|q l IH]; intros [|i] N; cbn in *; try discriminate; [now injection N as ->|now rewrite IH]).
      destruct (name_at (sys_of p) prefix k) as [n| |]; [|cbn [fst]; apply alike_procs; exact Eq..].
      pose proof (alike_view s i p n u (proj1 T) N) as Av. cbn zeta in Av. destruct (member_step zero junk (r_m p) (PArray n u)) as [m r]. cbn [fst] in *. now apply Av.
  - apply alike_procs. cbn [rstep]. unfold ready. destruct (bind _ _); reflexivity.
  - apply alike_procs. cbn [rstep]. destruct (r_file s); [|reflexivity]. unfold ready. destruct (bind _ _); reflexivity.
  - now apply alike_procs.
  - apply alike_procs. cbn [rstep]. destruct (on_open _ _) as [[f r]|]; reflexivity.
  - apply alike_procs. cbn [rstep]. destruct (on_open _ _) as [[f r]|]; reflexivity.
Qed.
(** ** Steps can be made *)
Theorem computes_total acts : forall s, tied s -> Forall (feasible D) acts -> exists s', computes zero junk D s acts s'.
Proof.
  induction acts as [|act acts IH]; intros s T F; [exists s; constructor|]. inversion F as [|? ? F1 F2]; subst. destruct act as [g h c b x a|g]; cbn [feasible] in F1.
  - pose proof F1 as (Ig & Hh & Hc & Hb & Hx). destruct (home junk D _ x (proj1 T) Hx) as (i & p & N & K & Xp). destruct (field_found junk D p g h K Ig Hh) as (n & E & I).
    set (k := match g_mem g with None => QProc i (RPy (PArray (g_name g) SubPt)) | Some _ => QProc i (RArray (g_name g) (Z.to_nat h) SubPt) end : rcall A).
    destruct (take_array zero junk D p g n K Ig I) as (w & Em & Vn & Vu). set (m1 := mk_member _ _ _) in Em.
    assert (Ek : step s k = (mk_rstate (upd (r_procs s) i (mk_proc m1 (r_states p))) (r_file s) (r_open s) (r_prefixes s), Ok tt)).
    { unfold k, field_of in *. destruct (g_mem g); cbn [rstep proc_step]; rewrite N; [rewrite E|apply Ok_inj in E; rewrite E]; rewrite Em; reflexivity. }
    assert (Pk : proper_call zero junk D k) by (unfold k; destruct (g_mem g); exact Logic.I). pose proof (quiet_alike s k T Pk ltac:(unfold k; destruct (g_mem g); exact Logic.I)) as Al.
    pose proof (step_tied zero junk D suit s k T Pk) as T1. rewrite Ek in Al, T1. cbn [fst] in Al, T1. set (s1 := mk_rstate _ _ _ _) in *. set (p1 := mk_proc m1 (r_states p)) in *.
    assert (N1 : nth_error (r_procs s1) i = Some p1) by (cbn [s1 r_procs]; now apply (nth_upd_eq _ _ _ p)).
    assert (Ar : array_on s1 i (length (p_views (m_py (r_m p)))) g h p1).
    { split; [exact N1|]. exists n, w. split; [rewrite <- entry_field, (entry_states p p1) by reflexivity; rewrite entry_field; exact E|]. split; [|auto].
      cbn [p1 r_m m1 m_py p_views]. rewrite nth_error_app2, Nat.sub_diag by lia. reflexivity. }
    destruct (IH _ (step_tied zero junk D suit s1 (QProc i (RPy (PPut (length (p_views (m_py (r_m p)))) (c ++ b :: shift (m_loc (r_m p1)) x) a))) T1 Logic.I) F2) as (s' & R).
    exists s'. apply comp_other with k; [exact Pk|rewrite Ek; exact Al|]. rewrite Ek. cbn [fst]. eapply comp_put; [exact F1|exact Ar|exact Xp|exact R].
  - destruct F1 as (Ig & Sg). destruct (IH _ (cycle_tied s g T) F2) as (s' & R). exists s'. apply comp_cycle; auto. rewrite cycle_all. exact R.
Qed.

(** ** Continuing from a file *)
Theorem resume_continues : continues_alike zero junk D.
Proof.
  intros ps l s1 k names fr Cr R1 W1 C1 C2 Ac. pose proof (begin_tied zero junk D ps Cr) as T0. pose proof (runs_tied zero junk D suit _ _ _ _ R1 T0) as T1.
  assert (LW : forall g, In g (ds_things D) -> In (g_name g) names) by (intros g Ig; apply C2; now apply in_map).
  destruct (rstep zero junk s1 (QWrite k names)) as [s2 r2] eqn:E2.
  assert (Wk : forall g, In g (ds_things D) -> r2 = Ok tt /\ r_procs s2 = r_procs s1 /\ forall l' s3 k' names', executes zero junk D (preserves names fr) s2 l' s3 ->
    accessed fr (nb_frames s3) = Ok fr /\ (r_open s3 = true -> In (g_name g) names' -> incl names' (map g_name (ds_things D)) -> accessed k' (nb_frames s3) = Ok fr ->
      exists s4, rstep zero junk s3 (QRead k' names') = (s4, Ok tt) /\ forall h c b x a, place D g h c b x -> (shown s1 g h c b x a <-> shown s4 g h c b x a))).
  { intros g Ig. destruct (resume_last_write zero junk D suit ps l s1 g k names fr Cr R1 W1 Ig (LW g Ig) C1 Ac) as (s2' & E & Pr & H). rewrite E2 in E. injection E as <- ->. split; [reflexivity|]. split; [exact Pr|].
    intros l' s3 k' names' R3. exact (H l' s3 k' names' names (LW g Ig) R3). }
  exists s2. destruct (ds_things D) as [|g0 rest] eqn:ED.
  - (* no fields at all *)
    assert (En : names = []) by (destruct names as [|n names]; [reflexivity|destruct (C1 n (or_introl eq_refl))]). subst names.
    destruct W1 as (O1 & f1 & Ef1 & Md1). cbn [rstep] in E2. unfold on_open in E2. rewrite Ef1, O1 in E2. cbn [SessionModel.step each_name] in E2. injection E2 as <- <-. split; [reflexivity|]. split; [now apply alike_procs|].
    intros l' s3 k' names' R3 O3 C3 _ Ac'. assert (En : names' = []) by (destruct names' as [|n names']; [reflexivity|destruct (C3 n (or_introl eq_refl))]). subst names'.
    assert (T2 : tied (mk_rstate (r_procs s1) (Some (with_mem f1 (memory_at (r_prefixes s1) (r_procs s1)))) true (r_prefixes s1))).
    { assert (Inc : proper_call zero junk D (QWrite k [])) by (intros n []). pose proof (step_tied zero junk D suit s1 (QWrite k []) T1 Inc) as T2. cbn [rstep] in T2. unfold on_open in T2. rewrite Ef1, O1 in T2. exact T2. }
    pose proof (runs_tied zero junk D suit _ _ _ _ R3 T2) as T3. destruct T3 as (_ & B3). destruct (r_file s3) as [f3|] eqn:Ef3; [|congruence].
    assert (Any : forall s t, alike s t) by (intros s t g h c b x a (Ig & _); rewrite ED in Ig; destruct Ig).
    eexists. split; [cbn [rstep]; unfold on_open; rewrite Ef3, O3; cbn [SessionModel.step each_name]; reflexivity|]. split; [apply Any|]. intros acts sa sb _ _. apply Any.
  - rewrite <- ED in *. assert (Ig0 : In g0 (ds_things D)) by (rewrite ED; now left). destruct (Wk g0 Ig0) as (-> & Pr & _). split; [reflexivity|]. split; [now apply alike_procs|].
    intros l' s3 k' names' R3 O3 C3 C4 Ac'. destruct (rstep zero junk s3 (QRead k' names')) as [s4 r4] eqn:E4.
    assert (Rk : forall g, In g (ds_things D) -> r4 = Ok tt /\ forall h c b x a, place D g h c b x -> (shown s1 g h c b x a <-> shown s4 g h c b x a)).
    { intros g Ig. destruct (Wk g Ig) as (_ & _ & H). destruct (H l' s3 k' names' R3) as (_ & H'). destruct (H' O3 (C4 _ (in_map _ _ _ Ig)) C3 Ac') as (s4' & E & V). rewrite E4 in E. injection E as <- ->. auto. }
    exists s4. destruct (Rk g0 Ig0) as (-> & _). split; [reflexivity|].
    assert (Al : alike s1 s4) by (intros g h c b x a Pl; exact (proj2 (Rk g (proj1 Pl)) h c b x a Pl)). split; [exact Al|].
    intros acts sa sb Ra Rb. apply (computes_alike acts s1 s4); auto.
    assert (T2 : tied s2) by (pose proof (step_tied zero junk D suit s1 (QWrite k names) T1 C1) as T2; rewrite E2 in T2; exact T2).
    pose proof (runs_tied zero junk D suit _ _ _ _ R3 T2) as T3. pose proof (step_tied zero junk D suit s3 (QRead k' names') T3 C3) as T4. rewrite E4 in T4. exact T4.
Qed.
End P.

(** ** Files are made, opened and grow *)
Section Ready.
Context {A : Type} (zero junk : A) (D : design).
Hypothesis suit : suitable D.
Theorem create_ready s prefixes names c : tied junk D s -> all_vars D prefixes names ->
  exists s', rstep zero junk s (QCreate prefixes names c) = (s', Ok tt) /\ r_procs s' = r_procs s /\ writeable s' /\ nb_frames s' = 0.
Proof.
  intros (T & _) V. cbn [rstep].
  destruct (start_ok junk D suit Creating (r_procs s) prefixes names (mk_ncfile 0 (fun _ _ => 0)) (mk_ncfile 0 c) T V) as (u & s' & -> & _ & _ & E & _ & N & M).
  cbn [bind]. rewrite E. cbn [ready]. eexists. split; [reflexivity|]. cbn [r_procs]. split; [reflexivity|].
  split; [split; [reflexivity|]; exists s'; split; [reflexivity|congruence]|exact N].
Qed.
Theorem open_ready s append prefixes names : tied junk D s -> r_file s <> None -> all_vars D prefixes names ->
  exists s', rstep zero junk s (QOpen append prefixes names) = (s', Ok tt) /\ r_procs s' = r_procs s /\ r_open s' = true /\ (append = true -> writeable s').
Proof.
  intros (T & _) F V. cbn [rstep]. destruct (r_file s) as [f|]; [|congruence].
  destruct (start_ok junk D suit (if append then Appending else Reading) (r_procs s) prefixes names (se_hfile f) (se_file f) T V) as (u & s' & -> & _ & _ & E & _ & N & M).
  cbn [bind]. rewrite E. cbn [ready]. eexists. split; [reflexivity|]. split; [reflexivity|]. split; [reflexivity|].
  intros ->. split; [reflexivity|]. exists s'. split; [reflexivity|congruence].
Qed.
Theorem append_ready s : tied junk D s -> r_open s = true ->
  exists s', rstep zero junk s QAppendFrame = (s', Ok tt) /\ r_procs s' = r_procs s /\ r_open s' = true /\ nb_frames s' = nb_frames s + 1 /\ (writeable s -> writeable s').
Proof.
  intros (_ & B) O. cbn [rstep]. unfold on_open. destruct (r_file s) as [f|] eqn:Ef; [|congruence]. rewrite O. cbn [SessionModel.step].
  eexists. split; [reflexivity|]. split; [reflexivity|]. split; [reflexivity|]. split; [unfold nb_frames; rewrite Ef; reflexivity|].
  intros (_ & f' & E & M). rewrite Ef in E. injection E as <-. split; [reflexivity|]. eexists. split; [reflexivity|exact M].
Qed.
End Ready.
