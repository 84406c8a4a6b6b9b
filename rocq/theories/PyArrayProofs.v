(** Proofs on arrays in Python programs. *)
From Coq Require Import String.
From Verif Require Import Base CIntModel GridModel GridSpec StridedModel StridedProofs UnitsModel LayoutModel LayoutSpec LayoutProofs.
From Verif Require Import FieldModel FieldSpec RegistryModel RegistrySpec RegistryProofs RegistryProofs2 RegistryProofs3.
From Verif Require Import NumpyModel NumpySpec NumpyProofs6 PyArrayModel PyArraySpec.
Local Open Scope Z_scope.
Local Open Scope list_scope.

Lemma copy_loop_length {A} k shape axes is os : forall idx (inb outb o : list A),
  copy_loop k shape axes is os idx inb outb = Ok o -> length o = length outb.
Proof.
  induction k as [|k IH]; intros idx inb outb o H; cbn [copy_loop] in H; [apply Ok_inj in H; now subst|].
  destruct (rd inb _) as [v| |]; cbn [bind] in H; try discriminate.
  destruct (wr outb _ v) as [w| |] eqn:W; cbn [bind] in H; try discriminate.
  destruct (odo_next shape axes idx) as [idx'| |]; cbn [bind] in H; try discriminate.
  rewrite (IH _ _ _ _ H). apply wr_length in W. unfold len in W. lia.
Qed.
Lemma setter_length {A} f st u a (vals mem o : list A) : array_setter f st u a vals mem = Ok o -> length o = length mem.
Proof.
  unfold array_setter, array_setter_with, strided_copy_with. intros H.
  destruct (st u 1) as [s| |]; cbn [bind] in H; try discriminate.
  destruct (negb (zlist_eqb _ _)); [discriminate|]. cbn [bind] in H.
  destruct (negb _); [discriminate|]. destruct (negb _); [discriminate|].
  now apply copy_loop_length in H.
Qed.

Section P.
Context {A : Type} (zero junk : A).
Implicit Types (s : session A) (c : coll A) (r : rfield A) (k : pycall A).

(** Operations on a field that only change its values. *)
Definition values_only (opf : field A -> field A * res unit) : Prop :=
  forall f, exists v, fst (opf f) = with_vals f v /\ length v = length (f_vals f).
Lemma with_vals_same (f : field A) : with_vals f (f_vals f) = f.
Proof. now destruct f. Qed.
Lemma values_inv c name opf : values_only opf -> inv c -> inv (fst (on_field c name opf)).
Proof.
  intros V I. apply inv_on_field; [exact I|]. intros f Sf. destruct (V f) as (v & -> & _). unfold same_env. cbn. auto 10.
Qed.
Lemma values_sinv c name opf : values_only opf -> sinv true c -> sinv true (fst (on_field c name opf)).
Proof.
  intros V S. apply sinv_on_field; [exact S|apply values_inv; [exact V|apply S]|].
  intros f At Sf. destruct (V f) as (v & -> & L). split; [exact At|]. intros _ _ (N & P & Ln & Cu).
  unfold stored, with_vals, len in *; cbn. rewrite L. auto.
Qed.
Lemma assign_values c name u a vals : exists opf, assign_array c name u a vals = on_field c name opf /\ values_only opf.
Proof.
  eexists. split; [reflexivity|]. intros f. unfold keep.
  destruct (f_ptr f) as [g|].
  - destruct (g =? f_gen f).
    + destruct (array_setter _ _ _ _ _ _) as [v| |] eqn:E; cbn [bind fst].
      * exists v. split; [reflexivity|]. now apply setter_length in E.
      * exists (f_vals f). now rewrite with_vals_same.
      * exists (f_vals f). now rewrite with_vals_same.
    + destruct (array_setter _ _ _ _ _ _) as [v| |] eqn:E; cbn [bind fst]; exists (f_vals f); now rewrite with_vals_same.
  - destruct (array_setter _ _ _ _ _ _) as [v| |] eqn:E; cbn [bind fst]; exists (f_vals f); now rewrite with_vals_same.
Qed.
Lemma write_values (c : coll A) name i x : exists opf, step zero c (OWrite name i x) = on_field c name opf /\ values_only opf.
Proof.
  eexists. split; [reflexivity|]. intros f. unfold keep. destruct (wr (f_vals f) i x) as [w| |] eqn:E; cbn [bind fst].
  - exists w. split; [reflexivity|]. apply wr_length in E. unfold len in E. lia.
  - exists (f_vals f). now rewrite with_vals_same.
  - exists (f_vals f). now rewrite with_vals_same.
Qed.
Lemma zero_values : values_only (fun f => (set_zero zero f, Ok tt)).
Proof. intros f. eexists. split; [reflexivity|]. now rewrite repeat_length. Qed.

(** What a call does to the collection: one of the operations from Python, a change of
    values of one field, or nothing. *)
Lemma pystep_coll s k : 
  (exists o, k = PColl o /\ from_python o = true /\ p_coll (fst (pystep zero junk s k)) = fst (step zero (p_coll s) o)) \/
  (exists name opf, values_only opf /\ p_coll (fst (pystep zero junk s k)) = fst (on_field (p_coll s) name opf)) \/
  p_coll (fst (pystep zero junk s k)) = p_coll s.
Proof.
  destruct k; cbn [pystep].
  - destruct (from_python o) eqn:F; [|auto]. left. exists o. split; [reflexivity|]. split; [exact F|].
    destruct (step zero (p_coll s) o). reflexivity.
  - right. right. destruct (get_array _ _ _ _); reflexivity.
  - right. unfold view_put. destruct (get_view s i) as [v| |]; try (right; reflexivity).
    destruct (negb _); [right; reflexivity|]. destruct (view_memory s v) as [m| |]; try (right; reflexivity).
    destruct (v_ptr v) as [g|].
    + left. destruct (write_values (p_coll s) (v_name v) (address (v_arr v) idx) x) as (opf & E & V).
      exists (v_name v), opf. split; [exact V|]. rewrite <- E. destruct (step zero (p_coll s) _). reflexivity.
    + destruct (wr m _ x); right; reflexivity.
  - right. left. destruct (assign_values (p_coll s) name u a vals) as (opf & E & V). exists name, opf. split; [exact V|].
    rewrite <- E. destruct (assign_array _ _ _ _ _). reflexivity.
  - right. left. exists name, (fun f => (set_zero zero f, Ok tt)). split; [apply zero_values|].
    destruct (on_field _ _ _). reflexivity.
Qed.

Lemma orderly_sensible s k o : orderly k -> k = PColl o -> from_python o = true -> sensible true (p_coll s) o.
Proof. intros O -> F. destruct o; try discriminate F; cbn in *; auto. Qed.
Lemma pystep_sinv s k : sinv true (p_coll s) -> orderly k -> sinv true (p_coll (fst (pystep zero junk s k))).
Proof.
  intros S O. destruct (pystep_coll s k) as [(o & -> & F & ->)|[(name & opf & V & ->)| ->]]; [| |exact S].
  - apply step_sinv; [exact S|]. now apply (orderly_sensible s (PColl o)).
  - now apply values_sinv.
Qed.
Lemma pyrun_sinv l : forall s, sinv true (p_coll s) -> Forall orderly l -> sinv true (p_coll (pyrun zero junk s l)).
Proof.
  induction l as [|k l IH]; intros s S O; [exact S|]. inversion O as [|x y Ok_ Ol]; subst.
  change (pyrun zero junk s (k :: l)) with (pyrun zero junk (fst (pystep zero junk s k)) l).
  apply IH; [now apply pystep_sinv|exact Ol].
Qed.
Lemma program_sinv glob l s : program zero junk glob l s -> sinv true (p_coll s).
Proof.
  intros (order & tags & c0 & _ & N & T & O & ->). apply pyrun_sinv; [|exact O]. cbn. eapply new_coll_sinv; eassumption.
Qed.

(** Storage of a field of an initialised collection stays in place. *)
Definition in_place r r' : Prop :=
  rf_type r' = rf_type r /\ f_lay (rf_field r') = f_lay (rf_field r) /\ f_gen (rf_field r') = f_gen (rf_field r) /\
  f_ptr (rf_field r') = f_ptr (rf_field r) /\ length (f_vals (rf_field r')) = length (f_vals (rf_field r)) /\
  rf_tag r' = rf_tag r.
Lemma in_place_refl r : in_place r r.
Proof. repeat split. Qed.
Lemma in_place_trans a b d : in_place a b -> in_place b d -> in_place a d.
Proof. intros (H1 & H2 & H3 & H4 & H5 & H6) (K1 & K2 & K3 & K4 & K5 & K6). repeat split; congruence. Qed.

Lemma values_in_place c name opf n r : values_only opf -> lookup n (c_fields c) = Some r ->
  exists r', lookup n (c_fields (fst (on_field c name opf))) = Some r' /\ in_place r r' /\
    (n <> name -> r' = r).
Proof.
  intros V L. rewrite on_field_lookup. destruct (String.eqb_spec n name) as [->|N].
  - rewrite L. eexists. split; [reflexivity|]. destruct (V (rf_field r)) as (v & E & Lv). split; [|congruence].
    destruct (opf (rf_field r)) as [f' o]. cbn [fst] in *. subst f'. repeat split. exact Lv.
  - exists r. split; [exact L|]. split; [apply in_place_refl | auto].
Qed.
Lemma python_in_place c o n r : sinv true c -> c_init c = true -> from_python o = true -> lookup n (c_fields c) = Some r ->
  lookup n (c_fields (fst (step zero c o))) = Some r.
Proof.
  intros S Ini F L. destruct o; try discriminate F.
  - cbn [step]. unfold register_field. destruct (lookup name (c_fields c)) as [r1|] eqn:Ln.
    + destruct allow_existing; [|exact L]. repeat (match goal with |- context [if ?b then _ else _] => destruct b; [exact L|] end). exact L.
    + rewrite Ini. destruct (touch_tag_same c tag) as (_ & _ & _ & _ & _ & _ & _ & _ & Ef).
      destruct (resize zero _) as [f' [u'|e|]]; cbn [fst with_fields c_fields]; rewrite ?Ef; auto.
      rewrite lookup_insert_other by congruence. exact L.
  - cbn [step]. destruct (set_nb_cases c tag n0) as [(_ & -> & _)|(N1 & Tn & ->)]; [exact L|].
    cbn [fst with_fields c_fields]. rewrite lookup_map_fields, L. cbn [option_map].
    destruct (String.eqb_spec (rf_tag r) tag) as [Et|]; [|reflexivity].
    destruct S as ((_ & I) & T & B & H). destruct (I _ _ L) as (_ & Ns). destruct (H _ _ L) as (_ & St).
    destruct (St Ini) as (Np & _). rewrite Et in Ns.
    assert (En : l_nsub (f_lay (rf_field r)) = n0).
    { unfold sub_pts_of in Ns. destruct Tn as [Tn|Tn]; rewrite Tn in Ns; [unfold unknown in Ns; lia|exact Ns]. }
    f_equal. unfold set_nsub, set_field, with_lay. rewrite <- En.
    destruct r as [? ? ? [lay ? ? ? ? ? ? ? ?]]. cbn. now destruct lay.
  - cbn [step]. destruct (c_glob c); [exact L|]. unfold add_pixel. now rewrite Ini.
  - destruct (double_init zero c OInitLocal Ini Logic.I) as [-> _]. exact L.
  - destruct (double_init zero c (OInitGlobal nd nsd loc pstr) Ini Logic.I) as [-> _]. exact L.
  - destruct (double_init zero c (OInitGlobalOrder nd nsd loc o) Ini Logic.I) as [-> _]. exact L.
Qed.
Lemma pystep_init s k : c_init (p_coll s) = true -> c_init (p_coll (fst (pystep zero junk s k))) = true.
Proof.
  intros Ini. destruct (pystep_coll s k) as [(o & _ & F & ->)|[(name & opf & V & ->)| ->]]; [| |exact Ini].
  - pose proof (init_forever zero [o] (p_coll s) Ini) as (E & _). cbn in E. congruence.
  - destruct (on_field_coll (p_coll s) name opf) as (_ & _ & -> & _). exact Ini.
Qed.
Lemma pystep_in_place s k n r : sinv true (p_coll s) -> c_init (p_coll s) = true -> lookup n (c_fields (p_coll s)) = Some r ->
  exists r', lookup n (c_fields (p_coll (fst (pystep zero junk s k)))) = Some r' /\ in_place r r'.
Proof.
  intros S Ini L. destruct (pystep_coll s k) as [(o & _ & F & ->)|[(name & opf & V & ->)| ->]].
  - exists r. split; [now apply python_in_place | apply in_place_refl].
  - destruct (values_in_place _ name _ _ _ V L) as (r' & E & P & _). eauto.
  - exists r. split; [exact L | apply in_place_refl].
Qed.

(** Arrays on memory of fields are never changed, and arrays never become others. *)
Definition same_view (v v' : view A) : Prop :=
  v_name v' = v_name v /\ v_unit v' = v_unit v /\ v_ptr v' = v_ptr v /\ v_arr v' = v_arr v /\ (v_ptr v <> None -> v' = v).
Lemma same_view_refl v : same_view v v.
Proof. repeat split. Qed.
Lemma nth_upd {X} (l : list X) i j x y : nth_error l j = Some y ->
  nth_error (upd l i x) j = Some (if Nat.eqb i j then x else y).
Proof.
  revert i j. induction l as [|z l IH]; intros [|i] [|j] H; cbn in *; try discriminate; auto; try congruence.
Qed.
Lemma nth_snoc {X} (l : list X) x j y : nth_error l j = Some y -> nth_error (l ++ [x]) j = Some y.
Proof. intros H. rewrite nth_error_app1; [exact H|]. apply nth_error_Some. congruence. Qed.
Lemma pystep_views s k i v : nth_error (p_views s) i = Some v ->
  exists v', nth_error (p_views (fst (pystep zero junk s k))) i = Some v' /\ same_view v v'.
Proof.
  intros E. assert (R : exists v', nth_error (p_views s) i = Some v' /\ same_view v v') by (exists v; split; [exact E | apply same_view_refl]).
  destruct k; cbn [pystep].
  - destruct (from_python o); [|exact R]. destruct (step zero (p_coll s) o). exact R.
  - destruct (get_array _ _ _ _) as [w| |]; [|exact R..]. cbn [fst p_views]. exists v. split; [now apply nth_snoc | apply same_view_refl].
  - unfold view_put, get_view. destruct (nth_error (p_views s) i0) as [w|] eqn:Ew; [|exact R]. cbn [bind].
    destruct (negb _); [exact R|]. destruct (view_memory s w) as [m| |]; [|exact R..].
    destruct (v_ptr w) as [g|] eqn:Pw.
    + destruct (step zero (p_coll s) _). exact R.
    + destruct (wr m _ x) as [m'| |]; [|exact R..]. cbn [fst p_views]. rewrite (nth_upd _ i0 i _ v E).
      eexists. split; [reflexivity|]. destruct (Nat.eqb_spec i0 i) as [->|]; [|apply same_view_refl].
      rewrite E in Ew. injection Ew as ->. unfold same_view. cbn. rewrite Pw. repeat split. congruence.
  - destruct (assign_array _ _ _ _ _). exact R.
  - destruct (on_field _ _ _). exact R.
Qed.

(** An array on the present memory of its field. *)
Definition on_memory s i v r : Prop :=
  nth_error (p_views s) i = Some v /\ lookup (v_name v) (c_fields (p_coll s)) = Some r /\
  v_ptr v = Some (f_gen (rf_field r)) /\ get_array junk (p_coll s) (v_name v) (v_unit v) = Ok v.
Lemma get_array_in_place c c' n u r r' v : lookup n (c_fields c) = Some r -> lookup n (c_fields c') = Some r' -> in_place r r' ->
  get_array junk c n u = Ok v -> get_array junk c' n u = Ok v.
Proof.
  intros L L' (P1 & P2 & P3 & P4 & _). unfold get_array, get_field. rewrite L, L'. cbn [bind]. rewrite P1, P2, P4. auto.
Qed.
Lemma on_memory_step s k i v r : sinv true (p_coll s) -> c_init (p_coll s) = true -> on_memory s i v r ->
  exists r', on_memory (fst (pystep zero junk s k)) i v r' /\ in_place r r'.
Proof.
  intros S Ini (N & L & P & G). destruct (pystep_in_place s k _ _ S Ini L) as (r' & L' & Q).
  exists r'. split; [|exact Q]. destruct (pystep_views s k _ _ N) as (v' & N' & _ & _ & _ & _ & V).
  rewrite P in V. rewrite (V ltac:(discriminate)) in N'. split; [exact N'|]. split; [exact L'|].
  split; [destruct Q as (_ & _ & -> & _); exact P|]. exact (get_array_in_place _ _ _ _ _ _ _ L L' Q G).
Qed.
Lemma on_memory_run l : forall s i v r, sinv true (p_coll s) -> c_init (p_coll s) = true -> Forall orderly l -> on_memory s i v r ->
  exists r', on_memory (pyrun zero junk s l) i v r' /\ in_place r r'.
Proof.
  induction l as [|k l IH]; intros s i v r S Ini O M; [exists r; split; [exact M | apply in_place_refl]|].
  inversion O as [|x y Ok_ Ol]; subst.
  change (pyrun zero junk s (k :: l)) with (pyrun zero junk (fst (pystep zero junk s k)) l).
  destruct (on_memory_step s k i v r S Ini M) as (r1 & M1 & P1).
  destruct (IH _ i v r1 (pystep_sinv s k S Ok_) (pystep_init s k Ini) Ol M1) as (r2 & M2 & P2).
  exists r2. split; [exact M2 | now apply (in_place_trans r r1)].
Qed.

Lemma get_array_fields c n u v : get_array junk c n u = Ok v -> v_name v = n /\ v_unit v = u /\
  exists r, lookup n (c_fields c) = Some r /\ v_ptr v = f_ptr (rf_field r) /\
    numpy_wrap (f_lay (rf_field r)) (get_strides (f_lay (rf_field r))) u (type_size (rf_type r)) = Ok (v_arr v).
Proof.
  unfold get_array, get_field. intros H. destruct (lookup n (c_fields c)) as [r|]; [|discriminate]. cbn [bind] in H.
  destruct (numpy_wrap _ _ _ _) as [a| |] eqn:W; cbn [bind] in H; try discriminate.
  destruct (negb _); [discriminate|]. destruct (existsb _ _); [discriminate|]. apply Ok_inj in H. subst v. cbn.
  split; [reflexivity|]. split; [reflexivity|]. exists r. auto.
Qed.

Lemma took_on_memory glob l0 s name u l s' i : program zero junk glob l0 s -> initialised s -> took zero junk s name u l s' i ->
  exists v r, on_memory s' i v r /\ v_name v = name /\ v_unit v = u /\ sinv true (p_coll s') /\ c_init (p_coll s') = true /\
    exists r0, lookup name (c_fields (p_coll s)) = Some r0 /\ in_place r0 r.
Proof.
  intros P Ini (s1 & E & O & -> & ->). pose proof (program_sinv _ _ _ P) as S. cbn [pystep] in E.
  destruct (get_array junk (p_coll s) name u) as [v| |] eqn:G; try (injection E as <- E; discriminate E).
  injection E as <-. destruct (get_array_fields _ _ _ _ G) as (Vn & Vu & r0 & L & Vp & W).
  assert (M : on_memory (mk_session (p_coll s) (p_views s ++ [v])) (length (p_views s)) v r0).
  { unfold on_memory. cbn [p_views p_coll]. rewrite nth_error_app2, Nat.sub_diag by lia. rewrite Vn, Vu.
    split; [reflexivity|]. split; [exact L|]. split; [|exact G]. rewrite Vp.
    destruct S as (_ & _ & _ & H). destruct (H _ _ L) as (_ & St). destruct (St Ini) as (_ & -> & _). reflexivity. }
  destruct (on_memory_run l (mk_session (p_coll s) (p_views s ++ [v])) _ _ _ S Ini O M) as (r & M' & Q).
  exists v, r. split; [exact M'|]. split; [exact Vn|]. split; [exact Vu|].
  split; [now apply pyrun_sinv|]. split; [|now exists r0].
  clear - Ini. change (c_init (p_coll (mk_session (p_coll s) (p_views s ++ [v]))) = true) in Ini. revert Ini.
  generalize (mk_session (p_coll s) (p_views s ++ [v])). induction l as [|k l IH]; intros x Ini; [exact Ini|].
  change (pyrun zero junk x (k :: l)) with (pyrun zero junk (fst (pystep zero junk x k)) l). apply IH. now apply pystep_init.
Qed.

Lemma on_memory_get s i v r idx : on_memory s i v r ->
  view_get s i idx = if index_ok (np_shape (v_arr v)) idx then rd (f_vals (rf_field r)) (address (v_arr v) idx) else Err OutOfRange.
Proof.
  intros (N & L & P & _). unfold view_get, get_view. rewrite N. cbn [bind]. unfold view_memory, get_field. rewrite P, L. cbn [bind].
  rewrite Z.eqb_refl. destruct (index_ok _ _); reflexivity.
Qed.

(** The array stays what a new one would be. *)
Theorem stays_current glob l0 s name u l s' i : program zero junk glob l0 s -> initialised s -> took zero junk s name u l s' i ->
  exists s2, pystep zero junk s' (PArray name u) = (s2, Ok tt) /\ p_coll s2 = p_coll s' /\
    forall idx, view_get s2 i idx = view_get s2 (length (p_views s')) idx /\ view_get s2 i idx = view_get s' i idx.
Proof.
  intros P Ini T. destruct (took_on_memory _ _ _ _ _ _ _ _ P Ini T) as (v & r & M & Vn & Vu & _).
  pose proof M as (N & L & Pt & G). rewrite Vn, Vu in G. cbn [pystep]. rewrite G. eexists. split; [reflexivity|].
  split; [reflexivity|]. intros idx.
  assert (M1 : on_memory (mk_session (p_coll s') (p_views s' ++ [v])) i v r).
  { split; [now apply nth_snoc|]. split; [exact L|]. split; [exact Pt|]. cbn [p_coll]. now rewrite Vn, Vu. }
  assert (M2 : on_memory (mk_session (p_coll s') (p_views s' ++ [v])) (length (p_views s')) v r).
  { unfold on_memory. cbn [p_views p_coll]. rewrite nth_error_app2, Nat.sub_diag by lia. split; [reflexivity|].
    split; [exact L|]. split; [exact Pt|]. now rewrite Vn, Vu. }
  rewrite (on_memory_get _ _ _ _ _ M1), (on_memory_get _ _ _ _ _ M2), (on_memory_get _ _ _ _ _ M). auto.
Qed.

(** Element access. *)
Lemma index_ok_spec shape : forall i, index_ok shape i = true <-> in_shape shape i.
Proof.
  induction shape as [|n s IH]; intros [|x r]; cbn [index_ok].
  - split; [intros _; now apply in_shape_nil | reflexivity].
  - split; [discriminate|]. intros [E _]. discriminate E.
  - split; [discriminate|]. intros [E _]. discriminate E.
  - rewrite !andb_true_iff, IH, in_shape_cons. split.
    + intros ((H1 & H2) & H3). exists x, r. split; [reflexivity|]. split; [lia | exact H3].
    + intros (y & q & E & H & K). injection E as -> ->. split; [lia | exact K].
Qed.
Lemma size_pos t : 0 < type_size t.
Proof. destruct t; reflexivity. Qed.

Lemma view_places (v : view A) r u : viewable (f_lay (rf_field r)) u ->
  numpy_wrap (f_lay (rf_field r)) (get_strides (f_lay (rf_field r))) u (type_size (rf_type r)) = Ok (v_arr v) ->
  stored true (rf_field r) -> 0 <= f_pad (rf_field r) ->
  np_shape (v_arr v) = get_shape (f_lay (rf_field r)) u /\
  (forall i, in_shape (np_shape (v_arr v)) i -> 0 <= address (v_arr v) i < Z.of_nat (length (f_vals (rf_field r)))) /\
  (forall i j, in_shape (np_shape (v_arr v)) i -> in_shape (np_shape (v_arr v)) j -> address (v_arr v) i = address (v_arr v) j -> i = j) /\
  (forall i, in_shape (np_shape (v_arr v)) i -> address (v_arr v) i = Z.quot (off (np_strides (v_arr v)) i) (np_item (v_arr v))).
Proof.
  intros Hv W St Pd. destruct (wrap_view _ u _ Hv (size_pos (rf_type r))) as (s & a & Es & W' & Sh & It & Ls & _ & Of).
  rewrite W in W'. apply Ok_inj in W'. subst a. destruct (viewable_embeds _ u Hv) as (s' & Es' & (L & Wi & Inj)).
  rewrite Es in Es'. apply Ok_inj in Es'. subst s'. rewrite Sh.
  assert (Ad : forall i, in_shape (get_shape (f_lay (rf_field r)) u) i -> address (v_arr v) i = off s i).
  { intros i Hi. unfold address. rewrite linear_index_off by (rewrite Ls, Sh; apply Hi). rewrite (Of i Hi), It.
    rewrite Z.mul_comm. apply Z.quot_mul. pose proof (size_pos (rf_type r)). lia. }
  split; [reflexivity|]. split; [|split].
  - intros i Hi. rewrite (Ad i Hi). pose proof (Wi i Hi) as B. destruct St as (_ & _ & Ln & _). unfold len in Ln. rewrite Ln.
    unfold buffer_scalars in B. lia.
  - intros i j Hi Hj. rewrite (Ad i Hi), (Ad j Hj). now apply Inj.
  - intros i Hi. unfold address. now rewrite linear_index_off by (rewrite Ls, Sh; apply Hi).
Qed.
Lemma on_memory_places s i v r : sinv true (p_coll s) -> c_init (p_coll s) = true -> on_memory s i v r ->
  viewable (f_lay (rf_field r)) (v_unit v) ->
  np_shape (v_arr v) = get_shape (f_lay (rf_field r)) (v_unit v) /\
  (forall i, in_shape (np_shape (v_arr v)) i -> 0 <= address (v_arr v) i < Z.of_nat (length (f_vals (rf_field r)))) /\
  (forall i j, in_shape (np_shape (v_arr v)) i -> in_shape (np_shape (v_arr v)) j -> address (v_arr v) i = address (v_arr v) j -> i = j) /\
  (forall i, in_shape (np_shape (v_arr v)) i -> address (v_arr v) i = Z.quot (off (np_strides (v_arr v)) i) (np_item (v_arr v))).
Proof.
  intros S Ini (N & L & P & G) Hv. destruct (get_array_fields _ _ _ _ G) as (_ & _ & r' & L' & _ & W).
  rewrite L in L'. injection L' as <-. destruct S as (_ & _ & _ & H). destruct (H _ _ L) as (At & St).
  apply view_places; auto. apply At.
Qed.

Lemma upd_other (m : list A) a b x : 0 <= a -> 0 <= b -> a <> b -> rd (upd m (Z.to_nat a) x) b = rd m b.
Proof.
  intros Ha Hb N. unfold rd. destruct (Z.ltb_spec b 0); [lia|].
  assert (E : nth_error (upd m (Z.to_nat a) x) (Z.to_nat b) = nth_error m (Z.to_nat b)).
  { clear - Ha Hb N. assert (K : Z.to_nat a <> Z.to_nat b) by lia. revert K. generalize (Z.to_nat a), (Z.to_nat b).
    induction m as [|y m IH]; intros [|p] [|q] K; cbn; auto; try congruence. }
  now rewrite E.
Qed.

(** Reading and writing. *)
Theorem write_through glob l0 s name u l s' i r0 idx x : program zero junk glob l0 s -> initialised s ->
  get_field (p_coll s) name = Ok r0 -> viewable (f_lay (rf_field r0)) u -> took zero junk s name u l s' i ->
  in_shape (get_shape (f_lay (rf_field r0)) u) idx ->
  (exists y, view_get s' i idx = Ok y) /\
  exists s2, pystep zero junk s' (PPut i idx x) = (s2, Ok tt) /\ view_get s2 i idx = Ok x /\
    (forall idx', idx' <> idx -> view_get s2 i idx' = view_get s' i idx') /\
    (forall j v', nth_error (p_views s') j = Some v' -> v_name v' <> name -> forall idx', view_get s2 j idx' = view_get s' j idx').
Proof.
  intros P Ini G0 Hv T Hi. destruct (took_on_memory _ _ _ _ _ _ _ _ P Ini T) as (v & r & M & Vn & Vu & S & Ini' & r1 & L1 & Q).
  unfold get_field in G0. rewrite L1 in G0. apply Ok_inj in G0. subst r1.
  pose proof Q as (_ & Ql & _). rewrite <- Ql in Hv, Hi.
  rewrite <- Vu in Hv, Hi. destruct (on_memory_places s' i v r S Ini' M Hv) as (Sh & Rg & Inj & _). rewrite <- Sh in Hi.
  pose proof M as (N & L & Pt & G). pose proof (Rg idx Hi) as B.
  assert (Iok : index_ok (np_shape (v_arr v)) idx = true) by (now apply index_ok_spec).
  split.
  - rewrite (on_memory_get _ _ _ _ _ M), Iok. rewrite (rd_ok _ _ zero B). eauto.
  - set (f' := with_vals (rf_field r) (upd (f_vals (rf_field r)) (Z.to_nat (address (v_arr v) idx)) x)).
    set (c' := with_fields (p_coll s') (insert (v_name v) (set_field r f') (c_fields (p_coll s')))).
    exists (mk_session c' (p_views s')).
    assert (M' : on_memory (mk_session c' (p_views s')) i v (set_field r f')).
    { split; [exact N|]. split; [cbn; apply lookup_insert_same|]. split; [exact Pt|].
      eapply (get_array_in_place (p_coll s')); [exact L|cbn; apply lookup_insert_same| |exact G].
      repeat split. cbn. apply upd_length. }
    split; [|split; [|split]].
    + cbn [pystep]. unfold view_put, get_view. rewrite N. rewrite Iok. cbn [negb].
      unfold view_memory. rewrite Pt. unfold get_field. rewrite L. cbn [bind]. rewrite Z.eqb_refl.
      cbn [step]. unfold on_field. rewrite L. unfold keep. rewrite (wr_ok _ _ x B). cbn [bind]. reflexivity.
    + rewrite (on_memory_get _ _ _ _ _ M'), Iok. cbn [set_field rf_field f' with_vals f_vals]. now apply rd_upd_same.
    + intros idx' Ne. rewrite (on_memory_get _ _ _ _ _ M'), (on_memory_get _ _ _ _ _ M).
      destruct (index_ok (np_shape (v_arr v)) idx') eqn:Ok'; [|reflexivity]. apply index_ok_spec in Ok'.
      cbn [set_field rf_field f' with_vals f_vals]. pose proof (Rg idx' Ok'). apply upd_other; [lia|lia|].
      intros E. apply Ne. symmetry. now apply Inj.
    + intros j v' Nj Nn idx'. unfold view_get, get_view. cbn [p_views]. rewrite Nj. cbn [bind].
      destruct (negb _); [reflexivity|]. f_equal. unfold view_memory. destruct (v_ptr v'); [|reflexivity].
      unfold get_field. cbn [p_coll c' with_fields c_fields]. rewrite lookup_insert_other by congruence. reflexivity.
Qed.

(** ** Properties of all fields *)
Section All.
Variable Q : field A -> Prop.
Hypothesis Qnew : forall l g b, Q (new_field l g b).
Hypothesis Qlay : forall f l g b, Q f -> Q (mk_field l g b (f_cur f) (f_pad f) (f_vals f) (f_cap f) (f_gen f) (f_ptr f)).
Hypothesis Qvals : forall f v, Q f -> Q (with_vals f v).
Definition all_fields c : Prop := forall n r, lookup n (c_fields c) = Some r -> Q (rf_field r).

Lemma all_set_nb c tag n : all_fields c -> all_fields (fst (set_nb_sub_pts c tag n)).
Proof.
  intros H. destruct (set_nb_cases c tag n) as [(_ & -> & _)|(_ & _ & ->)]; [exact H|]. intros k r.
  cbn [fst with_fields c_fields]. rewrite lookup_map_fields. destruct (lookup k (c_fields c)) as [r0|] eqn:L; cbn [option_map]; [|discriminate].
  intros E. injection E as <-. destruct (String.eqb (rf_tag r0) tag); [|eauto].
  unfold set_nsub, set_field, with_lay. cbn [rf_field]. apply Qlay. eauto.
Qed.
Lemma all_values c name opf : values_only opf -> all_fields c -> all_fields (fst (on_field c name opf)).
Proof.
  intros V H k r. rewrite on_field_lookup. destruct (String.eqb k name); [|apply H].
  destruct (lookup name (c_fields c)) as [r0|] eqn:L; [|discriminate]. intros E. injection E as <-.
  destruct (V (rf_field r0)) as (v & Ev & _). destruct (opf (rf_field r0)) as [f' o]. cbn [fst] in Ev. subst f'.
  cbn [set_field rf_field]. apply Qvals. eauto.
Qed.
Lemma all_new glob order tags c : new_coll glob order tags = Ok c -> all_fields c.
Proof.
  unfold new_coll. destruct (set_nb_sub_pts _ _ _) as [c' [x|e|]] eqn:E; intros H; try discriminate. apply Ok_inj in H. subst c'.
  change c with (fst (c, Ok x)). rewrite <- E. apply all_set_nb. intros k r. discriminate.
Qed.
Lemma all_register c name ty comp tag un al : c_init c = false \/ (forall f, Q f -> Q (fst (resize zero f))) -> all_fields c ->
  all_fields (fst (register_field zero c name ty comp tag un al)).
Proof.
  intros Hr H. unfold register_field. destruct (lookup name (c_fields c)) as [r1|] eqn:Ln.
  - destruct al; [|exact H]. repeat (match goal with |- context [if ?b then _ else _] => destruct b; [exact H|] end). exact H.
  - destruct (touch_tag_same c tag) as (_ & _ & _ & _ & _ & _ & _ & _ & Ef).
    assert (I : forall f, Q f -> all_fields (with_fields (touch_tag c tag) (insert name (mk_rfield tag un ty f) (c_fields (touch_tag c tag))))).
    { intros f Qf k r. cbn [with_fields c_fields]. rewrite Ef, lookup_insert. destruct (String.eqb k name); [|apply H].
      intros E. injection E as <-. exact Qf. }
    assert (T : all_fields (touch_tag c tag)) by (intros k r; rewrite Ef; apply H).
    destruct (c_init c) eqn:Ini.
    + destruct Hr as [Hr|Hr]; [discriminate|]. pose proof (Hr _ (Qnew (mk_layout (comp_shape comp) (comp_nb comp) (sub_pts_of (touch_tag c tag) tag) (c_order c)
                           (c_pix c) (c_pstr c) (c_npix c) (c_nbuf c)) (c_glob c) true)) as Qr.
      destruct (resize zero _) as [f' [x|e|]]; cbn [fst] in *; [now apply I | exact T | exact T].
    + apply I, Qnew.
Qed.
Lemma all_alloc : (forall f, Q f -> Q (fst (resize zero f))) -> forall l, (forall n (r : rfield A), lookup n l = Some r -> Q (rf_field r)) ->
  forall n r, lookup n (fst (allocate_fields zero l)) = Some r -> Q (rf_field r).
Proof.
  intros Hr l H n r L. destruct (allocate_each zero l n) as [E|(r0 & E1 & E2)].
  - rewrite E in L. eauto.
  - rewrite E2 in L. injection L as <-. unfold resized, set_field. cbn [rf_field]. apply Hr. eauto.
Qed.
Lemma all_sync c : all_fields c -> all_fields (sync c).
Proof.
  intros H k r. unfold sync. cbn [with_fields c_fields]. rewrite lookup_map_fields.
  destruct (lookup k (c_fields c)) as [r0|] eqn:L; cbn [option_map]; [|discriminate]. intros E. injection E as <-.
  unfold set_field, attach. cbn [rf_field]. apply Qlay. eauto.
Qed.
Lemma all_finish c idx : (forall f, Q f -> Q (fst (resize zero f))) -> all_fields c -> all_fields (fst (finish_init zero c idx)).
Proof.
  intros Hr H. unfold finish_init. pose proof (all_alloc Hr _ H) as Al.
  destruct (allocate_fields zero (c_fields c)) as [l [x|e|]]; cbn [fst] in *; [apply all_sync|..]; exact Al.
Qed.
Lemma all_init_global c nd nsd loc pstr : (forall f, Q f -> Q (fst (resize zero f))) -> all_fields c ->
  all_fields (fst (init_global zero c nd nsd loc pstr)).
Proof.
  intros Hr H. unfold init_global. destruct (_ <=? 0); [exact H|]. destruct (_ <? 0); [exact H|]. destruct (c_init c); [exact H|].
  destruct (pixels_strided _ _ _); try exact H; (destruct (get_buffer_size _ _); try exact H). apply all_finish; [exact Hr|].
  unfold with_pixels. apply all_sync. exact H.
Qed.
Lemma all_step c o : (forall f, Q f -> Q (fst (resize zero f))) -> from_python o = true -> all_fields c -> all_fields (fst (step zero c o)).
Proof.
  intros Hr F H. destruct o; try discriminate F; cbn [step].
  - apply all_register; auto.
  - now apply all_set_nb.
  - destruct (c_glob c); [exact H|]. unfold add_pixel. destruct (c_init c); exact H.
  - destruct (c_glob c); [exact H|]. unfold init_local. destruct (c_init c); [exact H|]. apply all_finish; [exact Hr|].
    unfold with_pixels. apply all_sync. exact H.
  - destruct (c_glob c); [|exact H]. now apply all_init_global.
  - destruct (c_glob c); [|exact H]. unfold init_global_order. destruct (pixel_strides_for _ _); try exact H. now apply all_init_global.
Qed.
Lemma all_pyrun l : (forall f, Q f -> Q (fst (resize zero f))) -> forall s, all_fields (p_coll s) -> all_fields (p_coll (pyrun zero junk s l)).
Proof.
  intros Hr. induction l as [|k l IH]; intros s H; [exact H|].
  change (pyrun zero junk s (k :: l)) with (pyrun zero junk (fst (pystep zero junk s k)) l). apply IH.
  destruct (pystep_coll s k) as [(o & _ & F & ->)|[(name & opf & V & ->)| ->]]; [now apply all_step|now apply all_values|exact H].
Qed.
Lemma all_quiet s k : ~ asks_init k -> c_init (p_coll s) = false /\ all_fields (p_coll s) ->
  c_init (p_coll (fst (pystep zero junk s k))) = false /\ all_fields (p_coll (fst (pystep zero junk s k))).
Proof.
  intros N (I & H). destruct (pystep_coll s k) as [(o & -> & F & ->)|[(name & opf & V & ->)| ->]]; [|split|auto].
  - cbn [asks_init] in N. destruct o; try discriminate F; cbn [initialises] in N; try tauto; cbn [step].
    + split; [|apply all_register; auto]. unfold register_field. destruct (lookup name (c_fields (p_coll s))).
      * destruct allow_existing; [|exact I]. repeat (match goal with |- context [if ?b then _ else _] => destruct b; [exact I|] end). exact I.
      * rewrite I. destruct (touch_tag_same (p_coll s) tag) as (_ & _ & Ei & _). cbn. now rewrite Ei.
    + split; [|now apply all_set_nb]. destruct (set_nb_cases (p_coll s) tag n) as [(_ & -> & _)|(_ & _ & ->)]; exact I.
    + destruct (c_glob (p_coll s)); [auto|]. unfold add_pixel. rewrite I. auto.
  - destruct (on_field_coll (p_coll s) name opf) as (_ & _ & -> & _). exact I.
  - now apply all_values.
Qed.
End All.

Lemma no_pad glob l s n r : program zero junk glob l s -> lookup n (c_fields (p_coll s)) = Some r -> f_pad (rf_field r) = 0.
Proof.
  intros (order & tags & c0 & _ & N & T & O & ->) L.
  assert (K : all_fields (fun f => f_pad f = 0) (p_coll (pyrun zero junk (mk_session c0 []) l))).
  { apply all_pyrun; auto; [|cbn; eapply all_new; eauto]. intros f Hf. destruct (resize_lay zero f) as (_ & _ & _ & ->). exact Hf. }
  exact (K _ _ L).
Qed.
Lemma no_memory glob l s n r : program zero junk glob l s -> Forall (fun k => ~ asks_init k) l ->
  lookup n (c_fields (p_coll s)) = Some r -> f_ptr (rf_field r) = None.
Proof.
  intros (order & tags & c0 & _ & N & T & O & ->) Q L.
  assert (Al : forall l s, Forall (fun k => ~ asks_init k) l ->
    c_init (p_coll s) = false /\ all_fields (fun f => f_ptr f = None) (p_coll s) ->
    c_init (p_coll (pyrun zero junk s l)) = false /\ all_fields (fun f => f_ptr f = None) (p_coll (pyrun zero junk s l))).
  { clear. induction l as [|k l IH]; intros s F H; [exact H|]. inversion F; subst.
    change (pyrun zero junk s (k :: l)) with (pyrun zero junk (fst (pystep zero junk s k)) l). apply IH; [assumption|].
    apply all_quiet; auto. }
  refine (proj2 (Al l _ Q _) _ _ L). cbn [p_coll]. split; [|eapply all_new; eauto].
  unfold new_coll in N. destruct (set_nb_cases (mk_coll glob order (build_map tags) false unknown unknown
     (if glob then [] else [unknown]) (if glob then [] else [1]) [] [] : coll A) pixel_tag 1) as [(E & _)|(_ & _ & E)].
  - destruct (set_nb_sub_pts _ _ _) as [c1 o]; cbn in E; subst o; discriminate.
  - rewrite E in N. apply Ok_inj in N. subst c0. reflexivity.
Qed.

Lemma same_view_run l : forall s i v, nth_error (p_views s) i = Some v ->
  exists v', nth_error (p_views (pyrun zero junk s l)) i = Some v' /\ same_view v v'.
Proof.
  induction l as [|k l IH]; intros s i v H; [exists v; split; [exact H|apply same_view_refl]|].
  change (pyrun zero junk s (k :: l)) with (pyrun zero junk (fst (pystep zero junk s k)) l).
  destruct (pystep_views s k i v H) as (v1 & N1 & (A1 & A2 & A3 & A4 & A5)).
  destruct (IH _ i v1 N1) as (v2 & N2 & (B1 & B2 & B3 & B4 & B5)). exists v2. split; [exact N2|].
  repeat split; try congruence. intros W. rewrite B5, A5; auto. congruence.
Qed.

(** Arrays taken before the first attempt to initialise have memory of their own for
    ever. *)
Theorem detached glob l0 s name u l s' i : program zero junk glob l0 s -> Forall (fun k => ~ asks_init k) l0 ->
  took zero junk s name u l s' i -> forall idx x, p_coll (fst (pystep zero junk s' (PPut i idx x))) = p_coll s'.
Proof.
  intros P Q (s1 & E & O & -> & ->) idx x. cbn [pystep] in E.
  destruct (get_array junk (p_coll s) name u) as [v| |] eqn:G; try (injection E as <- E; discriminate E).
  injection E as <-. destruct (get_array_fields _ _ _ _ G) as (_ & _ & r0 & L & Vp & _).
  rewrite (no_memory _ _ _ _ _ P Q L) in Vp.
  destruct (same_view_run l (mk_session (p_coll s) (p_views s ++ [v])) (length (p_views s)) v) as (v' & N & _ & _ & Sp & _).
  { cbn [p_views]. rewrite nth_error_app2, Nat.sub_diag by lia. reflexivity. }
  cbn [pystep]. unfold view_put, get_view. rewrite N. destruct (negb _); [reflexivity|].
  destruct (view_memory _ v'); try reflexivity. rewrite Sp, Vp. destruct (wr _ _ x); reflexivity.
Qed.

(** Assignment of an array to a property of the field. *)
Theorem assigned_seen glob l0 s name u l s' i r0 a vals : program zero junk glob l0 s -> initialised s ->
  get_field (p_coll s) name = Ok r0 -> viewable (f_lay (rf_field r0)) u -> took zero junk s name u l s' i ->
  Forall (fun n => 0 < n) (get_shape (f_lay (rf_field r0)) u) -> get_shape (f_lay (rf_field r0)) u <> [] -> zprod (get_shape (f_lay (rf_field r0)) u) < 2 ^ 31 ->
  np_shape a = get_shape (f_lay (rf_field r0)) u -> length (np_strides a) = length (np_shape a) -> 0 < np_item a ->
  whole_items a -> inside a (Z.of_nat (length vals)) ->
  exists s2, pystep zero junk s' (PAssign name u a vals) = (s2, Ok tt) /\
    forall idx, in_shape (np_shape a) idx -> view_get s2 i idx = element a vals idx.
Proof.
  intros P Ini G0 Hv T Fp Ne Bd Sa La Ia Wa Ins.
  destruct (took_on_memory _ _ _ _ _ _ _ _ P Ini T) as (v & r & M & Vn & Vu & S & Ini' & r1 & L1 & Q).
  unfold get_field in G0. rewrite L1 in G0. apply Ok_inj in G0. subst r1.
  pose proof Q as (Qt & Ql & Qg & Qp & Qn & _). rewrite <- Ql in *.
  pose proof M as (N & L & Pt & G). rewrite Vn in L.
  assert (Lm : Z.of_nat (length (f_vals (rf_field r))) = buffer_scalars (f_lay (rf_field r))).
  { pose proof (program_sinv _ _ _ P) as (_ & _ & _ & H0). destruct (H0 _ _ L1) as (_ & St). destruct (St Ini) as (_ & _ & Ln & _).
    unfold len in Ln. rewrite Qn, Ln, (no_pad _ _ _ _ _ P L1), <- Ql. unfold buffer_scalars. ring. }
  assert (Gs : exists st, get_strides (f_lay (rf_field r)) u 1 = Ok st) by (destruct (viewable_embeds _ u Hv) as (st & E & _); eauto).
  destruct Gs as (st & Gs).
  destruct (setter_correct (compute_axes_order (get_shape (f_lay (rf_field r)) u) st) (f_lay (rf_field r)) u a vals (f_vals (rf_field r)) (type_size (rf_type r)))
    as (m & w & E & Lm' & W & Sw & El & _); auto using size_pos.
  { intros st' E'. rewrite Gs in E'. apply Ok_inj in E'. subst st'. apply GridProofs2.compute_axes_order_outcome. }
  cbn [pystep]. unfold assign_array, on_field. rewrite L. unfold keep.
  assert (Pf : f_ptr (rf_field r) = Some (f_gen (rf_field r))).
  { destruct (get_array_fields _ _ _ _ G) as (_ & _ & r' & L' & Vp & _). rewrite Vn in L'. rewrite L in L'. injection L' as <-. congruence. }
  rewrite Pf, Z.eqb_refl. unfold array_setter. rewrite Gs. cbn [bind]. rewrite E. cbn [bind].
  eexists. split; [reflexivity|]. intros idx Hi.
  set (s2 := mk_session _ _).
  assert (M' : on_memory s2 i v (set_field r (with_vals (rf_field r) m))).
  { split; [exact N|]. rewrite Vn. split; [cbn; apply lookup_insert_same|]. split; [exact Pt|].
    eapply (get_array_in_place (p_coll s')); [rewrite Vn in G; exact L|cbn; apply lookup_insert_same| |rewrite Vn in G; exact G].
    repeat split. cbn. congruence. }
  rewrite (on_memory_get _ _ _ _ _ M').
  rewrite <- Vu in Hv. destruct (on_memory_places s' i v r S Ini' M Hv) as (Sh & _ & _ & Ad).
  assert (Hi' : in_shape (np_shape (v_arr v)) idx) by (rewrite Sh, Vu, <- Sa; exact Hi).
  rewrite (proj2 (index_ok_spec _ _) Hi'). cbn [set_field rf_field with_vals f_vals]. rewrite (Ad idx Hi').
  destruct (get_array_fields _ _ _ _ G) as (_ & _ & r' & L' & _ & Wv). rewrite Vn in L'. rewrite L in L'. injection L' as <-.
  rewrite Vu in Wv. rewrite Wv in W. apply Ok_inj in W. subst w. exact (El idx Hi).
Qed.

(** Arrays of fields can be had. *)
Lemma mul_last_pos l (k : Z) : Forall (fun n => 0 < n) l -> 0 < k -> Forall (fun n => 0 < n) (mul_last l k).
Proof.
  intros F Hk. induction F as [|x r Hx F IH]; [constructor|]. destruct r as [|y r]; cbn [mul_last].
  - constructor; [lia|constructor].
  - constructor; [exact Hx|exact IH].
Qed.
Lemma sub_pt_shape_pos f u : sane f -> Forall (fun n => 0 < n) (get_sub_pt_shape f u).
Proof.
  intros (_ & Fc & Np & _). unfold get_sub_pt_shape. destruct u.
  - destruct (1 <? l_nsub f); [|exact Fc]. destruct (l_comp f) as [|x r]; [auto|now apply mul_last_pos].
  - apply Forall_app. auto.
Qed.
Theorem array_given s name u r : get_field (p_coll s) name = Ok r -> viewable (f_lay (rf_field r)) u ->
  Forall (fun n => 0 <= n) (l_pix (f_lay (rf_field r))) -> exists s1, pystep zero junk s (PArray name u) = (s1, Ok tt).
Proof.
  intros G Hv Hp. destruct (wrap_view _ u _ Hv (size_pos (rf_type r))) as (st & a & _ & W & Sh & _ & Ls & _).
  cbn [pystep]. unfold get_array. rewrite G. cbn [bind]. rewrite W. cbn [bind]. rewrite Ls, Nat.eqb_refl. cbn [negb].
  assert (E : existsb (fun n => n <? 0) (np_shape a) = false); [|rewrite E; eauto].
  rewrite Sh. destruct (existsb _ _) eqn:E; [|reflexivity]. exfalso. apply existsb_exists in E. destruct E as (n & I & B).
  apply Z.ltb_lt in B. apply in_app_or in I. pose proof (sub_pt_shape_pos _ u (proj1 Hv)) as Fs. rewrite Forall_forall in *.
  destruct I as [I|I]; [specialize (Fs n I)|specialize (Hp n I)]; lia.
Qed.
End P.
