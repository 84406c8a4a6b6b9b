(** Lemmas on mapped state fields. *)
From Coq Require Import String.
From Verif Require Import Base GridModel GridSpec StridedModel LayoutModel LayoutSpec LayoutProofs FieldModel FieldSpec FieldProps
  RegistryModel RegistrySpec RegistryProofs RegistryProofs2 RegistryProofs3 RegistryProps UnitsModel MapModel MapProofs StateModel StateSpec StateProofs StateProofs2 StateProofs3 StateProofs4
  CloneModel CloneSpec CloneProofs CloneProofs3.
Local Open Scope Z_scope.
Local Open Scope list_scope.

Section MappedState.
Context {A : Type} (zero : A).
Implicit Types (c : coll A) (y : sys A).

Lemma sub_names_nodup p mem : NoDup (sub_names p mem).
Proof.
  unfold sub_names. apply FinFun.Injective_map_NoDup; [|apply seq_NoDup]. intros i j H. now apply sub_name_inj in H.
Qed.

Lemma subs_all ty nbc tag u ns : 0 < nbc < 2 ^ 31 -> forall c, usable zero c -> sub_pts_of c tag <> unknown -> NoDup ns ->
  (forall nm, In nm ns -> ~ In nm (list_fields c)) ->
  exists c1, register_subs zero c ns ty nbc tag u = (c1, Ok tt) /\ usable zero c1 /\ same_coll c c1 /\
    forall nm, In nm ns -> made c1 (c_order c) ty nbc tag u (sub_pts_of c tag) nm.
Proof.
  intros P. induction ns as [|n ns IH]; intros c U T D F.
  - exists c. split; [reflexivity|]. split; [exact U|]. split; [unfold same_coll; auto 10|]. intros nm [].
  - destruct (registered zero c n ty (inl nbc) tag u U P (F n (or_introl eq_refl)) T) as (c1 & r & E & U1 & S & G & H1 & H2 & H3 & H4 & H5 & H6 & H7 & H8 & _ & H9).
    pose proof (register_number zero c n ty (inl nbc) tag u false tag) as Tn. rewrite E in Tn. cbn [fst] in Tn.
    assert (Ts : sub_pts_of c1 tag = sub_pts_of c tag) by (unfold sub_pts_of; now rewrite Tn).
    apply NoDup_cons_iff in D. destruct D as [D1 D2].
    destruct (IH c1 U1 ltac:(now rewrite Ts) D2) as (c2 & E2 & U2 & S2 & M).
    { intros nm I J. assert (Nn : nm <> n) by (intros ->; contradiction). apply lookup_keys in J. specialize (H9 nm Nn).
      apply (F nm (or_intror I)). apply lookup_keys. unfold get_field in H9. destruct (lookup nm (c_fields c1)), (lookup nm (c_fields c)); congruence. }
    exists c2. cbn [register_subs]. rewrite E. split; [exact E2|]. split; [exact U2|]. split.
    { unfold same_coll in *. intuition congruence. }
    assert (Oo : c_order c1 = c_order c) by (unfold same_coll in S; intuition congruence).
    intros nm [<-|I].
    + exists r. split; [|split; [|split; [exact H4|]]].
      * pose proof (subs_keeps zero n r ty nbc tag u ns c1 G) as K. now rewrite E2 in K.
      * unfold as_requested. cbn [comp_shape comp_nb] in *. auto 10.
      * destruct H5 as (H5 & _). exact H5.
    + rewrite <- Oo, <- Ts. now apply M.
Qed.

Lemma touch_known c tag : sub_pts_of c tag <> unknown -> touch_tag c tag = c.
Proof. unfold touch_tag, sub_pts_of. destruct (tag_number c tag); [reflexivity|congruence]. Qed.

(** Registration of a state field in a usable collection. *)
Lemma state_made y p ty mem nbc tag u : usable zero (y_coll y) -> 1 <= mem -> 0 < nbc < 2 ^ 31 -> get_state y p = Err FieldCollectionError ->
  (forall nm, In nm (sub_names p mem) -> ~ In nm (list_fields (y_coll y))) -> sub_pts_of (y_coll y) tag <> unknown ->
  exists y1, register_state zero y p ty mem nbc tag u false = (y1, Ok tt) /\ usable zero (y_coll y1) /\
    get_state y1 p = Ok (mk_sfield mem nbc tag u ty (init_indices mem)) /\
    (forall nm, In nm (sub_names p mem) -> made (y_coll y1) (c_order (y_coll y)) ty nbc tag u (sub_pts_of (y_coll y) tag) nm) /\
    (forall nm, ~ In nm (sub_names p mem) -> get_field (y_coll y1) nm = get_field (y_coll y) nm) /\
    (forall q, q <> p -> get_state y1 q = get_state y q).
Proof.
  intros U M P G F T.
  destruct (subs_all ty nbc tag u (sub_names p mem) P (y_coll y) U T (sub_names_nodup p mem) F) as (c1 & E & U1 & _ & Q).
  assert (R : register_state zero y p ty mem nbc tag u false = (mk_sys c1 (insert p (mk_sfield mem nbc tag u ty (init_indices mem)) (y_states y)), Ok tt)).
  { unfold register_state. unfold get_state in G. destruct (lookup p (y_states y)); [discriminate|]. cbn zeta. rewrite (touch_known _ _ T).
    destruct (Z.ltb_spec mem 1); [lia|]. rewrite E. reflexivity. }
  pose proof (register_state_fresh zero y p ty mem nbc tag u false G) as X. rewrite R in X. cbn [snd fst] in X. destruct (X eq_refl) as (_ & X1 & _ & X2 & X3).
  eexists. split; [exact R|]. split; [exact U1|]. split; [exact X1|]. split; [exact Q|]. split; [exact X2|exact X3].
Qed.

Lemma made_alike y1 p mem ty nbc tag un n u : n <> unknown -> (forall nm, In nm (sub_names p mem) -> made (y_coll y1) ColMajor ty nbc tag un n nm) ->
  alike y1 p mem u (match u with Pixel => nbc * n | SubPt => nbc end).
Proof.
  intros N M nm I. destruct (M nm I) as (r & G & (_ & _ & _ & _ & E1 & E2) & _ & O). exists r. split; [exact G|].
  split; [unfold has_nsub; rewrite E2; destruct (Z.eqb_spec n unknown); [contradiction|reflexivity]|]. split; [exact O|].
  unfold scalars_per_entry. rewrite E1, E2. destruct u; [reflexivity|reflexivity].
Qed.

Lemma sreachable_register y p ty mem nbc tag u allow y1 o : sreachable zero y -> register_state zero y p ty mem nbc tag u allow = (y1, o) -> sreachable zero y1.
Proof.
  intros (g & od & t & c0 & h & N & ->) E. exists g, od, t, c0, (h ++ [SRegister p ty mem nbc tag u allow]). split; [exact N|].
  unfold srun in *. rewrite fold_left_app. cbn [fold_left sstep]. now rewrite E.
Qed.
End MappedState.
