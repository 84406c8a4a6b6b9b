(** Lemmas on copies of fields. *)
From Coq Require Import String.
From Verif Require Import Base GridModel GridSpec StridedModel LayoutModel LayoutSpec LayoutProofs FieldModel FieldSpec FieldProofs FieldProps
  RegistryModel RegistrySpec RegistryProofs RegistryProofs2 RegistryProofs3 RegistryProps UnitsModel CloneModel CloneSpec CloneProofs.
Local Open Scope Z_scope.
Local Open Scope list_scope.

Section Clone.
Context {A : Type} (zero : A).
Implicit Types c : coll A.
Implicit Types r : rfield A.

(** What is known of every field of a usable collection. *)
Lemma usable_field c k r : usable zero c -> get_field c k = Ok r ->
  ready (rf_field r) /\ sees c (rf_field r) /\ l_nsub (f_lay (rf_field r)) = sub_pts_of c (rf_tag r) /\ attr (rf_field r) /\
  sub_pts_of c (rf_tag r) <> unknown.
Proof.
  intros (R & I & G) H. pose proof (C17_ready zero c k r R I G H) as Rd. split; [exact Rd|].
  pose proof (sensibly_sinv true zero c R) as ((_ & V) & _ & _ & W). destruct (V _ _ (lookup_of_get _ _ _ H)) as [S N].
  destruct (W _ _ (lookup_of_get _ _ _ H)) as [At _]. split; [exact S|]. split; [exact N|]. split; [exact At|].
  destruct Rd as ((_ & _ & P & _) & _). rewrite <- N. unfold unknown. lia.
Qed.

Lemma sees_layout c (f g : field A) : sees c f -> sees c g -> l_comp (f_lay f) = l_comp (f_lay g) -> l_nbc (f_lay f) = l_nbc (f_lay g) ->
  l_nsub (f_lay f) = l_nsub (f_lay g) -> f_lay f = f_lay g /\ f_glob f = f_glob g.
Proof.
  intros (A1 & A2 & A3 & A4 & A5 & A6 & _) (B1 & B2 & B3 & B4 & B5 & B6 & _) E1 E2 E3. split; [|congruence].
  destruct (f_lay f), (f_lay g). cbn in *. congruence.
Qed.

Lemma unpadded_of c (f : field A) : sees c f -> c_nbuf c = c_npix c -> unpadded f.
Proof. intros (_ & _ & _ & E1 & E2 & _) E. unfold unpadded. congruence. Qed.

Definition put c name r : coll A := with_fields c (insert name r (c_fields c)).
Lemma get_put c name r k : get_field (put c name r) k = if String.eqb k name then Ok r else get_field c k.
Proof. unfold get_field, put, with_fields. cbn [c_fields]. rewrite lookup_insert. destruct (String.eqb k name); reflexivity. Qed.

Lemma copy_put sort c name r2 f f' : get_field c name = Ok r2 -> assign_with sort (rf_field r2) f = Ok f' ->
  copy_into sort c name f = (put c name (set_field r2 f'), Ok tt).
Proof. intros G E. unfold copy_into. rewrite (lookup_of_get _ _ _ G), E. reflexivity. Qed.

Lemma copy_fails sort c name r2 f e : get_field c name = Ok r2 -> assign_with sort (rf_field r2) f = Err e -> copy_into sort c name f = (c, Err e).
Proof. intros G E. unfold copy_into. rewrite (lookup_of_get _ _ _ G), E. reflexivity. Qed.

Lemma grid_of_coll c c' : same_coll c c' -> same_grid c c'.
Proof. unfold same_coll, same_grid. tauto. Qed.

(** Preparation of the new field. *)
Lemma clone_prepared sort c name new r : usable zero c -> get_field c name = Ok r -> ~ In new (list_fields c) ->
  exists c1 r2, clone_with zero sort c name new false = copy_into sort c1 new (rf_field r) /\ (forall b, clone_with zero sort c name new b = clone_with zero sort c name new false) /\
    same_coll c c1 /\ get_field c1 new = Ok r2 /\ (forall k, k <> new -> get_field c1 k = get_field c k) /\
    rf_tag r2 = rf_tag r /\ rf_unit r2 = rf_unit r /\ rf_type r2 = rf_type r /\ ready (rf_field r2) /\ sees c (rf_field r2) /\
    l_comp (f_lay (rf_field r2)) = [l_nbc (f_lay (rf_field r))] /\ l_nbc (f_lay (rf_field r2)) = l_nbc (f_lay (rf_field r)) /\
    l_nsub (f_lay (rf_field r2)) = l_nsub (f_lay (rf_field r)).
Proof.
  intros U H N. destruct (usable_field c name r U H) as (Rd & S & Ns & At & Kn). destruct At as (_ & At1 & At2 & At3).
  assert (P : positive (inl (l_nbc (f_lay (rf_field r))))). { cbn [positive]. rewrite At1. pose proof (zprod_pos _ At2). lia. }
  destruct (registered zero c new (rf_type r) (inl (l_nbc (f_lay (rf_field r)))) (rf_tag r) (rf_unit r) U P N Kn)
    as (c1 & r2 & E & U1 & Sc & G & H1 & H2 & H3 & H4 & H5 & H6 & H7 & H8 & H9 & H10).
  exists c1, r2. split.
  - unfold clone_with. rewrite (lookup_of_get _ _ _ H), (fresh_lookup _ _ N), E. reflexivity.
  - split; [intros b; unfold clone_with; rewrite (lookup_of_get _ _ _ H), (fresh_lookup _ _ N); reflexivity|]. cbn [comp_shape comp_nb] in *. rewrite Ns. auto 15.
Qed.

Lemma clone_fresh sort c name new allow r s : usable zero c -> get_field c name = Ok r -> ~ In new (list_fields c) ->
  l_comp (f_lay (rf_field r)) = [l_nbc (f_lay (rf_field r))] -> (c_glob c = false -> c_nbuf c = c_npix c) ->
  get_strides (f_lay (rf_field r)) SubPt 1 = Ok s -> sort_outcome (get_shape (f_lay (rf_field r)) SubPt) s sort ->
  Forall (fun x => 0 < x) (c_pix c) \/ c_npix c = 0 -> zprod (get_shape (f_lay (rf_field r)) SubPt) < 2 ^ 31 ->
  exists c' r', clone_with zero sort c name new allow = (c', Ok tt) /\ get_field c' new = Ok r' /\ same_kind r r' /\ ready (rf_field r') /\
    same_values (rf_field r) (rf_field r') /\ (forall k, k <> new -> get_field c' k = get_field c k) /\ same_grid c c'.
Proof.
  intros U H N Sh Un Es So Px Bg. destruct (usable_field c name r U H) as (Rd & S & Ns & At & Kn).
  destruct (clone_prepared sort c name new r U H N) as (c1 & r2 & E & Eb & Sc & G & Oth & T1 & T2 & T3 & R2 & S2 & L1 & L2 & L3). rewrite Eb.
  destruct (sees_layout c (rf_field r2) (rf_field r) S2 S) as [El Eg]; [congruence|exact L2|exact L3|].
  destruct (copy_same_layout sort (rf_field r2) (rf_field r) s R2 Rd El) as (f' & As & C1 & C2 & _ & _ & C5); auto.
  - intros Gl. apply (unpadded_of c); [exact S2|]. apply Un. destruct S2 as (_ & _ & _ & _ & _ & Gg & _). congruence.
  - destruct S as (_ & P1 & _ & P2 & _). now rewrite P1, P2.
  - exists (put c1 new (set_field r2 f')), (set_field r2 f'). split; [rewrite E; exact (copy_put sort c1 new r2 (rf_field r) f' G As)|].
    split; [rewrite get_put, String.eqb_refl; reflexivity|]. split; [unfold same_kind; cbn; rewrite C2, El; auto|]. split; [exact C1|]. split; [exact C5|].
    split; [|apply (grid_of_coll c c1 Sc)]. intros k Nk. rewrite get_put. apply String.eqb_neq in Nk as Nb. rewrite Nb. now apply Oth.
Qed.

Lemma app_neq {X} (a b t : list X) : a <> b -> a ++ t <> b ++ t.
Proof. intros N E. apply N. now apply app_inv_tail in E. Qed.

(** Several axes of components in a global collection. *)
Lemma clone_axes sort c name new allow r : usable zero c -> get_field c name = Ok r -> ~ In new (list_fields c) -> c_glob c = true ->
  l_comp (f_lay (rf_field r)) <> [l_nbc (f_lay (rf_field r))] ->
  exists c' r', clone_with zero sort c name new allow = (c', Err FieldError) /\ get_field c' new = Ok r' /\
    clone_with zero sort c' name new true = (c', Err FieldError).
Proof.
  intros U H N Gl Sh. destruct (usable_field c name r U H) as (Rd & S & Ns & At & Kn).
  destruct (clone_prepared sort c name new r U H N) as (c1 & r2 & E & Eb & Sc & G & Oth & T1 & T2 & T3 & R2 & S2 & L1 & L2 & L3). rewrite Eb.
  assert (Fa : assign_with sort (rf_field r2) (rf_field r) = Err FieldError).
  { apply C13_assign_mismatch_rejected; [destruct S2 as (_ & _ & _ & _ & _ & -> & _); exact Gl|].
    destruct S as (_ & P1 & _). destruct S2 as (_ & P2 & _). unfold get_shape, get_sub_pt_shape. rewrite P1, P2, L1, L3.
    apply app_neq, app_neq. congruence. }
  exists c1, r2. rewrite E, (copy_fails sort c1 new r2 (rf_field r) FieldError G Fa). split; [reflexivity|]. split; [exact G|].
  assert (Nn : name <> new). { intros ->. apply N. apply lookup_keys. rewrite (lookup_of_get _ _ _ H). discriminate. }
  unfold clone_with. rewrite (lookup_of_get _ _ _ (eq_trans (Oth name Nn) H)), (lookup_of_get _ _ _ G), L2, Z.eqb_refl, T1, String.eqb_refl, T3.
  cbn [negb]. destruct (rf_type r); cbn [ftype_eqb negb]; exact (copy_fails sort c1 new r2 (rf_field r) FieldError G Fa).
Qed.

(** Overwriting. *)
Lemma type_eqb_refl t : ftype_eqb t t = true.
Proof. now destruct t. Qed.
Lemma type_eqb_neq t t' : t <> t' -> ftype_eqb t t' = false.
Proof. destruct t, t'; cbn; congruence. Qed.

Lemma clone_overwrites sort c name new r r2 s : usable zero c -> get_field c name = Ok r -> get_field c new = Ok r2 ->
  rf_tag r2 = rf_tag r -> rf_type r2 = rf_type r -> l_comp (f_lay (rf_field r2)) = l_comp (f_lay (rf_field r)) -> (c_glob c = false -> c_nbuf c = c_npix c) ->
  get_strides (f_lay (rf_field r)) SubPt 1 = Ok s -> sort_outcome (get_shape (f_lay (rf_field r)) SubPt) s sort ->
  Forall (fun x => 0 < x) (c_pix c) \/ c_npix c = 0 -> zprod (get_shape (f_lay (rf_field r)) SubPt) < 2 ^ 31 ->
  exists c' r', clone_with zero sort c name new true = (c', Ok tt) /\ get_field c' new = Ok r' /\ same_kind r2 r' /\ ready (rf_field r') /\
    same_values (rf_field r) (rf_field r') /\ (forall k, k <> new -> get_field c' k = get_field c k) /\ same_grid c c'.
Proof.
  intros U H H2 Tg Ty Sh Un Es So Px Bg. destruct (usable_field c name r U H) as (Rd & S & Ns & At & Kn). destruct (usable_field c new r2 U H2) as (Rd2 & S2 & Ns2 & At2 & Kn2).
  assert (Nb : l_nbc (f_lay (rf_field r2)) = l_nbc (f_lay (rf_field r))). { destruct At as (_ & -> & _). destruct At2 as (_ & -> & _). now rewrite Sh. }
  destruct (sees_layout c (rf_field r2) (rf_field r) S2 S) as [El Eg]; [exact Sh|exact Nb|rewrite Ns, Ns2; congruence|].
  destruct (copy_same_layout sort (rf_field r2) (rf_field r) s Rd2 Rd El) as (f' & As & C1 & C2 & _ & _ & C5); auto.
  - intros Gl. apply (unpadded_of c); [exact S2|]. apply Un. destruct S2 as (_ & _ & _ & _ & _ & Gg & _). congruence.
  - destruct S as (_ & P1 & _ & P2 & _). now rewrite P1, P2.
  - exists (put c new (set_field r2 f')), (set_field r2 f'). split.
    + unfold clone_with. rewrite (lookup_of_get _ _ _ H), (lookup_of_get _ _ _ H2), Nb, Z.eqb_refl, Tg, String.eqb_refl, Ty, type_eqb_refl. cbn [negb].
      exact (copy_put sort c new r2 (rf_field r) f' H2 As).
    + split; [rewrite get_put, String.eqb_refl; reflexivity|]. split; [unfold same_kind; cbn; rewrite C2; auto|]. split; [exact C1|]. split; [exact C5|].
      split; [|unfold same_grid, put, with_fields; cbn; auto]. intros k Nk. rewrite get_put. apply String.eqb_neq in Nk. now rewrite Nk.
Qed.

Lemma clone_refused sort c name new allow r r2 : get_field c name = Ok r -> get_field c new = Ok r2 ->
  allow = false \/ l_nbc (f_lay (rf_field r2)) <> l_nbc (f_lay (rf_field r)) \/ rf_tag r2 <> rf_tag r \/ rf_type r2 <> rf_type r ->
  clone_with zero sort c name new allow = (c, Err FieldError).
Proof.
  intros H H2 D. unfold clone_with. rewrite (lookup_of_get _ _ _ H), (lookup_of_get _ _ _ H2). destruct allow; cbn [negb]; [|reflexivity].
  destruct (Z.eqb_spec (l_nbc (f_lay (rf_field r2))) (l_nbc (f_lay (rf_field r)))) as [E1|]; cbn [negb]; [|reflexivity].
  destruct (String.eqb_spec (rf_tag r2) (rf_tag r)) as [E2|]; cbn [negb]; [|reflexivity].
  destruct D as [D|[D|[D|D]]]; try congruence. now rewrite (type_eqb_neq _ _ D).
Qed.

Lemma nth_error_firstn' {X} (l : list X) : forall n i, (i < n)%nat -> nth_error (firstn n l) i = nth_error l i.
Proof. induction l as [|x l IH]; intros [|n] [|i] H; cbn; try reflexivity; try lia. apply IH. lia. Qed.

(** Several axes of components in a local collection: the scalars are copied
    but the shape is not. *)
Lemma clone_local_axes sort c name new allow r : usable zero c -> get_field c name = Ok r -> ~ In new (list_fields c) -> c_glob c = false -> c_nbuf c = c_npix c ->
  exists c' r', clone_with zero sort c name new allow = (c', Ok tt) /\ get_field c' new = Ok r' /\
    l_comp (f_lay (rf_field r')) = [l_nbc (f_lay (rf_field r))] /\
    (forall j, 0 <= j < buffer_scalars (f_lay (rf_field r)) -> rd (f_vals (rf_field r')) j = rd (f_vals (rf_field r)) j) /\
    (forall k, k <> new -> get_field c' k = get_field c k).
Proof.
  intros U H N Gl Un. destruct (usable_field c name r U H) as (Rd & S & Ns & At & Kn).
  destruct (clone_prepared sort c name new r U H N) as (c1 & r2 & E & Eb & Sc & G & Oth & T1 & T2 & T3 & R2 & S2 & L1 & L2 & L3). rewrite Eb.
  set (f := rf_field r2) in *. set (g := rf_field r) in *.
  assert (Bs : buffer_scalars (f_lay f) = buffer_scalars (f_lay g)).
  { unfold buffer_scalars. destruct S as (_ & _ & _ & _ & -> & _), S2 as (_ & _ & _ & _ & -> & _). now rewrite L2, L3. }
  assert (Zs : zprod (get_shape (f_lay f) SubPt) = buffer_scalars (f_lay g) /\ zprod (get_shape (f_lay g) SubPt) = buffer_scalars (f_lay g)).
  { pose proof (unpadded_of c f S2 Un) as U1. pose proof (unpadded_of c g S Un) as U2. unfold unpadded in *.
    destruct Rd as ((Hc & _) & _ & _ & _ & Np & _), R2 as ((Hc2 & _) & _ & _ & _ & Np2 & _). rewrite <- Bs at 1. rewrite !shape_prod.
    unfold buffer_scalars. rewrite U1, U2, Np, Np2, Hc, Hc2. split; ring. }
  destruct Zs as [Z1 Z2].
  destruct (vec_update_ready (fun _ b => b) f g R2 Rd) as (f' & V1 & V2 & V3 & V4); [congruence|auto|].
  assert (As : assign_with sort f g = Ok f'). { unfold assign_with. assert (Gf : f_glob f = false) by (destruct S2 as (_ & _ & _ & _ & _ & -> & _); exact Gl). now rewrite Gf. }
  exists (put c1 new (set_field r2 f')), (set_field r2 f'). split; [rewrite E; exact (copy_put sort c1 new r2 g f' G As)|].
  split; [rewrite get_put, String.eqb_refl; reflexivity|]. split; [cbn [set_field rf_field]; rewrite V3; exact L1|]. split.
  - cbn [set_field rf_field]. intros j Hj. rewrite V4, Z1. unfold rd. destruct (Z.ltb_spec j 0); [lia|].
    assert (Lg : (Z.to_nat (buffer_scalars (f_lay g)) <= length (f_vals g))%nat) by (destruct Rd as (_ & _ & _ & Pd & _ & _ & _ & Ln); unfold len in Ln; lia).
    rewrite nth_error_app1 by (rewrite firstn_length_le by exact Lg; lia). rewrite nth_error_firstn' by lia. reflexivity.
  - intros k Nk. rewrite get_put. apply String.eqb_neq in Nk as Nb. rewrite Nb. now apply Oth.
Qed.
End Clone.
