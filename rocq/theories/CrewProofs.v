(** Functions of the object on two processes that have different parts of the same
    collection. *)
From Coq Require Import String.
From Verif Require Import Base GridModel GridProofs GridProofs2 StridedModel LayoutModel LayoutProofs CommModel.
From Verif Require Import NetCDFModel NetCDFSpec NetCDFProofs NetCDFProofs2 NetCDFProofs3 NetCDFProofs4 NetCDFProofs5 NetCDFProofs6 NetCDFProofs7 NetCDFProofs8 NetCDFProofs9 NetCDFProofs10 NetCDFProofs12 DimModel DimProofs2 CrewModel CrewSpec.
Local Open Scope Z_scope.
Local Open Scope list_scope.

(** ** Outcomes *)

Definition rres {X Y} (A : X -> Y -> Prop) (r : res X) (s : res Y) : Prop :=
  match r, s with
  | Ok x, Ok y => A x y
  | Err e, Err e' => e = e'
  | UB, UB => True
  | _, _ => False
  end.
Lemma rres_bind {X Y X' Y'} (A : X -> Y -> Prop) (B : X' -> Y' -> Prop) r s f g :
  rres A r s -> (forall x y, A x y -> rres B (f x) (g y)) -> rres B (bind r f) (bind s g).
Proof. destruct r, s; cbn [rres bind]; intros H K; try contradiction; auto. Qed.
Lemma rres_eq {X} (r : res X) : rres eq r r.
Proof. destruct r; cbn; auto. Qed.
Lemma rres_eq_iff {X} (r s : res X) : rres eq r s -> r = s.
Proof. destruct r, s; cbn; intros H; try contradiction; now subst. Qed.
Lemma rres_weak {X Y} (A B : X -> Y -> Prop) r s : (forall x y, A x y -> B x y) -> rres A r s -> rres B r s.
Proof. destruct r, s; cbn; auto. Qed.
Definition alen {X Y} (l : list X) (m : list Y) : Prop := length l = length m.
Lemma rres_mapm {X Y Z} (f : X -> res Y) (g : X -> res Z) l : (forall x, In x l -> rres (fun _ _ => True) (f x) (g x)) -> rres alen (mapm f l) (mapm g l).
Proof.
  induction l as [|x l IH]; intros H; cbn [mapm]; [reflexivity|].
  eapply rres_bind; [apply H; now left|]. intros y z _. eapply rres_bind; [apply IH; intros; apply H; now right|].
  intros ys zs E. cbn. unfold alen in *. cbn. now rewrite E.
Qed.

(** ** Consistency checks *)

Lemma tensor_count_alike f g d : alike_field f g -> rres eq (tensor_count f d) (tensor_count g d).
Proof. intros (_ & _ & E & _). unfold tensor_count. rewrite E. apply rres_eq. Qed.
Lemma imap_alike v f g : alike_field f g -> rres alen (get_nc_imap v f) (get_nc_imap v g).
Proof.
  intros (_ & _ & E1 & E2 & E3 & E4 & E5). unfold get_nc_imap, get_strides, get_sub_pt_strides, get_components_strides.
  rewrite E1, E2, E3, E4.
  set (u := if l_nbc (nf_lay g) =? 1 then Pixel else SubPt).
  apply rres_bind with (A := alen).
  - apply rres_bind with (A := alen).
    + apply rres_bind with (A := alen); [|].
      * apply rres_weak with (A := eq); [intros x y ->; reflexivity|]. apply rres_eq.
      * intros s t L. destruct u; [exact L|]. unfold alen in *. destruct (l_order (nf_lay g)); cbn; rewrite ?app_length, ?map_length, L; reflexivity.
    + intros s t L. unfold alen in *. destruct (l_order (nf_lay g)); cbn; rewrite ?app_length, ?map_length; unfold get_pixels_strides; rewrite ?map_length, ?L, ?E5; reflexivity.
  - intros s t L. unfold alen in L.
    assert (LL : length (match v_hist v with None => l_npix (nf_lay f) * nb_dof_per_pixel (nf_lay f) :: s
                         | Some nb => l_npix (nf_lay f) * nb_dof_per_pixel (nf_lay f) * nb :: l_npix (nf_lay f) * nb_dof_per_pixel (nf_lay f) :: s end) =
                 length (match v_hist v with None => l_npix (nf_lay g) * nb_dof_per_pixel (nf_lay g) :: t
                         | Some nb => l_npix (nf_lay g) * nb_dof_per_pixel (nf_lay g) * nb :: l_npix (nf_lay g) * nb_dof_per_pixel (nf_lay g) :: t end))
      by (destruct (v_hist v); cbn [length]; now rewrite L).
    cbv zeta. rewrite LL. destruct (existsb _ _); [exact LL|]. destruct (Nat.ltb _ _); [exact I|]. cbn [rres]. unfold alen. rewrite !skipn_length. now rewrite LL.
Qed.
Lemma check_global_alike v f g : alike_field f g -> consistency_check_global v f = consistency_check_global v g.
Proof.
  intros A. apply rres_eq_iff. unfold consistency_check_global.
  apply rres_bind with (A := alen).
  { unfold get_start_global. cbn. apply rres_mapm. intros d _. unfold start1.
    destruct (base_is d "frame"); [exact I|]. destruct (_ && _); [exact I|]. destruct (grid_axis d); [exact I|]. destruct (_ || _); [exact I|reflexivity]. }
  intros a a' La. apply rres_bind with (A := alen).
  { unfold get_count_global. apply rres_mapm. intros d _. unfold count1.
    destruct (_ || _); [exact I|]. destruct (grid_axis d); [exact I|]. destruct (base_is d "subpt"); [exact I|]. destruct (base_is d "tensor_dim"); [|reflexivity].
    eapply rres_weak; [|exact (tensor_count_alike f g d A)]. auto. }
  intros b b' Lb. apply rres_bind with (A := alen); [apply rres_weak with (A := eq); [intros x y ->; reflexivity|apply rres_eq]|].
  intros c c' Lc. apply rres_bind with (A := alen); [now apply imap_alike|].
  intros d d' Ld. unfold alen in *. rewrite La, Lb, Lc, Ld. destruct (_ && _); reflexivity.
Qed.

(** The check of a local variable does not depend on the pixels. *)
Section Local.
Variables (total : Z) (hist : option Z) (name : string) (f : nfield).
Let v := mk_ncvar name ([frame_dim] ++ hist_part hist ++ add_field_dims_local total name f) hist.
Hypothesis few : Z.of_nat (length (l_comp (nf_lay f))) <= 2 ^ 31.

Lemma local_as_stride c : get_nc_stride v = Ok c -> local_as total hist name f v.
Proof.
  intros Ec. split; [reflexivity|]. unfold get_nc_stride in Ec. subst v. cbn [v_dims] in Ec. unfold add_field_dims_local in Ec.
  rewrite !mapm_app in Ec. apply bind_ok in Ec. destruct Ec as (c1 & E1 & Ec). apply bind_ok in Ec. destruct Ec as (c2 & Ec & _).
  apply bind_ok in Ec. destruct Ec as (c3 & E3 & Ec). apply bind_ok in Ec. destruct Ec as (c4 & Ec & _).
  apply bind_ok in Ec. destruct Ec as (c5 & E5 & Ec). apply bind_ok in Ec. destruct Ec as (c6 & Ec & _).
  apply bind_ok in Ec. destruct Ec as (c7 & E7 & Ec). apply bind_ok in Ec. destruct Ec as (c8 & E8 & _).
  split; [eapply tensors_from_stride; exact E5|]. split; [|split].
  - intros S. rewrite subpt_dims_eq, S in E7. destruct (mapm_ok _ _ _ E7 _ (or_introl eq_refl)) as [y Y].
    destruct (base_extends "subpt" (nf_tag f ++ "-" ++ to_string (l_nsub (nf_lay f)))) as [t T].
    eapply stride_subpt; [|exact Y]. exact T.
  - intros nb ->. destruct (mapm_ok _ _ _ E3 _ (or_introl eq_refl)) as [y Y].
    destruct (base_extends "history_index" (to_string nb)) as [t T]. eapply stride_hist; [|exact Y]. exact T.
  - intros N. destruct (Z.eqb_spec total 0); [contradiction|]. cbn [negb] in E8.
    destruct (mapm_ok _ _ _ E8 _ (or_introl eq_refl)) as [y Y].
    destruct name as [|a0 name']; [reflexivity|]. set (name0 := String a0 name') in *.
    destruct (base_extends "pts" name0) as [t T]. eapply stride_pts; [|exact Y]. exact T.
Qed.
Lemma mapm_in {X Y} (g : X -> res Y) l r : mapm g l = Ok r -> forall x, In x l -> exists y, g x = Ok y.
Proof. intros E x I. exact (mapm_ok _ _ _ E x I). Qed.
Lemma local_counts : local_as total hist name f v -> exists r, mapm (count_local1 f) (v_dims v) = Ok r.
Proof.
  intros (_ & TK & SB & HB & PB). subst v. cbn [v_dims]. unfold add_field_dims_local. rewrite !mapm_app, tensor_counts_local by assumption.
  rewrite subpt_dims_eq. replace (mapm (count_local1 f) [frame_dim]) with (Ok [1]) by reflexivity. cbn [bind].
  assert (H1 : exists r, mapm (count_local1 f) (hist_part hist) = Ok r).
  { destruct hist as [nb|] eqn:EH; [|eexists; reflexivity]. cbn [hist_part mapm]. specialize (HB nb eq_refl). unfold based in HB.
    unfold count_local1, base_is. rewrite HB. eexists. reflexivity. }
  destruct H1 as [r1 ->]. cbn [bind].
  assert (H3 : exists r, mapm (count_local1 f) (if negb (total =? 0) then [mk_ncdim (compute_dim_name "pts" name) total] else []) = Ok r).
  { destruct (Z.eqb_spec total 0) as [_|N]; cbn [negb mapm]; [eexists; reflexivity|]. specialize (PB N). unfold based in PB.
    unfold count_local1, base_is. rewrite PB. eexists. reflexivity. }
  destruct H3 as [r3 ->].
  destruct (single (nf_lay f)) eqn:ES; [cbn [mapm bind]; eexists; reflexivity|]. specialize (SB eq_refl). unfold based in SB.
  cbn [mapm]. unfold count_local1, base_is. rewrite SB. cbn [bind]. eexists. reflexivity.
Qed.
Lemma local_starts o : local_as total hist name f v -> exists r, mapm (start_local1 v 0 0 o) (v_dims v) = Ok r.
Proof.
  intros (_ & TK & SB & HB & PB). subst v. cbn [v_dims]. set (v0 := mk_ncvar _ _ _). unfold add_field_dims_local. rewrite !mapm_app, tensor_starts_local by assumption.
  rewrite subpt_dims_eq. replace (mapm (start_local1 v0 0 0 o) [frame_dim]) with (Ok [0]) by reflexivity. cbn [bind].
  assert (H1 : exists r, mapm (start_local1 v0 0 0 o) (hist_part hist) = Ok r).
  { destruct hist as [nb|] eqn:EH; [|eexists; reflexivity]. cbn [hist_part mapm]. specialize (HB nb eq_refl). unfold based in HB.
    unfold start_local1, base_is. rewrite HB. eexists. reflexivity. }
  destruct H1 as [r1 ->]. cbn [bind].
  assert (H3 : exists r, mapm (start_local1 v0 0 0 o) (if negb (total =? 0) then [mk_ncdim (compute_dim_name "pts" name) total] else []) = Ok r).
  { destruct (Z.eqb_spec total 0) as [_|N]; cbn [negb mapm]; [eexists; reflexivity|]. specialize (PB N). unfold based in PB.
    unfold start_local1, base_is. rewrite PB. eexists. reflexivity. }
  destruct H3 as [r3 ->].
  destruct (single (nf_lay f)) eqn:ES; [cbn [mapm bind]; eexists; reflexivity|]. specialize (SB eq_refl). unfold based in SB.
  cbn [mapm]. unfold start_local1 at 1, base_is. rewrite SB. cbn [bind]. eexists. reflexivity.
Qed.
(** A start that is known has a stride. *)
Lemma start_stride o d y : start_local1 v 0 0 o d = Ok y -> exists z, stride1 v d = Ok z.
Proof.
  unfold start_local1, stride1. destruct (base_is d "frame") eqn:EF.
  - intros _. assert (base_is d "history_index" = false) as ->.
    { unfold base_is in *. apply String.eqb_eq in EF. rewrite EF. reflexivity. }
    cbn [orb]. eexists. reflexivity.
  - destruct (base_is d "history_index") eqn:EH; cbn [andb].
    + destruct (v_hist v) as [nb|]; [intros _; eexists; reflexivity|].
      assert (base_is d "pts" = false) as -> by (unfold base_is in *; apply String.eqb_eq in EH; rewrite EH; reflexivity).
      assert (base_is d "subpt" = false) as -> by (unfold base_is in *; apply String.eqb_eq in EH; rewrite EH; reflexivity).
      assert (base_is d "tensor_dim" = false) as -> by (unfold base_is in *; apply String.eqb_eq in EH; rewrite EH; reflexivity).
      discriminate.
    + destruct (base_is d "pts"); [intros _; eexists; reflexivity|].
      destruct (base_is d "subpt"); [intros _; eexists; reflexivity|]. destruct (base_is d "tensor_dim"); [intros _; eexists; reflexivity|discriminate].
Qed.
Lemma mapm_err {X Y} (g : X -> res Y) l : (forall x, g x = Err FileIOError \/ exists y, g x = Ok y) -> mapm g l = Err FileIOError \/ exists r, mapm g l = Ok r.
Proof.
  intros H. induction l as [|x l IH]; cbn [mapm]; [right; now exists []|].
  destruct (H x) as [->|[y ->]]; [now left|]. cbn [bind]. destruct IH as [->|[r ->]]; [now left|right; eexists; reflexivity].
Qed.
Lemma check_local_pixels pixels : consistency_check_local v f pixels =
  (let! c := get_nc_stride v in let! d := get_nc_imap v f in if (length c =? length d)%nat then Ok tt else Err FileIOError).
Proof.
  unfold consistency_check_local.
  assert (HS : forall o d, start_local1 v 0 0 o d = Err FileIOError \/ exists y, start_local1 v 0 0 o d = Ok y).
  { intros o d. unfold start_local1. destruct (base_is d "frame"); [eauto|]. destruct (_ && _); [eauto|]. destruct (base_is d "pts"); [eauto|]. destruct (_ || _); eauto. }
  destruct (get_nc_stride v) as [c|e|] eqn:Ec.
  - pose proof (local_as_stride c Ec) as LA. destruct (local_counts LA) as [cnt HC].
    destruct (mapm_total (fun o => mapm (start_local1 v 0 0 o) (v_dims v)) (requests pixels) (fun x _ => local_starts x LA)) as (a & Ea & Ia). rewrite Ea. cbn [bind].
    destruct (mapm_total (fun _ : Z => mapm (count_local1 f) (v_dims v)) (requests pixels) (fun x _ => ex_intro _ _ HC)) as (b & Eb & Ib). rewrite Eb. cbn [bind].
    destruct (get_nc_imap v f) as [d|e|]; [|reflexivity ..]. cbn [bind].
    assert (Lc : length c = length (v_dims v)) by (apply mapm_length in Ec; exact Ec).
    assert (La : length (concat a) = (length a * length (v_dims v))%nat) by (apply concat_const; intros z I; destruct (Ia z I) as (? & _ & E); now apply mapm_length in E).
    assert (Lb : length (concat b) = (length b * length (v_dims v))%nat) by (apply concat_const; intros z I; destruct (Ib z I) as (? & _ & E); now apply mapm_length in E).
    apply mapm_length in Ea, Eb. rewrite La, Lb, Lc, Ea, Eb.
    rewrite Nat.mod_mul, !Nat.eqb_refl by (subst v; cbn; lia). rewrite andb_true_r. cbn [andb]. reflexivity.
  - assert (NS : forall o, mapm (start_local1 v 0 0 o) (v_dims v) = Err FileIOError).
    { intros o. destruct (mapm_err (start_local1 v 0 0 o) (v_dims v) (HS o)) as [E|[r E]]; [exact E|].
      exfalso. destruct (mapm_total (stride1 v) (v_dims v)) as (r' & Er & _); [|unfold get_nc_stride in Ec; congruence].
      intros d I. destruct (mapm_in _ _ _ E d I) as [y Y]. exact (start_stride o d y Y). }
    assert (EE : e = FileIOError).
    { destruct (mapm_err (stride1 v) (v_dims v)) as [E|[r E]]; unfold get_nc_stride in Ec; [|congruence|congruence].
      intros d. unfold stride1. destruct (base_is d "history_index"); [destruct (v_hist v); eauto|]. destruct (_ || _); eauto. }
    subst e. destruct (requests pixels) as [|o l]; cbn [mapm bind]; [reflexivity|]. rewrite NS. reflexivity.
  - exfalso. destruct (mapm_err (stride1 v) (v_dims v)) as [E|[r E]]; unfold get_nc_stride in Ec; [|congruence|congruence].
    intros d. unfold stride1. destruct (base_is d "history_index"); [destruct (v_hist v); eauto|]. destruct (_ || _); eauto.
Qed.
End Local.
Lemma check_local_alike total hist name f g pixels pixels' :
  let v := mk_ncvar name ([frame_dim] ++ hist_part hist ++ add_field_dims_local total name f) hist in
  alike_field f g -> Z.of_nat (length (l_comp (nf_lay f))) <= 2 ^ 31 ->
  consistency_check_local v f pixels = consistency_check_local v g pixels'.
Proof.
  cbv zeta. intros A F. assert (E : add_field_dims_local total name f = add_field_dims_local total name g).
  { destruct A as (E1 & _ & E2 & E3 & E4 & _). unfold add_field_dims_local, subpt_dims. now rewrite E1, E2, E3, E4. }
  rewrite check_local_pixels by exact F. rewrite E. rewrite check_local_pixels by (destruct A as (_ & _ & <- & _); exact F).
  apply rres_eq_iff. apply rres_bind with (A := eq); [apply rres_eq|]. intros c ? <-. apply rres_bind with (A := alen); [now apply imap_alike|].
  intros d d' L. unfold alen in L. rewrite L. apply rres_eq.
Qed.
