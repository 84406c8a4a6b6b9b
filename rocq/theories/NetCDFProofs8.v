(** Which fields can be registered. *)
From Coq Require Import String Ascii DecimalString.
From Verif Require Import Base CIntModel GridModel GridSpec GridProofs StridedModel StridedProofs LayoutModel LayoutSpec LayoutProofs LayoutProofs2 CommModel FrameModel RegistryModel RegistryProofs4.
From Verif Require Import NetCDFModel NetCDFSpec NetCDFProofs NetCDFProofs2 NetCDFProofs3 NetCDFProofs4 NetCDFProofs5 NetCDFProofs6 NetCDFProofs7.
Local Open Scope Z_scope.
Local Open Scope list_scope.

(** ** Plain names *)
Lemma two_us_inv s : two_underscores s = true -> exists b, s = ("__" ++ b)%string.
Proof.
  unfold two_underscores. destruct s as [|a [|b r]]; [discriminate|discriminate|]. intros E. apply andb_true_iff in E.
  destruct E as [E1 E2]. apply Ascii.eqb_eq in E1, E2. subst. now exists r.
Qed.
Lemma two_us_intro b : two_underscores ("__" ++ b)%string = true.
Proof. reflexivity. Qed.
Lemma clean_split t : clean t = true <-> forall a b, t <> (a ++ "__" ++ b)%string.
Proof.
  split.
  - intros C a. revert t C. induction a as [|x a IH]; intros t C b E; subst t.
    + cbn [append] in C. cbn [clean] in C. apply andb_true_iff in C. destruct C as [C _]. discriminate.
    + cbn [append clean] in C. apply andb_true_iff in C. destruct C as [_ C]. now apply (IH _ C b).
  - intros N. induction t as [|x t IH]; [reflexivity|]. cbn [clean]. destruct (two_underscores (String x t)) eqn:E.
    + apply two_us_inv in E. destruct E as [b E]. exfalso. now apply (N ""%string b).
    + cbn. apply IH. intros a b ->. now apply (N (String x a) b).
Qed.
Lemma plain_clean s : plain_name s <-> clean (String "_" s) = true.
Proof. unfold plain_name. now rewrite clean_split. Qed.
Lemma clean_prefix s t : clean (s ++ t)%string = true -> clean s = true.
Proof. rewrite !clean_split. intros N a b ->. apply (N a (b ++ t)%string). now rewrite <- !sapp_assoc. Qed.
Lemma clean_join s t : clean s = true -> clean t = true -> (forall r, s <> (r ++ "_")%string) \/ (forall r, t <> ("_" ++ r)%string) -> clean (s ++ t)%string = true.
Proof.
  induction s as [|x s IH]; intros Cs Ct O; [exact Ct|]. cbn [append clean] in *. apply andb_true_iff in Cs. destruct Cs as [C1 C2].
  apply andb_true_iff. split.
  - destruct (two_underscores (String x (s ++ t))) eqn:E; [|reflexivity]. apply two_us_inv in E. destruct E as [b E]. cbn in E. injection E as -> E.
    destruct s as [|y s].
    + cbn in E. exfalso. destruct O as [O|O]; [now apply (O ""%string)|now apply (O b)].
    + cbn in E. injection E as -> _. discriminate.
  - apply IH; try assumption. destruct O as [O|O]; [left|now right]. intros r ->. now apply (O (String x r)).
Qed.
Lemma decimal_chars n a : In a (list_ascii_of_string (decimal n)) -> digit a <> None.
Proof.
  unfold decimal, NilZero.string_of_uint. destruct (N.to_uint n) eqn:E; [intros [<-|[]]; vm_compute; discriminate|rewrite <- E; apply uint_chars ..].
Qed.
Lemma in_app_string a x b : In x (list_ascii_of_string (a ++ String x b)%string).
Proof. induction a as [|y a IH]; [now left|now right]. Qed.
Lemma decimal_no_us n a b : decimal n <> (a ++ String "_" b)%string.
Proof. intros E. apply (decimal_chars n "_"%char); [rewrite E; apply in_app_string|reflexivity]. Qed.
Lemma decimal_clean n : clean (decimal n) = true.
Proof. apply clean_split. intros a b. apply (decimal_no_us n a). Qed.
Lemma clean_dash s i : clean s = true -> clean (s ++ "-" ++ to_string i)%string = true.
Proof.
  intros C. apply clean_join; [exact C| |right; intros r E; discriminate].
  apply (clean_join "-"); [reflexivity|apply decimal_clean|]. left. intros r E. destruct r as [|x [|y r]]; discriminate.
Qed.
Lemma plain_dash s i : plain_name s <-> clean (String "_" (s ++ "-" ++ to_string i)) = true.
Proof.
  rewrite plain_clean. split.
  - intros C. apply (clean_dash (String "_" s) i C).
  - intros C. apply (clean_prefix (String "_" s) ("-" ++ to_string i)). exact C.
Qed.

(** ** Names that are refused *)
Lemma tensors_plain name c comp : tensors_known name (c :: comp) -> plain_name name.
Proof.
  intros K. specialize (K _ (or_introl eq_refl)). rewrite dim_name_dash in K. unfold based in K. cbn [d_name] in K.
  apply base_kind_only in K. now apply (plain_dash name 0).
Qed.
Lemma plain_tensors name comp : plain_name name -> tensors_known name comp.
Proof.
  intros P d I. apply tensor_dims_in in I. destruct I as (j & _ & ->). unfold based. cbn [d_name]. apply base_kind. now apply plain_dash.
Qed.
Lemma refused_name hist name f v : registered hist name f v -> l_comp (nf_lay f) <> [] -> plain_name name.
Proof.
  intros (seen & s & E) N. apply register_global_inv in E. destruct E as [(_ & _ & TK & _) _].
  destruct (l_comp (nf_lay f)) as [|c comp]; [contradiction|]. now apply tensors_plain in TK.
Qed.
Lemma refused_tag hist name f v : registered hist name f v -> single (nf_lay f) = false -> plain_name (nf_tag f).
Proof.
  intros (seen & s & E) S. apply register_global_inv in E. destruct E as [(_ & _ & _ & SB & _) _]. specialize (SB S).
  unfold based in SB. apply base_kind_only in SB. now apply plain_dash in SB.
Qed.
Lemma refused_scalar hist name f v : registered hist name f v -> sane (nf_lay f) ->
  length (nf_loc f) = length (nf_dom f) -> length (l_pix (nf_lay f)) = length (nf_dom f) -> l_nbc (nf_lay f) = 1 -> l_nsub (nf_lay f) = 1.
Proof. intros (seen & s & E) S L1 L2. apply register_global_inv in E. destruct E as [R C]. now apply (check_sub_points hist name f v). Qed.
Lemma refused_local_name total hist name f pixels v : register_local total hist name f pixels = Ok v -> total <> 0 -> plain_name name.
Proof.
  intros E T. apply register_local_inv in E. destruct E as [(_ & _ & _ & _ & PB) _]. specialize (PB T). unfold based in PB. cbn [d_name] in PB.
  apply plain_clean. destruct name as [|a r]; [reflexivity|]. exact (base_kind_only "pts" _ PB).
Qed.
Lemma local_dims_length total hist name f v : local_as total hist name f v ->
  length (v_dims v) = (1 + length (hist_part hist) + length (l_comp (nf_lay f)) + (if single (nf_lay f) then 0 else 1) + (if (total =? 0)%Z then 0 else 1))%nat.
Proof.
  intros (-> & _). cbn [v_dims]. rewrite subpt_dims_eq, !app_length, tensor_dims_length. cbn [length].
  destruct (single (nf_lay f)), (total =? 0); cbn [negb length]; lia.
Qed.
Lemma local_imap_length total hist name f v imap : local_as total hist name f v -> sane (nf_lay f) -> get_nc_imap v f = Ok imap ->
  length imap = (1 + length (hist_part hist) + length (l_comp (nf_lay f)) + (if (l_nbc (nf_lay f) =? 1)%Z then 0 else 1) + length (l_pix (nf_lay f)))%nat.
Proof.
  intros (-> & _) Sn. unfold get_nc_imap. cbn [v_dims v_hist existsb app frame_dim d_name].
  rewrite String.eqb_refl. cbn [orb]. intros E. apply bind_ok in E. destruct E as (s & Es & E). apply strides_length in Es. apply Ok_inj in E. subst imap.
  assert (Lp : length (l_pstr (nf_lay f)) = length (l_pix (nf_lay f))) by (now destruct Sn as (_ & _ & _ & _ & -> & _)).
  destruct hist, (l_nbc (nf_lay f) =? 1); cbn [length hist_part] in *; lia.
Qed.
(** Local fields need pixels, on some process, and scalars a single sub-point. *)
Lemma refused_local total hist name f pixels v : register_local total hist name f pixels = Ok v -> sane (nf_lay f) -> length (l_pix (nf_lay f)) = 1%nat ->
  (total <> 0 /\ (l_nbc (nf_lay f) = 1 -> l_nsub (nf_lay f) = 1)) \/ (total = 0 /\ l_nbc (nf_lay f) = 1 /\ l_nsub (nf_lay f) <> 1).
Proof.
  intros E Sn L1. apply register_local_inv in E. destruct E as [R C]. unfold consistency_check_local in C.
  apply bind_ok in C. destruct C as (a & _ & C). apply bind_ok in C. destruct C as (b & _ & C). apply bind_ok in C. destruct C as (c & Ec & C).
  apply bind_ok in C. destruct C as (d & Ed & C). apply mapm_length in Ec. pose proof (local_dims_length _ _ _ _ _ R) as LD.
  pose proof (local_imap_length _ _ _ _ _ _ R Sn Ed) as LI.
  destruct (((length (concat a) mod length c) =? 0)%nat && ((length (concat b) mod length c) =? 0)%nat && (length c =? length d)%nat && (length (concat a) =? length (concat b))%nat) eqn:EL; [|discriminate].
  apply andb_true_iff in EL. destruct EL as [EL _]. apply andb_true_iff in EL. destruct EL as [_ EL]. apply Nat.eqb_eq in EL.
  unfold single in LD. destruct (Z.eqb_spec total 0), (Z.eqb_spec (l_nbc (nf_lay f)) 1), (Z.eqb_spec (l_nsub (nf_lay f)) 1); cbn [andb] in LD; try tauto; exfalso; lia.
Qed.

(** ** Fields that are accepted *)
Lemma grid_dims_ok names : forall seen dom, (length dom <= length names)%nat -> length seen = length names ->
  (forall i, (i < length dom)%nat -> zn seen i = 0 \/ zn seen i = zn dom i) -> exists s g, grid_dims names seen dom = (s, Ok g).
Proof.
  induction names as [|n names IH]; intros [|o seen] [|d dom] L1 L2 C; cbn in L1, L2; try lia; cbn [grid_dims]; try (do 2 eexists; reflexivity).
  destruct (C 0%nat ltac:(cbn; lia)) as [E|E]; cbn in E; subst o.
  - destruct (IH seen dom) as (s & g & ->); [lia|lia|intros i Hi; apply (C (S i)); cbn; lia|]. cbn. do 2 eexists. reflexivity.
  - rewrite Z.eqb_refl. rewrite andb_false_r. destruct (IH seen dom) as (s & g & ->); [lia|lia|intros i Hi; apply (C (S i)); cbn; lia|]. cbn. do 2 eexists. reflexivity.
Qed.
Lemma accepted seen hist name f :
  sane (nf_lay f) -> length (nf_loc f) = length (nf_dom f) -> length (l_pix (nf_lay f)) = length (nf_dom f) ->
  (length (nf_dom f) <= 3)%nat -> Z.of_nat (length (l_comp (nf_lay f))) <= 2 ^ 31 ->
  (l_nbc (nf_lay f) = 1 -> l_nsub (nf_lay f) = 1) -> (l_comp (nf_lay f) <> [] -> plain_name name) ->
  (single (nf_lay f) = false -> plain_name (nf_tag f)) ->
  length seen = 3%nat -> (forall i, (i < length (nf_dom f))%nat -> zn seen i = 0 \/ zn seen i = zn (nf_dom f) i) ->
  exists s v, register_global seen false hist name f = (s, Ok v).
Proof.
  intros Sn L1 L2 L3 LC N1 PN PT LS CS. destruct (grid_dims_ok grid_names seen (nf_dom f)) as (s & g & EG); [exact L3|exact LS|exact CS|].
  unfold register_global, add_field_dims_global. rewrite EG. cbn [bind]. set (v := mk_ncvar _ _ _).
  assert (R : registered_as false hist name f v).
  { destruct (grid_dims_eq _ _ _ _ _ EG) as [-> _]. split; [reflexivity|]. split; [exact L3|]. split; [|split; [|split; [|exact LC]]].
    - destruct (l_comp (nf_lay f)) as [|c comp] eqn:EC; [intros d []|]. apply plain_tensors. now apply PN.
    - intros S. unfold based. apply base_kind. apply plain_dash. now apply PT.
    - intros nb _. unfold based. apply (base_kind "history_index"). apply (clean_join "_"); [reflexivity|apply decimal_clean|]. right. intros r E. exact (decimal_no_us _ ""%string r E). }
  destruct (imap_vector false hist name f v R) as (a & b & t & EI & _ & EM & _); [discriminate|exact Sn|exact L2|exact N1|].
  unfold consistency_check_global.
  rewrite (start_vector _ _ _ _ _ R) by (lia || assumption). cbn [bind].
  rewrite (count_vector _ _ _ _ _ R) by assumption. cbn [bind]. rewrite (stride_vector _ _ _ _ _ R). cbn [bind]. rewrite EI. cbn [bind].
  assert (LT : length t = length (body_shape (nf_lay f))) by (destruct EM as (-> & _); reflexivity).
  unfold body_shape in *. rewrite !app_length in LT. rewrite !app_length, !repeat_length.
  assert (LH : forall x y x' y', length (header false hist x y) = length (header false hist x' y')) by (intros; unfold header; rewrite !app_length; destruct hist; reflexivity).
  assert (LQ : forall x y, length (sub_part (nf_lay f) x) = length (sub_part (nf_lay f) y)) by (intros; unfold sub_part; destruct (single (nf_lay f)); reflexivity).
  rewrite LT. rewrite (LH 0 0 1 1), (LH 1 (hist_nb hist) 1 1), (LH a b 1 1). rewrite (LQ (l_nsub (nf_lay f)) 0). rewrite L1, L2.
  rewrite (Nat.add_assoc (length (l_comp (nf_lay f)))). rewrite !Nat.eqb_refl. cbn [andb]. do 2 eexists. reflexivity.
Qed.
