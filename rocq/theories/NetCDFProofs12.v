(** Which fields are accepted. *)
From Coq Require Import String Ascii Sorting.Sorted.
From Verif Require Import Base CIntModel GridModel GridSpec GridProofs StridedModel StridedProofs LayoutModel LayoutSpec LayoutProofs LayoutProofs2 SqrtModel CommModel CommProofs FrameModel RegistryModel.
From Verif Require Import NetCDFModel NetCDFSpec NetCDFProofs NetCDFProofs2 NetCDFProofs3 NetCDFProofs4 NetCDFProofs5 NetCDFProofs6 NetCDFProofs7 NetCDFProofs8 NetCDFProofs9 NetCDFProofs10.
Local Open Scope Z_scope.
Local Open Scope list_scope.

Lemma mapm_total {B C} (g : B -> res C) l : (forall x, In x l -> exists y, g x = Ok y) -> exists r, mapm g l = Ok r /\ forall y, In y r -> exists x, In x l /\ g x = Ok y.
Proof.
  induction l as [|x l IH]; intros H; [exists []; split; [reflexivity|easy]|]. destruct (H x (or_introl eq_refl)) as [y E].
  destruct IH as (r & Er & Ir); [intros; apply H; now right|]. exists (y :: r). cbn [mapm]. rewrite E. cbn [bind]. rewrite Er. split; [reflexivity|].
  intros z [<-|I]; [exists x; split; [now left|exact E]|]. destruct (Ir z I) as (x' & I' & E'). exists x'. split; [now right|exact E'].
Qed.
Lemma concat_const {B} (l : list (list B)) n : (forall x, In x l -> length x = n) -> length (concat l) = (length l * n)%nat.
Proof. induction l as [|x l IH]; intros H; [reflexivity|]. cbn [concat length]. rewrite app_length, (H x), IH by (intros; apply H; now right) || now left. lia. Qed.

Lemma accepted_local {A} total hist name f pixels n : (exists m : list A, local_field f n m) -> 0 < total -> Z.of_nat (length (l_comp (nf_lay f))) <= 2 ^ 31 ->
  (l_nbc (nf_lay f) = 1 -> l_nsub (nf_lay f) = 1) -> plain_name name -> (single (nf_lay f) = false -> plain_name (nf_tag f)) ->
  exists v, register_local total hist name f pixels = Ok v.
Proof.
  intros LF T LC N1 PN PT. unfold register_local, add_field_dims_local. set (v := mk_ncvar _ _ _).
  assert (R : local_as total hist name f v).
  { split; [reflexivity|]. split; [now apply plain_tensors|]. split; [|split].
    - intros Q. unfold based. apply base_kind. apply plain_dash. now apply PT.
    - intros nb _. unfold based. apply (base_kind "history_index"). apply (clean_join "_"); [reflexivity|apply decimal_clean|]. right. intros r E. exact (decimal_no_us _ ""%string r E).
    - intros _. unfold based. cbn [d_name]. apply plain_clean in PN. destruct name as [|a r]; [reflexivity|]. now apply (base_kind "pts"). }
  clearbody v. unfold consistency_check_local.
  assert (HS : forall o, exists y, mapm (start_local1 v 0 0 o) (v_dims v) = Ok y) by (intros o; eexists; eapply local_start_vec; eauto).
  assert (HC : exists y, mapm (count_local1 f) (v_dims v) = Ok y) by (eexists; eapply local_count_vec; eauto). destruct HC as [cnt HC].
  destruct (mapm_total (fun o => mapm (start_local1 v 0 0 o) (v_dims v)) (requests pixels) (fun x _ => HS x)) as (a & Ea & Ia). rewrite Ea. cbn [bind].
  destruct (mapm_total (fun _ : Z => mapm (count_local1 f) (v_dims v)) (requests pixels) (fun x _ => ex_intro _ _ HC)) as (b & Eb & Ib). rewrite Eb. cbn [bind].
  assert (HT : exists y, get_nc_stride v = Ok y) by (eexists; eapply local_stride_vec; eauto). destruct HT as [c Ec]. rewrite Ec. cbn [bind].
  destruct (local_imap_vec total hist name f v n R N1 LF) as (x & y & s & Ed & _). rewrite Ed. cbn [bind].
  pose proof (local_dims_length _ _ _ _ _ R) as LD. pose proof (local_imap_length _ _ _ _ _ _ R (lf_sane f n LF) Ed) as LI.
  destruct (lf_facts f n LF) as (EL & _). assert (LP : length (l_pix (nf_lay f)) = 1%nat) by (rewrite EL; reflexivity). rewrite LP in LI.
  assert (ES : single (nf_lay f) = (l_nbc (nf_lay f) =? 1)).
  { unfold single. destruct (Z.eqb_spec (l_nbc (nf_lay f)) 1) as [Q|Q]; [|reflexivity]. rewrite N1 by exact Q. reflexivity. }
  rewrite ES in LD. destruct (Z.eqb_spec total 0) as [T0|_]; [lia|].
  assert (Lc : length c = length (v_dims v)) by (apply mapm_length in Ec; exact Ec).
  assert (La : length (concat a) = (length a * length (v_dims v))%nat) by (apply concat_const; intros z I; destruct (Ia z I) as (? & _ & E); now apply mapm_length in E).
  assert (Lb : length (concat b) = (length b * length (v_dims v))%nat) by (apply concat_const; intros z I; destruct (Ib z I) as (? & _ & E); now apply mapm_length in E).
  apply mapm_length in Ea, Eb. rewrite La, Lb, Lc, Ea, Eb. rewrite Nat.mod_mul by lia. rewrite LD, LI, !Nat.eqb_refl. cbn [andb].
  eexists. reflexivity.
Qed.

(** Exactly these fields can be registered. *)
Lemma accepted_iff hist name f : sane (nf_lay f) -> length (nf_loc f) = length (nf_dom f) -> length (l_pix (nf_lay f)) = length (nf_dom f) ->
  (length (nf_dom f) <= 3)%nat -> Z.of_nat (length (l_comp (nf_lay f))) <= 2 ^ 31 ->
  (exists s v, register_global [0; 0; 0] false hist name f = (s, Ok v)) <->
  (l_nbc (nf_lay f) = 1 -> l_nsub (nf_lay f) = 1) /\ (l_comp (nf_lay f) <> [] -> plain_name name) /\ (single (nf_lay f) = false -> plain_name (nf_tag f)).
Proof.
  intros Sn L1 L2 L3 LC. split.
  - intros (s & v & E). assert (R : registered hist name f v) by (do 2 eexists; exact E).
    split; [now apply (refused_scalar hist name f v)|]. split; [now apply (refused_name hist name f v)|now apply (refused_tag hist name f v)].
  - intros (H1 & H2 & H3). apply accepted; try assumption; [reflexivity|].
    intros i Hi. left. destruct i as [|[|[|i]]]; [reflexivity ..|]. lia.
Qed.
Lemma local_tag total hist name f pixels v : register_local total hist name f pixels = Ok v -> single (nf_lay f) = false -> plain_name (nf_tag f).
Proof.
  intros E Q. apply register_local_inv in E. destruct E as [(_ & _ & SB & _) _]. specialize (SB Q). unfold based in SB. apply base_kind_only in SB. now apply plain_dash in SB.
Qed.
Lemma accepted_local_iff {A} total hist name f pixels n : (exists m : list A, local_field f n m) -> 0 < total -> Z.of_nat (length (l_comp (nf_lay f))) <= 2 ^ 31 ->
  (exists v, register_local total hist name f pixels = Ok v) <->
  (l_nbc (nf_lay f) = 1 -> l_nsub (nf_lay f) = 1) /\ plain_name name /\ (single (nf_lay f) = false -> plain_name (nf_tag f)).
Proof.
  intros LF T LC. split.
  - intros (v & E). destruct (lf_facts f n LF) as (EL & _). assert (LP : length (l_pix (nf_lay f)) = 1%nat) by (rewrite EL; reflexivity).
    destruct (refused_local _ _ _ _ _ _ E (lf_sane f n LF) LP) as [[_ H]|[H _]]; [|lia]. split; [exact H|].
    split; [apply (refused_local_name _ _ _ _ _ _ E); lia|now apply (local_tag _ _ _ _ _ _ E)].
  - intros (H1 & H2 & H3). now apply (@accepted_local A total hist name f pixels n).
Qed.
