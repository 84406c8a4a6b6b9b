(** Lemmas about registered variables. *)
From Coq Require Import String Ascii.
From Verif Require Import Base CIntModel GridModel GridSpec GridProofs StridedModel LayoutModel LayoutSpec LayoutProofs CommModel FrameModel RegistryModel.
From Verif Require Import NetCDFModel NetCDFSpec NetCDFProofs.
Local Open Scope Z_scope.
Local Open Scope list_scope.

Lemma mapm_app {A B} (g : A -> res B) a b :
  mapm g (a ++ b) = let! x := mapm g a in let! y := mapm g b in Ok (x ++ y).
Proof.
  induction a as [|x a IH]; cbn [mapm app].
  - now destruct (mapm g b).
  - rewrite IH. destruct (g x); [|reflexivity ..]. cbn [bind]. destruct (mapm g a); [|reflexivity ..]. cbn [bind].
    now destruct (mapm g b).
Qed.
Lemma mapm_ok {A B} (g : A -> res B) l r : mapm g l = Ok r -> forall x, In x l -> exists y, g x = Ok y.
Proof.
  revert r. induction l as [|a l IH]; cbn [mapm]; intros r E x I; [easy|].
  destruct (g a) eqn:Ga; [|discriminate ..]. cbn [bind] in E. destruct (mapm g l) eqn:M; [|discriminate ..].
  destruct I as [<-|I]; [eauto|]. eapply IH; eauto.
Qed.
Lemma mapm_length {A B} (g : A -> res B) l r : mapm g l = Ok r -> length r = length l.
Proof.
  revert r. induction l as [|a l IH]; cbn [mapm]; intros r E; [injection E as <-; reflexivity|].
  destruct (g a); [|discriminate ..]. cbn [bind] in E. destruct (mapm g l) eqn:M; [|discriminate ..]. cbn [bind] in E.
  injection E as <-. cbn. f_equal. now apply IH.
Qed.
Lemma mapm_const {A B} (g : A -> res B) l y : (forall x, In x l -> g x = Ok y) -> mapm g l = Ok (repeat y (length l)).
Proof.
  induction l as [|a l IH]; intros H; [reflexivity|]. cbn [mapm length repeat]. rewrite (H a) by now left.
  cbn [bind]. rewrite IH by (intros; apply H; now right). reflexivity.
Qed.

Definition based (d : ncdim) (s : string) : Prop := compute_base_name (d_name d) = s.

(** ** Kinds from a successful [get_nc_stride] *)
Ltac kind_tac E H :=
  unfold based in E; unfold stride1, grid_axis, base_is in H; rewrite !E in H;
  cbn [append String.eqb Ascii.eqb Bool.eqb andb orb] in H.

Lemma stride_tensor v d t s : based d ("tensor_dim" ++ t)%string -> stride1 v d = Ok s -> based d "tensor_dim".
Proof. intros E H. kind_tac E H. unfold based. destruct t; [exact E|]. cbn in H. discriminate. Qed.
Lemma stride_subpt v d t s : based d ("subpt" ++ t)%string -> stride1 v d = Ok s -> based d "subpt".
Proof. intros E H. kind_tac E H. unfold based. destruct t; [exact E|]. cbn in H. discriminate. Qed.
Lemma stride_pts v d t s : based d ("pts" ++ t)%string -> stride1 v d = Ok s -> based d "pts".
Proof. intros E H. kind_tac E H. unfold based. destruct t; [exact E|]. cbn in H. discriminate. Qed.
Lemma stride_hist v d t s : based d ("history_index" ++ t)%string -> stride1 v d = Ok s -> based d "history_index".
Proof. intros E H. kind_tac E H. unfold based. destruct t; [exact E|]. cbn in H. discriminate. Qed.

Lemma dim_name_dash kind name t :
  compute_dim_name kind (name ++ "-" ++ t)%string = (kind ++ "__" ++ (name ++ "-" ++ t))%string.
Proof. unfold compute_dim_name. destruct (name ++ "-" ++ t)%string eqn:E; [|reflexivity]. destruct name; discriminate. Qed.

Lemma tensor_dims_in name comp : forall i d, In d (tensor_dims name i comp) ->
  exists j, (j < length comp)%nat /\
    d = mk_ncdim ("tensor_dim" ++ "__" ++ (name ++ "-" ++ to_string (i + Z.of_nat j)))%string (zn comp j).
Proof.
  induction comp as [|c comp IH]; intros i d; [easy|]. cbn [tensor_dims]. intros [<-|H].
  - exists 0%nat. split; [cbn; lia|]. rewrite dim_name_dash. cbn [Z.of_nat]. rewrite Z.add_0_r. reflexivity.
  - destruct (IH _ _ H) as (j & L & E). exists (S j). split; [cbn; lia|]. rewrite E.
    replace (i + 1 + Z.of_nat j) with (i + Z.of_nat (S j)) by lia. reflexivity.
Qed.
Lemma tensor_dims_length name comp : forall i, length (tensor_dims name i comp) = length comp.
Proof. induction comp as [|c comp IH]; intros i; cbn; [reflexivity|]. now rewrite IH. Qed.

Definition tensors_known (name : string) (comp : list Z) : Prop :=
  forall d, In d (tensor_dims name 0 comp) -> based d "tensor_dim".
Lemma tensors_from_stride v name comp r : mapm (stride1 v) (tensor_dims name 0 comp) = Ok r -> tensors_known name comp.
Proof.
  intros M d I. destruct (mapm_ok _ _ _ M d I) as [y Y]. destruct (tensor_dims_in _ _ _ _ I) as (j & L & E).
  destruct (base_extends "tensor_dim" (name ++ "-" ++ to_string (0 + Z.of_nat j))) as [t T].
  apply (stride_tensor v d t y); [|exact Y]. unfold based. rewrite E. exact T.
Qed.

(** ** Values for the component axes *)
Lemma tensor_starts v f frame h name comp : tensors_known name comp ->
  mapm (start1 v f frame h) (tensor_dims name 0 comp) = Ok (repeat 0 (length comp)).
Proof.
  intros K. rewrite <- (tensor_dims_length name comp 0). apply mapm_const. intros d I. specialize (K d I). unfold based in K.
  unfold start1, grid_axis, base_is. rewrite K. reflexivity.
Qed.
Lemma tensor_starts_local v frame h o name comp : tensors_known name comp ->
  mapm (start_local1 v frame h o) (tensor_dims name 0 comp) = Ok (repeat 0 (length comp)).
Proof.
  intros K. rewrite <- (tensor_dims_length name comp 0). apply mapm_const. intros d I. specialize (K d I). unfold based in K.
  unfold start_local1, base_is. rewrite K. reflexivity.
Qed.
Lemma tensor_strides v name comp : tensors_known name comp ->
  mapm (stride1 v) (tensor_dims name 0 comp) = Ok (repeat 1 (length comp)).
Proof.
  intros K. rewrite <- (tensor_dims_length name comp 0). apply mapm_const. intros d I. specialize (K d I). unfold based in K.
  unfold stride1, grid_axis, base_is. rewrite K. reflexivity.
Qed.

Lemma tensor_index name i size : 0 <= i ->
  based (mk_ncdim ("tensor_dim" ++ "__" ++ (name ++ "-" ++ to_string i))%string size) "tensor_dim" ->
  compute_tensor_dim_index ("tensor_dim" ++ "__" ++ (name ++ "-" ++ to_string i))%string =
  if i <? 2 ^ 31 then Ok i else Err OutOfRange.
Proof.
  intros H B. unfold based in B. cbn [d_name] in B. unfold compute_tensor_dim_index. rewrite B.
  rewrite String.eqb_refl. rewrite !sapp_assoc. rewrite <- sapp_assoc. unfold to_string at 1. rewrite after_dash.
  fold (to_string i). now apply stoi_to_string.
Qed.

Lemma tensor_counts_gen f g name : (forall d, based d "tensor_dim" -> g d = tensor_count f d) ->
  forall cs i, (Z.of_nat i + Z.of_nat (length cs) <= 2 ^ 31) -> skipn i (l_comp (nf_lay f)) = cs ->
  (forall d, In d (tensor_dims name (Z.of_nat i) cs) -> based d "tensor_dim") ->
  mapm g (tensor_dims name (Z.of_nat i) cs) = Ok cs.
Proof.
  intros G. induction cs as [|c cs IH]; intros i B S K; [reflexivity|].
  cbn [tensor_dims mapm]. rewrite dim_name_dash.
  assert (K0 : based (mk_ncdim ("tensor_dim" ++ "__" ++ (name ++ "-" ++ to_string (Z.of_nat i)))%string c) "tensor_dim").
  { apply K. cbn [tensor_dims]. left. now rewrite dim_name_dash. }
  rewrite (G _ K0). unfold tensor_count. cbn [d_name]. rewrite (tensor_index name _ c) by (lia || exact K0).
  cbn [length] in B. destruct (Z.ltb_spec (Z.of_nat i) (2 ^ 31)) as [L|L]; [|lia]. cbn [bind].
  destruct (Z.ltb_spec (Z.of_nat i) 0); [lia|]. rewrite Nat2Z.id.
  assert (E : nth_error (l_comp (nf_lay f)) i = Some c).
  { rewrite <- (firstn_skipn i (l_comp (nf_lay f))). rewrite S. rewrite nth_error_app2.
    - rewrite firstn_length. assert (i <= length (l_comp (nf_lay f)))%nat.
      { destruct (Nat.le_gt_cases i (length (l_comp (nf_lay f)))); [assumption|]. rewrite skipn_all2 in S by lia. discriminate. }
      replace (i - Nat.min i _)%nat with 0%nat by lia. reflexivity.
    - rewrite firstn_length. lia. }
  rewrite E. cbn [bind]. replace (Z.of_nat i + 1) with (Z.of_nat (Datatypes.S i)) by lia.
  rewrite IH; [reflexivity|lia| |].
  - clear -S. revert S. generalize (l_comp (nf_lay f)). induction i as [|i IHi]; intros [|x l]; cbn [skipn]; intros S; try discriminate.
    + now injection S.
    + apply IHi. exact S.
  - intros d I. apply K. cbn [tensor_dims]. right. replace (Z.of_nat i + 1) with (Z.of_nat (Datatypes.S i)) by lia. exact I.
Qed.

Lemma tensor_counts f name : tensors_known name (l_comp (nf_lay f)) -> Z.of_nat (length (l_comp (nf_lay f))) <= 2 ^ 31 ->
  mapm (count1 f) (tensor_dims name 0 (l_comp (nf_lay f))) = Ok (l_comp (nf_lay f)).
Proof.
  intros K L. apply (tensor_counts_gen f (count1 f) name) with (i := 0%nat).
  - intros d E. unfold based in E. unfold count1, grid_axis, base_is. rewrite E. reflexivity.
  - cbn [Z.of_nat]. lia.
  - reflexivity.
  - exact K.
Qed.
Lemma tensor_counts_local f name : tensors_known name (l_comp (nf_lay f)) -> Z.of_nat (length (l_comp (nf_lay f))) <= 2 ^ 31 ->
  mapm (count_local1 f) (tensor_dims name 0 (l_comp (nf_lay f))) = Ok (l_comp (nf_lay f)).
Proof.
  intros K L. apply (tensor_counts_gen f (count_local1 f) name) with (i := 0%nat).
  - intros d E. unfold based in E. unfold count_local1, base_is. rewrite E. reflexivity.
  - cbn [Z.of_nat]. lia.
  - reflexivity.
  - exact K.
Qed.

(** A successful count bounds the number of component axes. *)
Lemma tensor_counts_bound f name : tensors_known name (l_comp (nf_lay f)) -> forall r,
  mapm (count1 f) (tensor_dims name 0 (l_comp (nf_lay f))) = Ok r -> Z.of_nat (length (l_comp (nf_lay f))) <= 2 ^ 31.
Proof.
  intros K r M. destruct (Z.le_gt_cases (Z.of_nat (length (l_comp (nf_lay f)))) (2 ^ 31)) as [L|L]; [exact L|exfalso].
  assert (J : exists j, Z.of_nat j = 2 ^ 31) by (exists (Z.to_nat (2 ^ 31)); apply Z2Nat.id; lia).
  destruct J as [j Ej].
  assert (Lj : (j < length (l_comp (nf_lay f)))%nat) by lia.
  assert (I : forall cs i k, (k < length cs)%nat -> In (mk_ncdim ("tensor_dim" ++ "__" ++ (name ++ "-" ++ to_string (i + Z.of_nat k)))%string (zn cs k)) (tensor_dims name i cs)).
  { induction cs as [|c cs IH]; intros i k Hk; [cbn in Hk; lia|]. cbn [tensor_dims]. destruct k as [|k].
    - left. rewrite dim_name_dash. cbn [Z.of_nat]. rewrite Z.add_0_r. reflexivity.
    - right. replace (i + Z.of_nat (S k)) with ((i + 1) + Z.of_nat k) by lia. apply IH. cbn in Hk. lia. }
  specialize (I (l_comp (nf_lay f)) 0 j Lj). specialize (K _ I). destruct (mapm_ok _ _ _ M _ I) as [y Y].
  assert (B := K). unfold based in B. unfold count1, grid_axis, base_is in Y. rewrite B in Y.
  cbn [String.eqb Ascii.eqb Bool.eqb andb orb] in Y. unfold tensor_count in Y. cbn [d_name] in Y.
  rewrite (tensor_index name _ (zn (l_comp (nf_lay f)) j)) in Y by (lia || exact K).
  rewrite Z.add_0_l, Ej, Z.ltb_irrefl in Y. exact (eq_ind (Err OutOfRange) (fun r => match r with Err _ => True | _ => False end) Logic.I (Ok y) Y).
Qed.
