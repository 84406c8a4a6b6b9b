(** Names of dimensions of registered variables. *)
From Coq Require Import String Ascii DecimalString.
From Verif Require Import Base CIntModel GridModel GridSpec GridProofs StridedModel StridedProofs LayoutModel LayoutSpec LayoutProofs LayoutProofs2 CommModel FrameModel RegistryModel RegistryProofs4.
From Verif Require Import NetCDFModel NetCDFSpec NetCDFProofs NetCDFProofs2 NetCDFProofs3 NetCDFProofs4 NetCDFProofs5 NetCDFProofs6.
Local Open Scope Z_scope.
Local Open Scope list_scope.

Lemma map_repeat_eq {A B} (g : A -> B) l y : (forall x, In x l -> g x = y) -> map g l = repeat y (length l).
Proof. induction l as [|x l IH]; intros H; [reflexivity|]. cbn. rewrite (H x) by now left. rewrite IH by (intros; apply H; now right). reflexivity. Qed.

Lemma kinds_global hist name f v : registered hist name f v ->
  map (fun d => compute_base_name (d_name d)) (v_dims v) =
  kinds_of false hist (nf_lay f) (firstn (length (nf_dom f)) ["nx"; "ny"; "nz"]%string).
Proof.
  intros (seen & s & E). apply register_global_inv in E. destruct E as [(-> & L3 & TK & SB & HB & _) _]. cbn [v_dims].
  rewrite subpt_dims_eq, !map_app. unfold kinds_of. f_equal. f_equal; [|f_equal; [|f_equal]].
  - destruct hist as [nb|]; [|reflexivity]. cbn. f_equal. exact (HB nb eq_refl).
  - rewrite <- (tensor_dims_length name (l_comp (nf_lay f)) 0). apply map_repeat_eq. exact TK.
  - destruct (single (nf_lay f)) eqn:ES; [reflexivity|]. cbn [map]. f_equal. exact (SB eq_refl).
  - unfold grid_part. destruct (nf_dom f) as [|a' [|b' [|c' [|d' r']]]]; cbn in L3; try lia; reflexivity.
Qed.

(** What a successful registration of a local field tells. *)
Definition local_as (total : Z) (hist : option Z) (name : string) (f : nfield) (v : ncvar) : Prop :=
  v = mk_ncvar name ([frame_dim] ++ hist_part hist ++ tensor_dims name 0 (l_comp (nf_lay f)) ++
                     subpt_dims (nf_lay f) (nf_tag f) ++
                     (if negb (total =? 0) then [mk_ncdim (compute_dim_name "pts" name) total] else [])) hist /\
  tensors_known name (l_comp (nf_lay f)) /\
  (single (nf_lay f) = false -> based (subpt_dim (nf_lay f) (nf_tag f)) "subpt") /\
  (forall nb, hist = Some nb -> based (hist_dim nb) "history_index") /\
  (total <> 0 -> based (mk_ncdim (compute_dim_name "pts" name) total) "pts").

Lemma register_local_inv total hist name f pixels v : register_local total hist name f pixels = Ok v ->
  local_as total hist name f v /\ consistency_check_local v f pixels = Ok tt.
Proof.
  unfold register_local, add_field_dims_local. intros E. apply bind_ok in E. destruct E as ([] & EC & E). apply Ok_inj in E. subst v.
  split; [|exact EC]. set (v := mk_ncvar _ _ _) in *. split; [reflexivity|].
  unfold consistency_check_local in EC. apply bind_ok in EC. destruct EC as (a & _ & EC). apply bind_ok in EC. destruct EC as (b & _ & EC).
  apply bind_ok in EC. destruct EC as (c & Ec & _). unfold get_nc_stride in Ec. subst v. cbn [v_dims] in Ec.
  rewrite !mapm_app in Ec. apply bind_ok in Ec. destruct Ec as (c1 & E1 & Ec). apply bind_ok in Ec. destruct Ec as (c2 & Ec & _).
  apply bind_ok in Ec. destruct Ec as (c3 & E3 & Ec). apply bind_ok in Ec. destruct Ec as (c4 & Ec & _).
  apply bind_ok in Ec. destruct Ec as (c5 & E5 & Ec). apply bind_ok in Ec. destruct Ec as (c6 & Ec & _).
  apply bind_ok in Ec. destruct Ec as (c7 & E7 & Ec). apply bind_ok in Ec. destruct Ec as (c8 & E8 & _).
  split; [eapply tensors_from_stride; exact E5|]. split; [|split].
  - intros S. rewrite subpt_dims_eq, S in E7. destruct (mapm_ok _ _ _ E7 _ (or_introl eq_refl)) as [y Y].
    destruct (base_extends "subpt" (nf_tag f ++ "-" ++ to_string (l_nsub (nf_lay f)))) as [t T].
    eapply stride_subpt; [|exact Y]. exact T.
  - intros nb ->. destruct (mapm_ok _ _ _ E3 _ (or_introl eq_refl)) as [y Y].
    destruct (base_extends "history_index" (to_string nb)) as [t T]. eapply stride_hist; [|exact Y]. exact T.
  - intros N. destruct (Z.eqb_spec total 0); [contradiction|]. cbn [negb] in E8.
    destruct (mapm_ok _ _ _ E8 _ (or_introl eq_refl)) as [y Y].
    destruct name as [|a0 name']; [reflexivity|]. set (name := String a0 name') in *.
    destruct (base_extends "pts" name) as [t T]. eapply stride_pts; [|exact Y]. exact T.
Qed.

Lemma kinds_local total hist name f pixels v : register_local total hist name f pixels = Ok v ->
  map (fun d => compute_base_name (d_name d)) (v_dims v) =
  kinds_of false hist (nf_lay f) (if total =? 0 then [] else ["pts"%string]).
Proof.
  intros E. apply register_local_inv in E. destruct E as [(-> & TK & SB & HB & PB) _]. cbn [v_dims].
  rewrite subpt_dims_eq, !map_app. unfold kinds_of. f_equal. f_equal; [|f_equal; [|f_equal]].
  - destruct hist as [nb|]; [|reflexivity]. cbn. f_equal. exact (HB nb eq_refl).
  - rewrite <- (tensor_dims_length name (l_comp (nf_lay f)) 0). apply map_repeat_eq. exact TK.
  - destruct (single (nf_lay f)) eqn:ES; [reflexivity|]. cbn [map]. f_equal. exact (SB eq_refl).
  - destruct (Z.eqb_spec total 0) as [Z0|Z0]; [reflexivity|]. cbn [negb map]. f_equal. exact (PB Z0).
Qed.

(** ** Component axes carry their number *)
Lemma tensor_dims_nth name comp : forall i j, (j < length comp)%nat ->
  nth_error (tensor_dims name i comp) j = Some (mk_ncdim ("tensor_dim" ++ "__" ++ (name ++ "-" ++ to_string (i + Z.of_nat j)))%string (zn comp j)).
Proof.
  induction comp as [|c comp IH]; intros i j L; [cbn in L; lia|]. cbn [tensor_dims]. destruct j as [|j]; cbn [nth_error].
  - rewrite dim_name_dash. cbn [Z.of_nat]. rewrite Z.add_0_r. reflexivity.
  - rewrite IH by (cbn in L; lia). replace (i + 1 + Z.of_nat j) with (i + Z.of_nat (S j)) by lia. reflexivity.
Qed.
Lemma tensor_axis name comp j : tensors_known name comp -> (j < length comp)%nat -> Z.of_nat j < 2 ^ 31 ->
  exists d, nth_error (tensor_dims name 0 comp) j = Some d /\ d_size d = zn comp j /\ compute_tensor_dim_index (d_name d) = Ok (Z.of_nat j).
Proof.
  intros K L B. eexists. split; [now apply tensor_dims_nth|]. cbn [d_size d_name]. split; [reflexivity|].
  rewrite (tensor_index name _ (zn comp j)); [|lia|].
  - rewrite Z.add_0_l. destruct (Z.ltb_spec (Z.of_nat j) (2 ^ 31)); [reflexivity|lia].
  - apply K. eapply nth_error_In. now apply tensor_dims_nth.
Qed.
Definition axis_at (hist : option Z) (j : nat) : nat := (1 + length (hist_part hist) + j)%nat.
Lemma axis_number hist name f v j : registered hist name f v -> (j < length (l_comp (nf_lay f)))%nat ->
  exists d, nth_error (v_dims v) ((match hist with None => 1 | Some _ => 2 end) + j) = Some d /\
    d_size d = zn (l_comp (nf_lay f)) j /\ compute_tensor_dim_index (d_name d) = Ok (Z.of_nat j).
Proof.
  intros (seen & s & E) L. apply register_global_inv in E. destruct E as [(-> & L3 & TK & SB & HB & TB) _]. cbn [v_dims].
  destruct (tensor_axis name _ j TK L ltac:(lia)) as (d & N & S). exists d. split; [|exact S].
  rewrite nth_error_app2 by (destruct hist; cbn; lia). rewrite nth_error_app2 by (destruct hist; cbn; lia).
  replace (_ - _ - _)%nat with j by (destruct hist; cbn; lia).
  rewrite nth_error_app1 by (rewrite tensor_dims_length; lia). exact N.
Qed.
Lemma axis_number_local total hist name f pixels v j : register_local total hist name f pixels = Ok v -> (j < length (l_comp (nf_lay f)))%nat ->
  Z.of_nat j < 2 ^ 31 ->
  exists d, nth_error (v_dims v) ((match hist with None => 1 | Some _ => 2 end) + j) = Some d /\
    d_size d = zn (l_comp (nf_lay f)) j /\ compute_tensor_dim_index (d_name d) = Ok (Z.of_nat j).
Proof.
  intros E L B. apply register_local_inv in E. destruct E as [(-> & TK & SB & HB & PB) _]. cbn [v_dims].
  destruct (tensor_axis name _ j TK L B) as (d & N & S). exists d. split; [|exact S].
  rewrite nth_error_app2 by (destruct hist; cbn; lia). rewrite nth_error_app2 by (destruct hist; cbn; lia).
  replace (_ - _ - _)%nat with j by (destruct hist; cbn; lia).
  rewrite nth_error_app1 by (rewrite tensor_dims_length; lia). exact N.
Qed.

(** ** Equal names, equal sizes *)
Lemma sapp_inv_r (c : string) : forall a b, (a ++ c = b ++ c)%string -> a = b.
Proof.
  induction a as [|x a IH]; intros [|y b] E; [reflexivity|exfalso|exfalso|].
  - apply (f_equal String.length) in E. rewrite !slen_app in E. cbn in E. lia.
  - apply (f_equal String.length) in E. rewrite !slen_app in E. cbn in E. lia.
  - cbn in E. injection E as -> E. f_equal. now apply IH.
Qed.
Lemma to_string_inj i j : 0 <= i -> 0 <= j -> to_string i = to_string j -> i = j.
Proof. unfold to_string. intros Hi Hj E. apply decimal_inj in E. lia. Qed.
Lemma dashed_inj s s' i j : 0 <= i -> 0 <= j -> (s ++ "-" ++ to_string i = s' ++ "-" ++ to_string j)%string -> s = s' /\ i = j.
Proof.
  intros Hi Hj E. pose proof (f_equal after_last_dash E) as E1. unfold to_string in E1. rewrite !after_dash in E1.
  injection E1 as E1. fold (to_string i) (to_string j) in E1. rewrite E1 in E. apply sapp_inv_r in E. split; [exact E|]. now apply to_string_inj.
Qed.

(** Where a dimension of a registered variable comes from. *)
Inductive dim_of (hist : option Z) (name : string) (f : nfield) (dom : list Z) (total : Z) : ncdim -> Prop :=
| is_frame : dim_of hist name f dom total frame_dim
| is_hist nb : hist = Some nb -> dim_of hist name f dom total (hist_dim nb)
| is_tensor i : 0 <= i -> (Z.to_nat i < length (l_comp (nf_lay f)))%nat ->
    dim_of hist name f dom total (mk_ncdim ("tensor_dim" ++ "__" ++ (name ++ "-" ++ to_string i))%string (zn (l_comp (nf_lay f)) (Z.to_nat i)))
| is_subpt : dim_of hist name f dom total (subpt_dim (nf_lay f) (nf_tag f))
| is_grid n s : In (n, s) (combine grid_names dom) -> dim_of hist name f dom total (mk_ncdim n s)
| is_pts : dim_of hist name f dom total (mk_ncdim (compute_dim_name "pts" name) total).

Lemma dims_from_global hist name f v d : registered hist name f v -> In d (v_dims v) -> dim_of hist name f (nf_dom f) 0 d.
Proof.
  intros (seen & s & E) I. apply register_global_inv in E. destruct E as [(-> & L3 & TK & SB & HB & TB) _]. cbn [v_dims] in I.
  apply in_app_or in I. destruct I as [[<-|[]]|I]; [constructor|]. apply in_app_or in I. destruct I as [I|I].
  { destruct hist as [nb|]; [|destruct I]. destruct I as [<-|[]]. now constructor. }
  apply in_app_or in I. destruct I as [I|I].
  { apply tensor_dims_in in I. destruct I as (j & L & ->). rewrite Z.add_0_l. rewrite <- (Nat2Z.id j) at 2. constructor; [lia|]. rewrite Nat2Z.id. exact L. }
  rewrite subpt_dims_eq in I. apply in_app_or in I. destruct I as [I|I].
  { destruct (single _); [destruct I|]. destruct I as [<-|[]]. constructor. }
  unfold grid_part in I. apply in_map_iff in I. destruct I as ([n s0] & <- & I). now constructor.
Qed.
Lemma dims_from_local total hist name f pixels v d : register_local total hist name f pixels = Ok v -> In d (v_dims v) -> dim_of hist name f [] total d.
Proof.
  intros E I. apply register_local_inv in E. destruct E as [(-> & TK & SB & HB & PB) _]. cbn [v_dims] in I.
  apply in_app_or in I. destruct I as [[<-|[]]|I]; [constructor|]. apply in_app_or in I. destruct I as [I|I].
  { destruct hist as [nb|]; [|destruct I]. destruct I as [<-|[]]. now constructor. }
  apply in_app_or in I. destruct I as [I|I].
  { apply tensor_dims_in in I. destruct I as (j & L & ->). rewrite Z.add_0_l. rewrite <- (Nat2Z.id j) at 2. constructor; [lia|]. rewrite Nat2Z.id. exact L. }
  rewrite subpt_dims_eq in I. apply in_app_or in I. destruct I as [I|I].
  { destruct (single _); [destruct I|]. destruct I as [<-|[]]. constructor. }
  destruct (negb (total =? 0)); [|destruct I]. destruct I as [<-|[]]. apply is_pts.
Qed.

Lemma pts_name name : (compute_dim_name "pts" name = "pts" /\ name = "")%string \/ compute_dim_name "pts" name = ("pts" ++ "__" ++ name)%string.
Proof. destruct name; [left|right]; split || idtac; reflexivity. Qed.
Lemma pts_inj a b : compute_dim_name "pts" a = compute_dim_name "pts" b -> a = b.
Proof.
  intros E. destruct (pts_name a) as [[E1 Ea]|E1], (pts_name b) as [[E2 Eb]|E2]; rewrite E1, E2 in E; try discriminate; [congruence|].
  now apply (sapp_inv "pts__").
Qed.
Lemma pts_head n (s : Z) dom : In (n, s) (combine grid_names dom) -> exists r, n = String "n" r /\ In n grid_names.
Proof. intros I. pose proof (in_combine_l _ _ _ _ I) as J. destruct J as [<-|[<-|[<-|[]]]]; eexists; (split; [reflexivity|cbn; tauto]). Qed.

Lemma grid_size n (s s' : Z) dom : In (n, s) (combine grid_names dom) -> In (n, s') (combine grid_names dom) -> s = s'.
Proof.
  unfold grid_names. destruct dom as [|a [|b [|c r]]]; cbn; intros I J;
  repeat (destruct I as [I|I]; [injection I as <- <-; repeat (destruct J as [J|J]; [try discriminate; injection J; auto; fail|]); now destruct J|]); now destruct I.
Qed.

Lemma no_clash hist name f dom total d hist' name' f' total' dom' d' :
  dim_of hist name f dom total d -> dim_of hist' name' f' dom' total' d' -> name <> name' ->
  0 <= l_nsub (nf_lay f) -> 0 <= l_nsub (nf_lay f') ->
  (forall n, hist = Some n -> 0 <= n) -> (forall n, hist' = Some n -> 0 <= n) ->
  dom = [] \/ dom' = [] \/ dom = dom' -> d_name d = d_name d' -> d = d'.
Proof.
  intros D D' N S S' H H' EG E.
  assert (X : forall nb, compute_dim_name "pts" name <> ("history_index" ++ nb)%string) by (intros nb Q; destruct (pts_name name) as [[Q1 _]|Q1]; rewrite Q1 in Q; discriminate).
  destruct D as [|nb Hn|i Hi Li| |n s In1|], D' as [|nb' Hn'|i' Hi' Li'| |n' s' In1'|];
    cbn [d_name frame_dim hist_dim subpt_dim] in E; try discriminate E;
    try (destruct (pts_head _ _ _ In1) as (r & Er & _)); try (destruct (pts_head _ _ _ In1') as (r' & Er' & _));
    try (rewrite Er in E); try (rewrite Er' in E); try discriminate E;
    try (destruct (pts_name name) as [[Q1 _]|Q1]; rewrite Q1 in E; discriminate E);
    try (destruct (pts_name name') as [[Q1 _]|Q1]; rewrite Q1 in E; discriminate E).
  - reflexivity.
  - unfold hist_dim. assert (nb = nb'); [|congruence]. apply (sapp_inv "history_index__") in E. apply to_string_inj in E; auto.
  - exfalso. apply (sapp_inv "tensor_dim") in E. apply (sapp_inv "__") in E. apply dashed_inj in E; [|assumption..]. tauto.
  - apply (sapp_inv "subpt") in E. apply (sapp_inv "__") in E. apply dashed_inj in E; [|assumption..]. destruct E as [E1 E2]. unfold subpt_dim. now rewrite E1, E2.
  - rewrite <- Er in E. rewrite <- Er' in E. subst n'. f_equal. destruct EG as [->|[->| ->]]; [destruct In1|destruct In1'|]. now apply (grid_size n s s' dom').
  - apply pts_inj in E. contradiction.
Qed.
