(** Dimensions of variables by themselves: a name stands for one dimension. *)
From Coq Require Import String Ascii.
From Verif Require Import Base CIntModel GridModel LayoutModel LayoutProofs NetCDFModel NetCDFSpec NetCDFProofs NetCDFProofs2 NetCDFProofs3 NetCDFProofs4 NetCDFProofs7.
From Verif Require Import DimModel DimSpec.
Local Open Scope Z_scope.
Local Open Scope list_scope.

(** What is known of a variable: where its dimensions come from. *)
Definition origin (dom : list Z) (v : ncvar) : Prop :=
  exists hist f dm total, (dm = [] \/ dm = dom) /\ 0 <= l_nsub (nf_lay f) /\ (forall n, hist = Some n -> 0 <= n) /\
    forall d, In d (v_dims v) -> dim_of hist (v_name v) f dm total d.
Definition tame (v : ncvar) : Prop :=
  exists rest, (v_dims v = rest \/ v_dims v = frame_dim :: rest) /\ forall d, In d rest -> d_name d <> "frame"%string.

Lemma dims_from_hidden hidden hist name f v d : registered_as hidden hist name f v -> In d (v_dims v) -> dim_of hist name f (nf_dom f) 0 d.
Proof.
  intros (-> & L3 & TK & SB & HB & TB) I. cbn [v_dims] in I.
  apply in_app_or in I. destruct I as [I|I]; [destruct hidden; [destruct I|]; destruct I as [<-|[]]; constructor|]. apply in_app_or in I. destruct I as [I|I].
  { destruct hist as [nb|]; [|destruct I]. destruct I as [<-|[]]. now constructor. }
  apply in_app_or in I. destruct I as [I|I].
  { apply tensor_dims_in in I. destruct I as (j & L & ->). rewrite Z.add_0_l. rewrite <- (Nat2Z.id j) at 2. constructor; [lia|]. rewrite Nat2Z.id. exact L. }
  rewrite subpt_dims_eq in I. apply in_app_or in I. destruct I as [I|I].
  { destruct (single _); [destruct I|]. destruct I as [<-|[]]. constructor. }
  unfold grid_part in I. apply in_map_iff in I. destruct I as ([n s0] & <- & I). now constructor.
Qed.

Lemma single_nsub l : single l = true -> l_nsub l = 1.
Proof. unfold single. intros E. apply andb_true_iff in E. now apply Z.eqb_eq. Qed.

Lemma origin_global hidden hist name f v dom : registered_as hidden hist name f v -> nf_dom f = dom -> fit v -> origin dom v.
Proof.
  intros R D (_ & F). exists hist, f, (nf_dom f), 0. split; [now right|]. rewrite Forall_forall in F.
  pose proof R as (E & _). split; [|split].
  - destruct (single (nf_lay f)) eqn:S; [apply single_nsub in S; lia|].
    assert (I : In (subpt_dim (nf_lay f) (nf_tag f)) (v_dims v)).
    { rewrite E. cbn [v_dims]. rewrite subpt_dims_eq, S. apply in_or_app. right. apply in_or_app. right. apply in_or_app. right. now left. }
    destruct (F _ I) as [_ P]. cbn [d_size subpt_dim d_name] in P. apply Z.lt_le_incl, P. discriminate.
  - intros n ->. assert (I : In (hist_dim n) (v_dims v)) by (rewrite E; cbn [v_dims]; apply in_or_app; right; now left).
    destruct (F _ I) as [_ P]. cbn [d_size hist_dim d_name] in P. apply Z.lt_le_incl, P. discriminate.
  - intros d I. replace (v_name v) with name by now rewrite E. eapply dims_from_hidden; [exact R|exact I].
Qed.
Lemma origin_local total hist name f pixels v dom : register_local total hist name f pixels = Ok v -> fit v -> origin dom v.
Proof.
  intros R (_ & F). exists hist, f, [], total. split; [now left|]. rewrite Forall_forall in F.
  pose proof R as R0. apply register_local_inv in R0. destruct R0 as [(E & _) _]. split; [|split].
  - destruct (single (nf_lay f)) eqn:S; [apply single_nsub in S; lia|].
    assert (I : In (subpt_dim (nf_lay f) (nf_tag f)) (v_dims v)).
    { rewrite E. cbn [v_dims]. rewrite subpt_dims_eq, S. apply in_or_app. right. apply in_or_app. right. apply in_or_app. right. now left. }
    destruct (F _ I) as [_ P]. cbn [d_size subpt_dim d_name] in P. apply Z.lt_le_incl, P. discriminate.
  - intros n ->. assert (I : In (hist_dim n) (v_dims v)) by (rewrite E; cbn [v_dims]; apply in_or_app; right; now left).
    destruct (F _ I) as [_ P]. cbn [d_size hist_dim d_name] in P. apply Z.lt_le_incl, P. discriminate.
  - intros d I. replace (v_name v) with name by now rewrite E. eapply dims_from_local; [exact R|exact I].
Qed.

Lemma body_names hist name l tag d : In d (hist_part hist ++ tensor_dims name 0 (l_comp l) ++ subpt_dims l tag) -> d_name d <> "frame"%string.
Proof.
  intros I. apply in_app_or in I. destruct I as [I|I]; [destruct hist; [|destruct I]; destruct I as [<-|[]]; discriminate|].
  apply in_app_or in I. destruct I as [I|I]; [apply tensor_dims_in in I; destruct I as (j & _ & ->); discriminate|].
  rewrite subpt_dims_eq in I. destruct (single l); [destruct I|]. destruct I as [<-|[]]. discriminate.
Qed.
Lemma grid_part_in dom d : In d (grid_part dom) -> In (d_name d) grid_names.
Proof. unfold grid_part. intros I. apply in_map_iff in I. destruct I as ([n s] & <- & I). exact (in_combine_l _ _ _ _ I). Qed.
Lemma tame_global hidden hist name f v : registered_as hidden hist name f v -> tame v.
Proof.
  intros (E & _). exists (hist_part hist ++ tensor_dims name 0 (l_comp (nf_lay f)) ++ subpt_dims (nf_lay f) (nf_tag f) ++ grid_part (nf_dom f)).
  split; [rewrite E; destruct hidden; [left|right]; reflexivity|]. intros d I.
  rewrite (app_assoc (tensor_dims _ _ _)), app_assoc in I. apply in_app_or in I. destruct I as [I|I]; [eapply body_names; exact I|].
  apply grid_part_in in I. intros E1. rewrite E1 in I. destruct I as [I|[I|[I|[]]]]; discriminate.
Qed.
Lemma pts_not_frame name : compute_dim_name "pts" name <> "frame"%string.
Proof. destruct (pts_name name) as [[E _]|E]; rewrite E; discriminate. Qed.
Lemma tame_local total hist name f v : local_as total hist name f v -> tame v.
Proof.
  intros (E & _). eexists. split; [rewrite E; right; reflexivity|]. intros d I.
  rewrite (app_assoc (tensor_dims _ _ _)), app_assoc in I. apply in_app_or in I. destruct I as [I|I]; [eapply body_names; exact I|].
  destruct (negb _); [|destruct I]. destruct I as [<-|[]]. cbn [d_name]. apply pts_not_frame.
Qed.

(** ** Names are names of one dimension *)
Lemma same_var hist name f dm total d d' :
  dim_of hist name f dm total d -> dim_of hist name f dm total d' ->
  (forall n, hist = Some n -> 0 <= n) -> 0 <= l_nsub (nf_lay f) -> d_name d = d_name d' -> d = d'.
Proof.
  intros D D' H S E.
  destruct D as [|nb Hn|i Hi Li| |n s In1|], D' as [|nb' Hn'|i' Hi' Li'| |n' s' In1'|];
    cbn [d_name frame_dim hist_dim subpt_dim] in E; try discriminate E;
    try (destruct (pts_head _ _ _ In1) as (r & Er & _)); try (destruct (pts_head _ _ _ In1') as (r' & Er' & _));
    try (rewrite Er in E); try (rewrite Er' in E); try discriminate E;
    try (destruct (pts_name name) as [[Q1 _]|Q1]; rewrite Q1 in E; discriminate E).
  - reflexivity.
  - congruence.
  - apply (sapp_inv "tensor_dim") in E. apply (sapp_inv "__") in E. apply dashed_inj in E; [|assumption..]. destruct E as [_ ->]. reflexivity.
  - reflexivity.
  - rewrite <- Er in E. rewrite <- Er' in E. subst n'. f_equal. now apply (grid_size n s s' dm).
  - reflexivity.
Qed.
Lemma origin_frame dom v : origin dom v -> forall d, In d (v_dims v) -> d_name d = "frame"%string -> d = frame_dim.
Proof.
  intros (hist & f & dm & total & _ & S & H & D) d I E. apply D in I.
  eapply same_var; [exact I|constructor|exact H|exact S|exact E].
Qed.
Lemma origin_same dom v v' d d' : origin dom v -> origin dom v' -> (v_name v = v_name v' -> v = v') ->
  In d (v_dims v) -> In d' (v_dims v') -> d_name d = d_name d' -> d = d'.
Proof.
  intros (hist & f & dm & total & A & S & H & D) (hist' & f' & dm' & total' & A' & S' & H' & D') N I I' E.
  destruct (string_dec (v_name v) (v_name v')) as [EN|EN].
  - specialize (N EN). subst v'. apply D in I. apply D in I'. eapply same_var; eassumption.
  - apply D in I. apply D' in I'. eapply no_clash; try eassumption. destruct A as [->| ->]; [now left|]. destruct A' as [->| ->]; [right; now left|right; now right].
Qed.
