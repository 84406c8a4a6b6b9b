(** Lemmas about typed fields in files: local collections, and variables of
    another type. *)
From Coq Require Import String Sorted.
From Verif Require Import Base CIntModel GridSpec GridModel StridedModel LayoutModel LayoutSpec LayoutProofs LayoutProofs2 FrameModel.
From Verif Require Import NetCDFModel NetCDFSpec NetCDFProofs NetCDFProofs2 NetCDFProofs3 NetCDFProofs4 NetCDFProofs5 NetCDFProofs6 NetCDFProofs9 NetCDFProofs11.
From Verif Require Import IoTypeModel IoTypeSpec IoTypeProofs.
Local Open Scope Z_scope.
Local Open Scope list_scope.

Lemma bytes_local_roundtrip P t ct lname hv hist name v comp nsub h nb k fr (ws : list (process Z)) hfile file :
  let e := csize P ct in
  real_platform P -> typeid_to_nc_type P ct = Ok t ->
  Z.of_nat (length comp) <= 2 ^ 31 -> entry hist h -> accessed k nb = Ok fr -> 0 < zsum (counts_of ws) ->
  (forall w, In w ws -> whole e (pr_mem w) /\ local_process lname hv (zsum (counts_of ws)) hist name v comp nsub (as_elements e w)) -> tiles ws ->
  (forall w, In w ws -> StronglySorted Z.lt (pr_ids w)) ->
  exists hf g, bwrite_collection P t (ext_size t) nb k hv v h ws hfile file = Ok (hf, g) /\
    forall r nb' k' hf2 g2, whole e (pr_mem r) -> local_process lname hv (zsum (counts_of ws)) hist name v comp nsub (as_elements e r) -> StronglySorted Z.lt (pr_ids r) ->
      (forall x, owns (pr_sub r) x -> exists w, In w ws /\ owns (pr_sub w) x) ->
      (forall x w, In w ws -> owns (pr_sub r) x -> owns (pr_sub w) x ->
         (In (pixel_id (pr_sub w) x) (pr_ids w) <-> In (pixel_id (pr_sub r) x) (pr_ids r))) ->
      accessed k' nb' = Ok fr -> (forall a, cells hf2 lname a = cells hf lname a) -> keeps name hist fr h g g2 -> typed e name g2 ->
      exists mem', bread_collection P t (ext_size t) nb' k' hv v h r hf2 g2 = Ok mem' /\ length mem' = length (pr_mem r) /\
        forall w x jw jr c q, In w ws -> pixel_at w jw x -> pixel_at r jr x -> in_shape comp c -> 0 <= q < nsub ->
          exists a, holds_bytes e (nf_lay (pr_field w)) (pr_mem w) c q [Z.of_nat jw] a /\
                    holds_bytes e (nf_lay (pr_field r)) mem' c q [Z.of_nat jr] a.
Proof.
  intros e RP TY LC EN AC T WS TI SO. destruct (type_sizes P ct t RP TY) as (S & _ & EB). rewrite S. fold e in S, EB |- *.
  destruct (local_roundtrip lname hv hist name v comp nsub h nb k fr LC EN AC (map (as_elements e) ws) hfile file) as (hf & g & E & X).
  - rewrite counts_elements. exact T.
  - rewrite counts_elements. intros w I. apply in_map_iff in I. destruct I as (w0 & <- & I). apply (WS w0 I).
  - destruct TI as [T1 T2]. split.
    + clear -T1. induction T1 as [|a l F H IH]; cbn [map]; constructor; [|exact IH]. rewrite Forall_map. exact F.
    + intros a b Ia Ib. apply in_map_iff in Ia, Ib. destruct Ia as (a0 & <- & Ia), Ib as (b0 & <- & Ib). exact (T2 a0 b0 Ia Ib).
  - intros w I. apply in_map_iff in I. destruct I as (w0 & <- & I). exact (SO w0 I).
  - exists hf, g. split; [rewrite (bwrite_collection_eq P t e) by (try exact EB; intros w I; apply (WS w I)); exact E|].
    intros r nb' k' hf2 g2 Wr Lr Sr Cr Ir AC' EH KP TG. rewrite counts_elements in X.
    destruct (X (as_elements e r) nb' k' hf2 g2 Lr Sr) as (m2 & E2 & L2 & V); try assumption.
    + intros x Ox. destruct (Cr x Ox) as (w & I & Ow). exists (as_elements e w). split; [now apply in_map|exact Ow].
    + intros x w I Ox Ow. apply in_map_iff in I. destruct I as (w0 & <- & I). exact (Ir x w0 I Ox Ow).
    + unfold read_collection in E2. unfold bread_collection. cbn [as_elements pr_sub pr_field pr_mem] in E2.
      destruct (read_global nb' 0 hv 0 (pr_sub r) hf2 (repeat (-1) (Z.to_nat (l_npix (nf_lay (pr_sub r)))))) as [px| |]; cbn [bind] in E2 |- *; try discriminate.
      assert (VN : v_name v = name).
      { destruct Lr as (_ & _ & _ & _ & LF & RL & _). destruct RL as (pixels & RL). unfold register_local in RL. apply bind_ok in RL. destruct RL as (u & _ & RL). injection RL as <-. reflexivity. }
      rewrite <- VN in TG. destruct (bread_local_eq P t e nb' k' v h (pr_field r) px g2 (pr_mem r) Wr EB TG) as [B1 B2]. rewrite E2 in B1.
      destruct (bread_local P t e nb' k' v h (pr_field r) px g2 (pr_mem r)) as [mem'| |] eqn:EM; cbn [rmap] in B1; try discriminate.
      specialize (B2 mem' eq_refl). apply (f_equal (fun z => match z with Ok a => a | _ => m2 end)) in B1. cbn beta iota in B1.
      exists mem'. split; [reflexivity|]. split; [exact B2|]. intros w x jw jr c q I Pw Pr Hc Hq.
      destruct (V (as_elements e w) x jw jr c q) as (a & A1 & A2); try assumption; [now apply in_map|]. cbn [as_elements pr_field pr_mem] in A1, A2.
      exists a. rewrite <- B1 in A2. split; apply holds_elements; try assumption; [apply (WS w I)|now apply (whole_length e (pr_mem r))].
Qed.

(** ** A variable with larger elements *)
Lemma bget_loop_ok e g start stride imap a is : (forall i, Z.of_nat (length (g i)) = e) -> forall mem,
  bget_loop e g start stride imap a is mem = UB \/
  exists m, bget_loop e g start stride imap a is mem = Ok m /\ length m = length mem /\
    forall i, In i is -> a + e * linear_index i imap + e <= Z.of_nat (length mem).
Proof.
  intros G. induction is as [|i is IH]; intros mem; cbn [bget_loop]; [right; exists mem; split; [reflexivity|]; split; [reflexivity|intros i []]|].
  destruct (bstore mem (a + e * linear_index i imap) (g (place_of start stride i))) as [m1| |] eqn:S; cbn [bind]; [|unfold bstore in S; destruct (_ || _)%bool; discriminate S|now left].
  pose proof (bstore_length _ _ _ _ S) as L1. destruct (IH m1) as [E|(m & E & L & F)]; [now left|right]. exists m. split; [exact E|]. split; [congruence|].
  rewrite L1 in F. intros j [<-|I]; [|now apply F]. unfold bstore in S. destruct (Z.ltb_spec (a + e * linear_index i imap) 0); cbn [orb] in S; [discriminate|].
  destruct (Z.ltb_spec (Z.of_nat (length mem)) (a + e * linear_index i imap + Z.of_nat (length (g (place_of start stride i))))); [discriminate|]. rewrite G in *. lia.
Qed.
Lemma overrun e e' hist name f v h nb k fr mem file :
  registered hist name f v -> distributed f (elements e mem) -> entry hist h -> accessed k nb = Ok fr -> fr < recs file ->
  whole e mem -> e < e' -> typed e' name file -> sane_dense (nf_lay f) -> 0 < l_nbuf (nf_lay f) ->
  Z.of_nat (length mem) = e * buffer_scalars (nf_lay f) ->
  bread_global e' nb k v h f file mem = UB.
Proof.
  intros RG D EN AC FR [P0 _] LT TY SD NB LM. pose proof (registered_ready hist name f v (elements e mem) RG D) as (R & HH & N1 & _).
  pose proof D as (Sn & NP & L1 & L2 & B & M). apply accessed_inv in AC. destruct AC as [HF F]. unfold bread_global. rewrite HF. cbn [bind].
  rewrite (start_vector _ _ _ _ _ R) by assumption. cbn [bind]. rewrite (count_vector _ _ _ _ _ R) by assumption. cbn [bind].
  rewrite (stride_vector _ _ _ _ _ R). cbn [bind].
  destruct (imap_vector _ _ _ _ _ R HH Sn L2 N1) as (a & b & s & EI & BS & EM & OE). rewrite EI. cbn [bind].
  unfold bget_varm. destruct (negb _); [reflexivity|].
  rewrite (all_within_var false hist name f v R HH h EN (Some (recs file)) (elements e mem) fr D F) by (intros n E; injection E as <-; now right). cbn [negb].
  rewrite (v_name_eq _ _ _ _ _ R).
  match goal with |- bget_loop _ ?g ?st ?sd ?im _ ?is _ = _ => destruct (bget_loop_ok e' g st sd im 0 is TY mem) as [E|(m & _ & _ & X)]; [exact E|exfalso] end.
  destruct (sub_pt_bij _ SD NB) as (t & Et & (Lt & W & J & ON)).
  assert (SZ : 0 < buffer_scalars (nf_lay f)).
  { unfold buffer_scalars. destruct Sn as (C1 & C2 & C3 & _). rewrite C1. apply Z.mul_pos_pos; [now apply Z.mul_pos_pos|now apply zprod_pos]. }
  destruct (ON (buffer_scalars (nf_lay f) - 1) ltac:(lia)) as (y & Hy & Oy).
  assert (Y : exists c q x, indexes (nf_lay f) c q x /\ y = c ++ q :: x).
  { unfold get_shape, get_sub_pt_shape in Hy. rewrite <- app_assoc in Hy. apply in_shape_app in Hy. destruct Hy as (c & r & -> & Hc & Hr). apply in_shape_cons in Hr. destruct Hr as (q & x & -> & Hq & Hx).
    exists c, q, x. split; [|reflexivity]. split; [exact Hc|]. split; [lia|exact Hx]. }
  destruct Y as (c & q & x & I & ->).
  assert (Q : In (repeat 0 (length (header false hist 0 0)) ++ c ++ sub_part (nf_lay f) q ++ x) (indices (header false hist 1 1 ++ body_shape (nf_lay f)))).
  { apply in_indices. apply (box_index false hist _ _ Sn). exists c, q, x. split; [exact I|reflexivity]. }
  apply X in Q. rewrite StridedProofs.linear_index_off in Q by (destruct I as (Ic & _ & Ix); apply in_shape_length in Ic, Ix; destruct EM as (Ls & _); rewrite !app_length, repeat_length, Ls, (header_length false hist a b 0 0);
    unfold body_shape, sub_part; rewrite !app_length, Ic, Ix; now destruct (single (nf_lay f))). rewrite off_app in Q by (rewrite repeat_length; apply header_length).
  rewrite (header_length false hist 0 0 a b), off_zeros, (OE c q x t I Et), Oy in Q. nia.
Qed.

(** ** Registration *)
Lemma mpi_types P c t : sz_int P = 4 -> sz_index P = 4 \/ sz_index P = 8 -> typeid_to_nc_type P c = Ok t ->
  exists m, nc_type_to_mpi t = Ok m /\ mpi_size P m = csize P c /\ mpikind m = ckind c.
Proof.
  destruct P as [a b]. cbn [sz_int sz_index]. intros -> B. destruct c; cbn [typeid_to_nc_type]; intros E; try discriminate; injection E as <-;
    unfold mu_nc_int, mu_nc_uint, mu_nc_index, mu_nc_real, mu_nc_char; cbn [sz_int sz_index]; destruct B as [-> | ->]; cbn; eexists; split; try reflexivity; split; reflexivity.
Qed.
Lemma register_typed_fst P seen hidden hist name c f : fst (register_typed P seen hidden hist name c f) = fst (register_global seen hidden hist name f).
Proof. unfold register_typed, register_global. now destruct (add_field_dims_global seen name f). Qed.
Lemma register_typed_complex P seen hidden hist name f x : snd (register_typed P seen hidden hist name CComplex f) <> Ok x.
Proof. unfold register_typed. destruct (add_field_dims_global seen name f) as [s [r| |]]; cbn; discriminate. Qed.
Lemma register_typed_ok P seen hidden hist name c f v t :
  snd (register_typed P seen hidden hist name c f) = Ok (v, t) <-> snd (register_global seen hidden hist name f) = Ok v /\ typeid_to_nc_type P c = Ok t.
Proof.
  unfold register_typed. destruct (add_field_dims_global seen name f) as [s r] eqn:A. cbn [snd]. split.
  - intros E. apply bind_ok in E. destruct E as (ds & -> & E). apply bind_ok in E. destruct E as (t0 & T & E). apply bind_ok in E. destruct E as (v0 & V & E). injection E as -> ->. auto.
  - intros [V T]. assert (Q : exists ds, r = Ok ds).
    { unfold register_global in V. rewrite A in V. cbn [snd] in V. apply bind_ok in V. destruct V as (ds & V & _). eauto. }
    destruct Q as (ds & ->). cbn [bind]. rewrite T. cbn [bind]. rewrite V. reflexivity.
Qed.
Lemma register_fields_complex P fs : forall seen, (exists f, In (CComplex, f) fs) -> forall vs, register_fields P seen fs <> Ok vs.
Proof.
  induction fs as [|[c f] r IH]; intros seen (g & I) vs E; [destruct I|]. cbn [register_fields] in E.
  destruct (register_typed P seen false None (nf_name f) c f) as [s x] eqn:R. apply bind_ok in E. destruct E as (v & -> & E). apply bind_ok in E. destruct E as (vs' & E & _).
  destruct I as [I|I]; [|exact (IH s (ex_intro _ g I) vs' E)]. injection I as -> ->. apply (register_typed_complex P seen false None (nf_name g) g v). now rewrite R.
Qed.
