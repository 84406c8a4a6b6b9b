(** One global field: what a write puts into the file and what a read takes
    from it. *)
From Coq Require Import String Ascii.
From Verif Require Import Base CIntModel GridModel GridSpec GridProofs StridedModel StridedProofs LayoutModel LayoutSpec LayoutProofs LayoutProofs2 CommModel FrameModel RegistryModel.
From Verif Require Import NetCDFModel NetCDFSpec NetCDFProofs NetCDFProofs2 NetCDFProofs3 NetCDFProofs4.
Local Open Scope Z_scope.
Local Open Scope list_scope.

Lemma running_length l : forall a, length (running a l) = length l.
Proof. induction l as [|x l IH]; intros a; cbn; [reflexivity|]. now rewrite IH. Qed.
Lemma strides_length f u s : get_strides f u 1 = Ok s ->
  length s = (length (l_comp f) + (match u with Pixel => 0 | SubPt => 1 end) + length (l_pstr f))%nat.
Proof.
  unfold get_strides, get_sub_pt_strides, get_components_strides, get_pixels_strides.
  destruct (l_order f), u; cbn [bind]; try discriminate; intros E; apply Ok_inj in E; subst s;
  rewrite ?app_length, ?map_length, ?app_length, ?map_length, ?rev_length, ?running_length, ?rev_length; cbn [length]; lia.
Qed.

(** The consistency check refuses scalars on several sub-points. *)
Lemma check_sub_points hist name f v : registered_as false hist name f v ->
  consistency_check_global v f = Ok tt -> sane (nf_lay f) -> length (nf_loc f) = length (nf_dom f) ->
  length (l_pix (nf_lay f)) = length (nf_dom f) -> l_nbc (nf_lay f) = 1 -> l_nsub (nf_lay f) = 1.
Proof.
  intros R C Sn L1 L2 N. destruct (Z.eq_dec (l_nsub (nf_lay f)) 1) as [E|NE]; [exact E|exfalso].
  assert (ES : single (nf_lay f) = false).
  { unfold single. rewrite N. destruct (Z.eqb_spec (l_nsub (nf_lay f)) 1); [contradiction|apply andb_false_r]. }
  unfold consistency_check_global in C. apply bind_ok in C. destruct C as (a & Ea & C). apply bind_ok in C. destruct C as (b & _ & C).
  apply bind_ok in C. destruct C as (c & _ & C). apply bind_ok in C. destruct C as (d & Ed & C).
  destruct ((length a =? length b)%nat && (length a =? length c)%nat && (length a =? length d)%nat) eqn:EL; [|discriminate].
  apply andb_true_iff in EL. destruct EL as [_ EL]. apply Nat.eqb_eq in EL.
  apply (f_equal (fun r => match r with Ok x => length x | _ => 0%nat end)) in Ea.
  rewrite (start_vector _ _ _ _ _ R) in Ea by (lia || assumption).
  unfold get_nc_imap in Ed. rewrite N, (v_hist_eq _ _ _ _ _ R), (frame_found _ _ _ _ _ R) in Ed. cbn [Z.eqb Pos.eqb negb] in Ed.
  apply bind_ok in Ed. destruct Ed as (s & Es & Ed). apply strides_length in Es. apply Ok_inj in Ed.
  assert (Lp : length (l_pstr (nf_lay f)) = length (l_pix (nf_lay f))) by (now destruct Sn as (_ & _ & _ & _ & -> & _)).
  cbv beta iota in Ea. rewrite !app_length, repeat_length in Ea. unfold header, sub_part in Ea. rewrite ES in Ea.
  subst d. destruct hist; cbn [length app] in *; lia.
Qed.

(** ** Positions *)
Definition plus (l x : list Z) : list Z := map (fun p => fst p + snd p) (combine l x).
Lemma plus_length l : forall x, length x = length l -> length (plus l x) = length l.
Proof. intros x H. unfold plus. rewrite map_length, combine_length, H. apply Nat.min_id. Qed.
Lemma zn_plus l : forall x i, length x = length l -> (i < length l)%nat -> zn (plus l x) i = zn l i + zn x i.
Proof.
  induction l as [|a l IH]; intros [|y x] i H Hi; cbn in H, Hi; try lia. destruct i as [|i]; [reflexivity|].
  change (zn (plus l x) i = zn l i + zn x i). apply IH; lia.
Qed.
Lemma plus_shift l : forall x, length x = length l -> plus l (shift l x) = x.
Proof.
  induction l as [|a l IH]; intros [|y x] H; cbn in H; try lia; [reflexivity|].
  unfold plus, shift. cbn [combine map fst snd]. f_equal; [lia|]. apply IH. lia.
Qed.
Lemma shift_plus l : forall x, length x = length l -> shift l (plus l x) = x.
Proof.
  induction l as [|a l IH]; intros [|y x] H; cbn in H; try lia; [reflexivity|].
  unfold plus, shift. cbn [combine map fst snd]. f_equal; [lia|]. apply IH. lia.
Qed.
Lemma shift_length l : forall x, length x = length l -> length (shift l x) = length l.
Proof. intros x H. unfold shift. rewrite map_length, combine_length, H. apply Nat.min_id. Qed.
Lemma place_grid l : forall x, length x = length l -> place_of l (repeat 1 (length l)) x = plus l x.
Proof.
  induction l as [|a l IH]; intros [|y x] H; cbn in H; try lia; [reflexivity|].
  cbn [length repeat place_of]. unfold plus. cbn [combine map fst snd]. f_equal; [lia|]. apply IH. lia.
Qed.
Lemma zn_ext a : forall b, length a = length b -> (forall i, (i < length a)%nat -> zn a i = zn b i) -> a = b.
Proof.
  induction a as [|x a IH]; intros [|y b] L H; cbn in L; try lia; [reflexivity|]. f_equal.
  - apply (H 0%nat). cbn; lia.
  - apply IH; [lia|]. intros i Hi. apply (H (S i)). cbn; lia.
Qed.
Lemma owns_plus f x : length (l_pix (nf_lay f)) = length (nf_loc f) -> in_shape (l_pix (nf_lay f)) x -> owns f (plus (nf_loc f) x).
Proof.
  intros L [Lx B]. split; [rewrite plus_length; congruence|]. intros i Hi. rewrite zn_plus by congruence. specialize (B i Hi). lia.
Qed.
Lemma owns_shift f x : length (l_pix (nf_lay f)) = length (nf_loc f) -> owns f x -> in_shape (l_pix (nf_lay f)) (shift (nf_loc f) x).
Proof.
  intros L [Lx B]. assert (LL : length x = length (nf_loc f)) by congruence. split; [rewrite shift_length; congruence|].
  intros i Hi. specialize (B i Hi). pose proof (zn_plus (nf_loc f) (shift (nf_loc f) x) i) as Z. rewrite plus_shift in Z by exact LL.
  rewrite Z in B by (rewrite ?shift_length; congruence). lia.
Qed.

Lemma header_length hidden hist a b c d : length (header hidden hist a b) = length (header hidden hist c d).
Proof. unfold header. now destruct hidden, hist. Qed.
Lemma header_ones hidden hist : header hidden hist 1 1 = repeat 1 (length (header hidden hist 0 0)).
Proof. unfold header. now destruct hidden, hist. Qed.

(** Indices of the box are those of the field. *)
Lemma box_index hidden hist f i : sane f -> in_shape (header hidden hist 1 1 ++ body_shape f) i <->
  exists c q x, indexes f c q x /\ i = repeat 0 (length (header hidden hist 0 0)) ++ c ++ sub_part f q ++ x.
Proof.
  intros Sn. rewrite header_ones, in_shape_app. unfold body_shape. split.
  - intros (z & b & -> & Hz & Hb). apply in_shape_ones in Hz. subst z. apply in_shape_app in Hb. destruct Hb as (c & r & -> & Hc & Hr).
    apply in_shape_app in Hr. destruct Hr as (qq & x & -> & Hq & Hx). unfold sub_part in *. destruct (single f) eqn:E.
    + apply in_shape_nil in Hq. subst qq. exists c, 0, x. split; [|reflexivity]. split; [exact Hc|]. split; [|exact Hx].
      destruct Sn as (_ & _ & P & _). lia.
    + apply in_shape_cons in Hq. destruct Hq as (q & r & -> & Hq & Hr). apply in_shape_nil in Hr. subst r.
      exists c, q, x. split; [|reflexivity]. split; [exact Hc|]. split; [lia|exact Hx].
  - intros (c & q & x & (Hc & Hq & Hx) & ->). do 2 eexists. split; [reflexivity|]. split; [apply ones_in_shape|].
    apply in_shape_app. do 2 eexists. split; [reflexivity|]. split; [exact Hc|]. apply in_shape_app. do 2 eexists. split; [reflexivity|].
    split; [|exact Hx]. unfold sub_part. destruct (single f); [now apply in_shape_nil|]. apply in_shape_cons. exists q, []. split; [reflexivity|].
    split; [lia|now apply in_shape_nil].
Qed.

Lemma cell_header hidden hist f fr h c q x : cell hidden hist f fr h c q x = header hidden hist fr h ++ c ++ sub_part f q ++ x.
Proof. unfold cell, header, sub_part. now rewrite <- app_assoc. Qed.

Lemma place_cell hidden hist f fr h nb c q x : length (nf_loc f) = length (l_pix (nf_lay f)) -> indexes (nf_lay f) c q x ->
  place_of (header hidden hist fr h ++ repeat 0 (length (l_comp (nf_lay f))) ++ sub_part (nf_lay f) 0 ++ nf_loc f)
    (header hidden hist 1 nb ++ repeat 1 (length (l_comp (nf_lay f)) + length (sub_part (nf_lay f) 0) + length (nf_loc f)))
    (repeat 0 (length (header hidden hist 0 0)) ++ c ++ sub_part (nf_lay f) q ++ x) =
  cell hidden hist (nf_lay f) fr h c q (plus (nf_loc f) x).
Proof.
  intros L (Hc & Hq & Hx). rewrite cell_header.
  rewrite place_app by (rewrite ?repeat_length; apply header_length).
  rewrite (header_length hidden hist 0 0 fr h), place_zero by apply header_length. f_equal.
  apply in_shape_length in Hc, Hx. rewrite <- Hc. rewrite !repeat_app, <- app_assoc.
  rewrite place_app by (rewrite ?repeat_length; reflexivity). rewrite place_from_zero. f_equal.
  assert (Ls : length (sub_part (nf_lay f) q) = length (sub_part (nf_lay f) 0)) by (unfold sub_part; now destruct (single _)).
  rewrite place_app by (rewrite ?repeat_length; congruence). f_equal.
  - unfold sub_part. destruct (single (nf_lay f)); [reflexivity|]. cbn [length repeat place_of]. f_equal. lia.
  - apply place_grid. congruence.
Qed.

(** ** Bounds *)
Lemma within_frame limit hidden fr : 0 <= fr -> (forall n, limit = Some n -> fr < n) ->
  all_within limit (frame_part hidden) (if hidden then [] else [fr]) (if hidden then [] else [1]) (if hidden then [] else [1]) = true.
Proof.
  intros F H. destruct hidden; [reflexivity|]. cbn [frame_part all_within]. unfold within_dim, base_is.
  change (String.eqb (compute_base_name (d_name frame_dim)) "frame") with true. cbv iota.
  destruct (Z.leb_spec 0 fr); [|lia]. cbn [andb Z.ltb Z.compare]. destruct limit as [n|]; [|reflexivity]. specialize (H n eq_refl).
  cbn [Z.eqb]. rewrite andb_true_r. apply andb_true_iff. split; apply Z.ltb_lt; lia.
Qed.
Lemma within_hist limit hist h : (forall nb, hist = Some nb -> based (hist_dim nb) "history_index" /\ 0 <= h < nb) ->
  all_within limit (hist_part hist) (match hist with Some _ => [h] | None => [] end)
    (match hist with Some _ => [1] | None => [] end) (match hist with Some _ => [hist_nb hist] | None => [] end) = true.
Proof.
  intros H. destruct hist as [nb|]; [|reflexivity]. destruct (H nb eq_refl) as [B R]. unfold based in B.
  cbn [hist_part all_within hist_nb]. unfold within_dim, base_is. rewrite B. cbn [String.eqb Ascii.eqb Bool.eqb]. cbn [hist_dim d_size].
  rewrite andb_true_r. cbn [Z.eqb]. rewrite !andb_true_iff. repeat split; try (apply Z.leb_le; lia); apply Z.ltb_lt; lia.
Qed.
Lemma within_tensor limit name comp : tensors_known name comp -> Forall (fun c => 0 < c) comp ->
  all_within limit (tensor_dims name 0 comp) (repeat 0 (length comp)) comp (repeat 1 (length comp)) = true.
Proof.
  unfold tensors_known. intros K0. revert K0.
  assert (G : forall i, (forall d, In d (tensor_dims name i comp) -> based d "tensor_dim") -> Forall (fun c => 0 < c) comp ->
    all_within limit (tensor_dims name i comp) (repeat 0 (length comp)) comp (repeat 1 (length comp)) = true); [|apply G].
  induction comp as [|c comp IH]; intros i K P; [reflexivity|].
  apply Forall_cons_iff in P. destruct P as [P1 P2]. cbn [tensor_dims length repeat all_within].
  pose proof (K _ (or_introl eq_refl)) as B. unfold based in B. cbn [d_name] in B. unfold within_dim at 1, base_is. cbn [d_name]. rewrite B. cbn [String.eqb Ascii.eqb Bool.eqb d_size].
  rewrite IH by (try assumption; intros d I; apply K; now right).
  destruct (Z.eqb_spec c 0); [lia|]. rewrite !andb_true_iff. repeat split; apply Z.ltb_lt; lia.
Qed.
Lemma within_subpt limit f tag : (single f = false -> based (subpt_dim f tag) "subpt") -> 0 < l_nsub f ->
  all_within limit (subpt_dims f tag) (sub_part f 0) (sub_part f (l_nsub f)) (repeat 1 (length (sub_part f 0))) = true.
Proof.
  intros B P. rewrite subpt_dims_eq. unfold sub_part. destruct (single f); [reflexivity|]. specialize (B eq_refl). unfold based in B.
  cbn [length repeat all_within]. unfold within_dim, base_is. rewrite B. cbn [String.eqb Ascii.eqb Bool.eqb subpt_dim d_size].
  destruct (Z.eqb_spec (l_nsub f) 0); [lia|]. rewrite !andb_true_iff. repeat split; apply Z.ltb_lt; lia.
Qed.
Lemma within_axis limit name n a c : base_is (mk_ncdim name n) "frame" = false -> 0 <= a -> 0 <= c -> a + c <= n ->
  within_dim limit (mk_ncdim name n) a c 1 = true.
Proof.
  intros B H1 H2 H3. unfold within_dim. rewrite B. cbn [d_size]. destruct (Z.leb_spec 0 a); [|lia]. cbn [andb Z.ltb Z.compare].
  destruct (Z.eqb_spec c 0); [apply Z.leb_le; lia|]. apply andb_true_iff. split; apply Z.ltb_lt; lia.
Qed.
Lemma within_grid limit dom loc pix : (length dom <= 3)%nat -> length loc = length dom -> length pix = length dom ->
  (forall i, (i < length dom)%nat -> 0 <= zn loc i /\ 0 <= zn pix i /\ zn loc i + zn pix i <= zn dom i) ->
  all_within limit (grid_part dom) loc pix (repeat 1 (length dom)) = true.
Proof.
  intros L L1 L2 B. unfold grid_part.
  destruct dom as [|d0 [|d1 [|d2 [|d3 r]]]]; cbn in L; try lia;
  destruct loc as [|a0 [|a1 [|a2 [|a3 ra]]]]; cbn in L1; try lia;
  destruct pix as [|c0 [|c1 [|c2 [|c3 rc]]]]; cbn in L2; try lia; cbn [grid_names combine map fst snd length repeat all_within]; [reflexivity|..].
  - pose proof (B 0%nat ltac:(cbn; lia)) as B0. cbn in B0. rewrite within_axis by (reflexivity || lia). reflexivity.
  - pose proof (B 0%nat ltac:(cbn; lia)) as B0. pose proof (B 1%nat ltac:(cbn; lia)) as B1. cbn in B0, B1.
    rewrite !within_axis by (reflexivity || lia). reflexivity.
  - pose proof (B 0%nat ltac:(cbn; lia)) as B0. pose proof (B 1%nat ltac:(cbn; lia)) as B1. pose proof (B 2%nat ltac:(cbn; lia)) as B2. cbn in B0, B1, B2.
    rewrite !within_axis by (reflexivity || lia). reflexivity.
Qed.

Lemma grown_le v l n : n <= grown v l n.
Proof. unfold grown. destruct (v_dims v) as [|d ?]; [lia|]. destruct l; [lia|]. destruct (base_is d "frame"); lia. Qed.

(** ** Write and read of one global field *)
Section One.
Context {A : Type}.
Variables (hidden : bool) (hist : option Z) (name : string) (f : nfield) (v : ncvar).
Hypothesis R : registered_as hidden hist name f v.
Hypothesis HH : hidden = true -> single (nf_lay f) = true /\ hist = None.
Hypothesis N1 : l_nbc (nf_lay f) = 1 -> l_nsub (nf_lay f) = 1.
Variable h : Z.
Hypothesis HR : forall nb, hist = Some nb -> 0 <= h < nb.

Lemma all_within_var limit (mem : list A) fr : distributed f mem -> 0 <= fr -> (forall n, limit = Some n -> hidden = true \/ fr < n) ->
  all_within limit (v_dims v)
    (header hidden hist fr h ++ repeat 0 (length (l_comp (nf_lay f))) ++ sub_part (nf_lay f) 0 ++ nf_loc f)
    (header hidden hist 1 1 ++ body_shape (nf_lay f))
    (header hidden hist 1 (hist_nb hist) ++ repeat 1 (length (l_comp (nf_lay f)) + length (sub_part (nf_lay f) 0) + length (nf_dom f))) = true.
Proof.
  intros (Sn & _ & L1 & L2 & B & _) F LM. pose proof R as (-> & L3 & TK & SB & HB & TB). cbn [v_dims]. unfold header, body_shape.
  rewrite <- !app_assoc, !repeat_app, <- !app_assoc.
  rewrite all_within_app by (destruct hidden; reflexivity).
  assert (W1 : all_within limit (frame_part hidden) (if hidden then [] else [fr]) (if hidden then [] else [1]) (if hidden then [] else [1]) = true).
  { destruct hidden eqn:EH; [reflexivity|]. apply (within_frame limit false fr F). intros n En. destruct (LM n En); [discriminate|assumption]. }
  rewrite W1. cbn [andb].
  rewrite all_within_app by (destruct hist; reflexivity).
  rewrite within_hist by (intros nb En; split; [now apply HB|now apply HR]). cbn [andb].
  rewrite all_within_app by (rewrite ?repeat_length, tensor_dims_length; reflexivity).
  destruct Sn as (_ & P1 & P2 & _).
  rewrite within_tensor by assumption. cbn [andb].
  rewrite all_within_app.
  - rewrite within_subpt by assumption. cbn [andb]. now apply within_grid.
  - rewrite subpt_dims_eq. unfold sub_part. now destruct (single (nf_lay f)).
  - rewrite subpt_dims_eq. unfold sub_part. now destruct (single (nf_lay f)).
  - rewrite subpt_dims_eq. unfold sub_part. now destruct (single (nf_lay f)).
Qed.

Definition target (fr : Z) (c : list Z) (q : Z) (x : list Z) : list Z := cell hidden hist (nf_lay f) fr h c q (plus (nf_loc f) x).

Lemma write_global_spec nb k fr (mem : list A) file : distributed f mem -> handle_frame k nb = Ok fr -> 0 <= fr ->
  exists file', write_global nb k v h f mem file = Ok file' /\
    recs file <= recs file' /\ (hidden = false -> fr < recs file') /\
    (forall n at_, (n <> name \/ forall c q x, indexes (nf_lay f) c q x -> at_ <> target fr c q x) ->
       cells file' n at_ = cells file n at_) /\
    (forall c q x, indexes (nf_lay f) c q x -> holds (nf_lay f) mem c q x (cells file' name (target fr c q x))).
Proof.
  intros D HF F. pose proof D as (Sn & NP & L1 & L2 & B & M). unfold write_global. rewrite HF. cbn [bind].
  rewrite (start_vector _ _ _ _ _ R) by assumption. cbn [bind]. rewrite (count_vector _ _ _ _ _ R) by assumption. cbn [bind].
  rewrite (stride_vector _ _ _ _ _ R). cbn [bind].
  destruct (imap_vector _ _ _ _ _ R HH Sn L2 N1) as (a & b & s & EI & BS & EM & OE). rewrite EI. cbn [bind].
  pose proof (dims_length _ _ _ _ _ R) as DL. pose proof EM as (Ls & W & J).
  assert (OI : forall c q x, indexes (nf_lay f) c q x ->
    off (header hidden hist a b ++ s) (repeat 0 (length (header hidden hist 0 0)) ++ c ++ sub_part (nf_lay f) q ++ x) = off s (c ++ sub_part (nf_lay f) q ++ x)).
  { intros c q x I. rewrite off_app by (rewrite repeat_length; apply header_length).
    rewrite (header_length hidden hist 0 0 a b), off_zeros. lia. }
  destruct (put_varm_spec v (header hidden hist fr h ++ repeat 0 (length (l_comp (nf_lay f))) ++ sub_part (nf_lay f) 0 ++ nf_loc f)
     (header hidden hist 1 1 ++ body_shape (nf_lay f))
     (header hidden hist 1 (hist_nb hist) ++ repeat 1 (length (l_comp (nf_lay f)) + length (sub_part (nf_lay f) 0) + length (nf_dom f)))
     (header hidden hist a b ++ s) 0 mem file) as (g & E & O & V).
  - rewrite DL, !app_length, repeat_length, L1, (header_length hidden hist fr h 0 0). reflexivity.
  - rewrite DL. unfold body_shape. rewrite !app_length, L2, (header_length hidden hist 1 1 0 0). unfold sub_part. now destruct (single _).
  - rewrite DL, app_length, repeat_length, (header_length hidden hist 1 (hist_nb hist) 0 0). lia.
  - rewrite DL, app_length, Ls, (header_length hidden hist a b 0 0). unfold body_shape. rewrite !app_length, L2. unfold sub_part. now destruct (single _).
  - apply (all_within_var None mem); try assumption. discriminate.
  - apply Forall_app. split.
    + unfold header. apply Forall_app. split; [destruct hidden; repeat constructor|]. destruct hist as [n|] eqn:EH; [|constructor].
      constructor; [|constructor]. specialize (HR n eq_refl). cbn [hist_nb]. lia.
    + apply Forall_forall. intros y Hy. apply repeat_spec in Hy. lia.
  - intros i Hi. apply (box_index hidden hist _ i Sn) in Hi. destruct Hi as (c & q & x & I & ->). rewrite OI by exact I.
    assert (Wi : in_shape (body_shape (nf_lay f)) (c ++ sub_part (nf_lay f) q ++ x)).
    { pose proof (proj2 (box_index true None _ (c ++ sub_part (nf_lay f) q ++ x) Sn)) as Q. apply Q. exists c, q, x. split; [exact I|reflexivity]. }
    specialize (W _ Wi). lia.
  - rewrite E. eexists. split; [reflexivity|]. cbn [recs cells]. rewrite (v_name_eq _ _ _ _ _ R) in O, V.
    assert (G : recs file <= grown v (header hidden hist fr h ++ repeat 0 (length (l_comp (nf_lay f))) ++ sub_part (nf_lay f) 0 ++ nf_loc f) (recs file)).
    { apply grown_le. }
    split; [exact G|]. split; [|split].
    + intros EH. unfold grown. pose proof R as (-> & _). rewrite EH. cbn [v_dims frame_part app header].
      change (base_is frame_dim "frame") with true. cbn iota. lia.
    + intros n at_ [H|H]; apply O; [now left|right]. intros i Hi. apply (box_index hidden hist _ i Sn) in Hi. destruct Hi as (c & q & x & I & ->).
      rewrite <- L1. rewrite place_cell by (congruence || exact I). now apply H.
    + intros c q x I. destruct (sub_pt_embeds _ Sn) as (t & Et & _). exists t. split; [exact Et|].
      specialize (V (repeat 0 (length (header hidden hist 0 0)) ++ c ++ sub_part (nf_lay f) q ++ x)).
      rewrite OI in V by exact I. rewrite (OE c q x t I Et), Z.add_0_l in V. rewrite <- L1 in V.
      rewrite place_cell in V by (congruence || exact I). apply V. apply (box_index hidden hist _ _ Sn). exists c, q, x. split; [exact I|reflexivity].
Qed.

Lemma read_global_spec nb k fr (mem : list A) file : distributed f mem -> handle_frame k nb = Ok fr -> 0 <= fr ->
  hidden = true \/ fr < recs file ->
  exists mem', read_global nb k v h f file mem = Ok mem' /\ length mem' = length mem /\
    (forall c q x, indexes (nf_lay f) c q x -> holds (nf_lay f) mem' c q x (cells file name (target fr c q x))) /\
    (forall s j, get_strides (nf_lay f) SubPt 1 = Ok s -> (forall c q x, indexes (nf_lay f) c q x -> j <> off s (c ++ q :: x)) -> rd mem' j = rd mem j).
Proof.
  intros D HF F RC. pose proof D as (Sn & NP & L1 & L2 & B & M). unfold read_global. rewrite HF. cbn [bind].
  rewrite (start_vector _ _ _ _ _ R) by assumption. cbn [bind]. rewrite (count_vector _ _ _ _ _ R) by assumption. cbn [bind].
  rewrite (stride_vector _ _ _ _ _ R). cbn [bind].
  destruct (imap_vector _ _ _ _ _ R HH Sn L2 N1) as (a & b & s & EI & BS & EM & OE). rewrite EI. cbn [bind].
  pose proof (dims_length _ _ _ _ _ R) as DL. pose proof EM as (Ls & W & J).
  assert (OI : forall c q x, indexes (nf_lay f) c q x ->
    off (header hidden hist a b ++ s) (repeat 0 (length (header hidden hist 0 0)) ++ c ++ sub_part (nf_lay f) q ++ x) = off s (c ++ sub_part (nf_lay f) q ++ x)).
  { intros c q x I. rewrite off_app by (rewrite repeat_length; apply header_length).
    rewrite (header_length hidden hist 0 0 a b), off_zeros. lia. }
  assert (WI : forall c q x, indexes (nf_lay f) c q x -> in_shape (body_shape (nf_lay f)) (c ++ sub_part (nf_lay f) q ++ x)).
  { intros c q x I. pose proof (proj2 (box_index true None _ (c ++ sub_part (nf_lay f) q ++ x) Sn)) as Q. apply Q. exists c, q, x. split; [exact I|reflexivity]. }
  destruct (get_varm_spec v (header hidden hist fr h ++ repeat 0 (length (l_comp (nf_lay f))) ++ sub_part (nf_lay f) 0 ++ nf_loc f)
     (header hidden hist 1 1 ++ body_shape (nf_lay f))
     (header hidden hist 1 (hist_nb hist) ++ repeat 1 (length (l_comp (nf_lay f)) + length (sub_part (nf_lay f) 0) + length (nf_dom f)))
     (header hidden hist a b ++ s) 0 mem file) as (g & E & LG & O & V).
  - rewrite DL, !app_length, repeat_length, L1, (header_length hidden hist fr h 0 0). reflexivity.
  - rewrite DL. unfold body_shape. rewrite !app_length, L2, (header_length hidden hist 1 1 0 0). unfold sub_part. now destruct (single _).
  - rewrite DL, app_length, repeat_length, (header_length hidden hist 1 (hist_nb hist) 0 0). lia.
  - rewrite DL, app_length, Ls, (header_length hidden hist a b 0 0). unfold body_shape. rewrite !app_length, L2. unfold sub_part. now destruct (single _).
  - apply (all_within_var (Some (recs file)) mem); try assumption. intros n En. injection En as <-. exact RC.
  - intros i Hi. apply (box_index hidden hist _ i Sn) in Hi. destruct Hi as (c & q & x & I & ->). rewrite OI by exact I.
    specialize (W _ (WI c q x I)). lia.
  - intros i i' Hi Hi' Eq. apply (box_index hidden hist _ i Sn) in Hi. destruct Hi as (c & q & x & I & ->).
    apply (box_index hidden hist _ i' Sn) in Hi'. destruct Hi' as (c' & q' & x' & I' & ->). rewrite !OI in Eq by assumption. f_equal.
    apply J; [now apply WI|now apply WI|exact Eq].
  - exists g. split; [exact E|]. split; [exact LG|]. rewrite (v_name_eq _ _ _ _ _ R) in V. split.
    + intros c q x I. destruct (sub_pt_embeds _ Sn) as (t & Et & _). exists t. split; [exact Et|].
      specialize (V (repeat 0 (length (header hidden hist 0 0)) ++ c ++ sub_part (nf_lay f) q ++ x)).
      rewrite OI in V by exact I. rewrite (OE c q x t I Et), Z.add_0_l in V. rewrite <- L1 in V.
      rewrite place_cell in V by (congruence || exact I). apply V. apply (box_index hidden hist _ _ Sn). exists c, q, x. split; [exact I|reflexivity].
    + intros t j Et H. apply O. intros i Hi. apply (box_index hidden hist _ i Sn) in Hi. destruct Hi as (c & q & x & I & ->).
      rewrite OI by exact I. rewrite (OE c q x t I Et), Z.add_0_l. now apply H.
Qed.
End One.
