(** Round trip of local fields. *)
From Coq Require Import String Ascii Sorting.Sorted.
From Verif Require Import Base CIntModel GridModel GridSpec GridProofs StridedModel StridedProofs LayoutModel LayoutSpec LayoutProofs LayoutProofs2 SqrtModel CommModel CommProofs FrameModel RegistryModel.
From Verif Require Import NetCDFModel NetCDFSpec NetCDFProofs NetCDFProofs2 NetCDFProofs3 NetCDFProofs4 NetCDFProofs5 NetCDFProofs6 NetCDFProofs7 NetCDFProofs8 NetCDFProofs9.
Local Open Scope Z_scope.
Local Open Scope list_scope.

(** ** Requests *)
Definition zat (mem : list Z) (i : Z) : Z := nth (Z.to_nat i) mem 0.
Definition selected (mem : list Z) : list Z := filter (fun i => negb (zat mem i =? -1)) (zrange_from 0 (length mem)).
Lemma in_range i : forall n a, In i (zrange_from a n) <-> a <= i < a + Z.of_nat n.
Proof.
  induction n as [|n IH]; intros a; cbn [zrange_from In]; [lia|]. rewrite IH. lia.
Qed.
Lemma range_sorted : forall n a, StronglySorted Z.lt (zrange_from a n).
Proof.
  induction n as [|n IH]; intros a; cbn [zrange_from]; [constructor|]. constructor; [apply IH|]. apply Forall_forall. intros x Hx. apply in_range in Hx. lia.
Qed.
Lemma filter_sorted (P : Z -> bool) l : StronglySorted Z.lt l -> StronglySorted Z.lt (filter P l).
Proof.
  induction 1 as [|a l H IH F]; cbn [filter]; [constructor|]. destruct (P a); [|exact IH]. constructor; [exact IH|].
  apply Forall_forall. intros x Hx. apply filter_In in Hx. rewrite Forall_forall in F. now apply F.
Qed.
Lemma sorted_nodup l : StronglySorted Z.lt l -> NoDup l.
Proof.
  induction 1 as [|a l H IH F]; constructor; [|exact IH]. intros I. rewrite Forall_forall in F. specialize (F a I). lia.
Qed.
Lemma sorted_ext a : forall b, StronglySorted Z.lt a -> StronglySorted Z.lt b -> (forall x, In x a <-> In x b) -> a = b.
Proof.
  induction a as [|x a IH]; intros b Sa Sb E.
  - destruct b as [|y b]; [reflexivity|]. exfalso. apply (proj2 (E y)). now left.
  - destruct b as [|y b]; [exfalso; apply (proj1 (E x)); now left|].
    inversion Sa as [|? ? Sa' Fa]; subst. inversion Sb as [|? ? Sb' Fb]; subst. rewrite Forall_forall in Fa, Fb.
    assert (x = y). { destruct (proj1 (E x) (or_introl eq_refl)) as [Q|Q]; [easy|]. destruct (proj2 (E y) (or_introl eq_refl)) as [W|W]; [easy|]. specialize (Fa y W). specialize (Fb x Q). lia. }
    subst y. f_equal. apply IH; [assumption..|]. intros z. split; intros Hz.
    + destruct (proj1 (E z) (or_intror Hz)) as [Q|Q]; [|exact Q]. subst z. specialize (Fa x Hz). lia.
    + destruct (proj2 (E z) (or_intror Hz)) as [Q|Q]; [|exact Q]. subst z. specialize (Fb x Hz). lia.
Qed.
Lemma requests_selected mem : requests mem = map (zat mem) (selected mem).
Proof.
  unfold selected. assert (G : forall l k, requests l = map (fun i => nth (Z.to_nat (i - Z.of_nat k)) l 0) (filter (fun i => negb (nth (Z.to_nat (i - Z.of_nat k)) l 0 =? -1)) (zrange_from (Z.of_nat k) (length l)))).
  { induction l as [|x l IH]; intros k; [reflexivity|]. cbn [length zrange_from filter requests].
    rewrite Z.sub_diag. cbn [Z.to_nat nth]. replace (Z.of_nat k + 1) with (Z.of_nat (S k)) by lia.
    assert (X : forall i, In i (zrange_from (Z.of_nat (S k)) (length l)) -> nth (Z.to_nat (i - Z.of_nat k)) (x :: l) 0 = nth (Z.to_nat (i - Z.of_nat (S k))) l 0).
    { intros i Hi. apply in_range in Hi. replace (Z.to_nat (i - Z.of_nat k)) with (S (Z.to_nat (i - Z.of_nat (S k)))) by lia. reflexivity. }
    rewrite (filter_ext_in (fun i => negb (nth (Z.to_nat (i - Z.of_nat k)) (x :: l) 0 =? -1)) (fun i => negb (nth (Z.to_nat (i - Z.of_nat (S k))) l 0 =? -1))) by (intros i Hi; now rewrite X).
    assert (Y : forall L, (forall i, In i L -> In i (zrange_from (Z.of_nat (S k)) (length l))) -> map (fun i => nth (Z.to_nat (i - Z.of_nat k)) (x :: l) 0) L = map (fun i => nth (Z.to_nat (i - Z.of_nat (S k))) l 0) L).
    { intros L HL. apply map_ext_in. intros i Hi. apply X. now apply HL. }
    fold (requests l). rewrite (IH (S k)). destruct (negb (x =? -1)); cbn [map].
    - rewrite Z.sub_diag. cbn [Z.to_nat nth]. f_equal. symmetry. apply Y. intros i Hi. apply filter_In in Hi. tauto.
    - symmetry. apply Y. intros i Hi. apply filter_In in Hi. tauto. }
  rewrite (G mem 0%nat). cbn [Z.of_nat]. unfold zat.
  rewrite (filter_ext (fun i => negb (nth (Z.to_nat (i - 0)) mem 0 =? -1)) (fun i => negb (nth (Z.to_nat i) mem 0 =? -1))) by (intros i; now rewrite Z.sub_0_r).
  apply map_ext. intros i. now rewrite Z.sub_0_r.
Qed.
Lemma selected_in mem i : In i (selected mem) <-> 0 <= i < Z.of_nat (length mem) /\ zat mem i <> -1.
Proof. unfold selected. rewrite filter_In, in_range, negb_true_iff, Z.eqb_neq. lia. Qed.
Lemma selected_sorted mem : StronglySorted Z.lt (selected mem).
Proof. apply filter_sorted, range_sorted. Qed.
Lemma rd_zat mem i : 0 <= i < Z.of_nat (length mem) -> rd mem i = Ok (zat mem i).
Proof. intros H. now apply rd_ok. Qed.

(** ** Filling the field of pixel positions *)
Lemma fill_spec ids : forall o field, NoDup ids -> (forall i, In i ids -> 0 <= i < Z.of_nat (length field)) ->
  exists b, fill_offsets ids o field = Ok b /\ length b = length field /\
    (forall j i, nth_error ids j = Some i -> rd b i = Ok (o + Z.of_nat j)) /\ (forall i, ~ In i ids -> rd b i = rd field i).
Proof.
  induction ids as [|a ids IH]; intros o field ND B.
  - exists field. repeat split. intros [|j] i E; discriminate.
  - apply NoDup_cons_iff in ND. destruct ND as [N1 N2]. cbn [fill_offsets].
    pose proof (B a (or_introl eq_refl)) as Ba. rewrite (wr_ok field a o Ba). cbn [bind].
    destruct (IH (o + 1) (upd field (Z.to_nat a) o) N2) as (b & E & L & V & O).
    { intros i Hi. rewrite upd_length. apply B. now right. }
    rewrite upd_length in L. exists b. split; [exact E|]. split; [exact L|]. split.
    + intros [|j] i Hi.
      * cbn in Hi. injection Hi as <-. rewrite O by exact N1. rewrite rd_upd_same by exact Ba. now rewrite Z.add_0_r.
      * cbn in Hi. rewrite (V j i Hi). f_equal. lia.
    + intros i Hi. rewrite O by (intros I; apply Hi; now right). apply rd_upd_other; [lia|]. intros ->. apply Hi. now left.
Qed.

(** ** Pixels and positions in the buffer *)
Lemma pixel_facts p : pixel_field p -> length (l_pix (nf_lay p)) = length (nf_loc p) /\ single (nf_lay p) = true /\
  0 <= l_npix (nf_lay p) /\
  (forall x, owns p x -> 0 <= pixel_id p x < l_npix (nf_lay p)) /\
  (forall x y, owns p x -> owns p y -> pixel_id p x = pixel_id p y -> x = y) /\
  (forall i, 0 <= i < l_npix (nf_lay p) -> exists x, owns p x /\ pixel_id p x = i).
Proof.
  intros (C & N & NB & (Sn & (LS & W & J & SU)) & D). pose proof D as (_ & NP & L1 & L2 & BD & _). rewrite NB in W, SU.
  assert (LL : length (l_pix (nf_lay p)) = length (nf_loc p)) by congruence. split; [exact LL|]. split; [|split; [|split; [|split]]].
  - destruct Sn as (E & _). unfold single. rewrite E, C, N. reflexivity.
  - rewrite NP. rewrite <- L2 in BD. assert (F : Forall (fun z => 0 <= z) (l_pix (nf_lay p))).
    { apply Forall_forall. intros z Hz. apply (In_nth _ _ 0) in Hz. destruct Hz as (k & Hk & <-). specialize (BD k Hk). unfold zn in BD. lia. }
    clear - F. induction F as [|z l Hz F IH]; [cbn; lia|]. change (zprod (z :: l)) with (z * zprod l). now apply Z.mul_nonneg_nonneg.
  - intros x O. apply W. now apply owns_shift.
  - intros x y Ox Oy E. apply J in E; [|now apply owns_shift..].
    apply (f_equal (plus (nf_loc p))) in E. destruct Ox as [Lx _], Oy as [Ly _]. rewrite !plus_shift in E by congruence. exact E.
  - intros i Hi. destruct (SU i Hi) as (c & Hc & E). exists (plus (nf_loc p) c). split; [now apply owns_plus|].
    unfold pixel_id. apply in_shape_length in Hc. rewrite shift_plus by congruence. exact E.
Qed.
(** What the field of positions holds. *)
Lemma pixel_holds p (mem : list Z) x a : pixel_field p -> owns p x -> holds (nf_lay p) mem [0] 0 (shift (nf_loc p) x) a <-> rd mem (pixel_id p x) = Ok a.
Proof.
  intros PF O. destruct (pixel_facts p PF) as (LL & _). destruct PF as (C & N & NB & (Sn & _) & D).
  assert (IC : in_shape (l_comp (nf_lay p)) [0]). { rewrite C. apply in_shape_cons. exists 0, []. split; [reflexivity|]. split; [lia|now apply in_shape_nil]. }
  assert (IX : in_shape (l_pix (nf_lay p)) (shift (nf_loc p) x)) by now apply owns_shift.
  assert (E : forall s, get_strides (nf_lay p) SubPt 1 = Ok s -> off s ([0] ++ 0 :: shift (nf_loc p) x) = pixel_id p x).
  { intros s Es. pose proof (sub_pt_offset (nf_lay p) s [0] 0 (shift (nf_loc p) x) Sn Es IC IX) as Q. change ([0] ++ 0 :: shift (nf_loc p) x) with ([0] ++ [0] ++ shift (nf_loc p) x).
    rewrite Q. pose proof Sn as (EB & _ & _ & OO & _). rewrite C in EB. change (zprod [1]) with 1 in EB. rewrite EB, N, C. cbn [running rev app]. unfold pixel_id.
    change (off [1] [0]) with 0. destruct OO as [-> | ->]; lia. }
  unfold holds. split.
  - intros (s & Es & R). rewrite (E s Es) in R. exact R.
  - intros R. destruct (sub_pt_embeds _ Sn) as (s & Es & _). exists s. split; [exact Es|]. now rewrite (E s Es).
Qed.
Lemma pixel_indexes p x : pixel_field p -> owns p x -> indexes (nf_lay p) [0] 0 (shift (nf_loc p) x).
Proof.
  intros PF O. destruct (pixel_facts p PF) as (LL & _). destruct PF as (C & N & _). split; [|split; [lia|now apply owns_shift]].
  rewrite C. apply in_shape_cons. exists 0, []. split; [reflexivity|]. split; [lia|now apply in_shape_nil].
Qed.
Lemma pixel_target p fr x : pixel_field p -> owns p x -> target true None p 0 fr [0] 0 (shift (nf_loc p) x) = 0 :: x.
Proof.
  intros PF O. destruct (pixel_facts p PF) as (LL & SG & _). unfold target. rewrite cell_header. unfold header, sub_part. rewrite SG. cbn [app].
  destruct O as [L _]. rewrite plus_shift by congruence. reflexivity.
Qed.

(** ** The field of positions on a process *)
Definition base_of (counts : list Z) (w : nat) : Z := zsum (firstn w counts).
Section Hidden.
Context {A : Type}.
Implicit Types (w : process A) (ws : list (process A)).
Definition sound w : Prop := pixel_field (pr_sub w) /\ NoDup (pr_ids w) /\
  (forall i, In i (pr_ids w) -> exists x, owns (pr_sub w) x /\ i = pixel_id (pr_sub w) x).
(** [hw] are the positions of the pixels of [w], the first one is [base]. *)
Definition positions (base : Z) w (hw : list Z) : Prop :=
  Z.of_nat (length hw) = l_npix (nf_lay (pr_sub w)) /\
  (forall j i, nth_error (pr_ids w) j = Some i -> rd hw i = Ok (base + Z.of_nat j)) /\
  (forall i, 0 <= i < l_npix (nf_lay (pr_sub w)) -> ~ In i (pr_ids w) -> rd hw i = Ok (-1)).

Lemma ids_range w i : sound w -> In i (pr_ids w) -> 0 <= i < l_npix (nf_lay (pr_sub w)).
Proof. intros (PF & _ & IX) I. destruct (IX i I) as (x & O & ->). now apply (pixel_facts _ PF). Qed.

Lemma hidden_field_spec counts rank w : sound w -> (rank < length counts)%nat ->
  exists hw, hidden_field counts rank (l_npix (nf_lay (pr_sub w))) (pr_ids w) = Ok hw /\ positions (base_of counts rank) w hw.
Proof.
  intros S L. pose proof S as (PF & ND & IX). destruct (pixel_facts _ PF) as (_ & _ & NN & _).
  unfold hidden_field. change (zn counts rank) with (nth rank counts 0). fold (offset counts rank). rewrite offset_prefix by exact L. fold (base_of counts rank).
  destruct (fill_spec (pr_ids w) (base_of counts rank) (repeat (-1) (Z.to_nat (l_npix (nf_lay (pr_sub w))))) ND) as (b & E & LB & V & O).
  { intros i Hi. rewrite repeat_length, Z2Nat.id by exact NN. now apply ids_range. }
  exists b. split; [exact E|]. rewrite repeat_length in LB. split; [rewrite LB; now apply Z2Nat.id|]. split; [exact V|].
  intros i Hi NI. rewrite O by exact NI. rewrite (rd_ok _ _ (-1)) by (rewrite repeat_length; lia). f_equal. apply nth_repeat.
Qed.
Lemma hidden_fields_spec counts : forall ws rank, (forall w, In w ws -> sound w) -> (rank + length ws <= length counts)%nat ->
  exists hs, hidden_fields counts rank ws = Ok hs /\ length hs = length ws /\
    forall k w, nth_error ws k = Some w -> exists hw, nth_error hs k = Some hw /\ positions (base_of counts (rank + k)) w hw.
Proof.
  induction ws as [|w ws IH]; intros rank S L.
  - exists []. split; [reflexivity|]. split; [reflexivity|]. intros [|k] w E; discriminate.
  - cbn [length] in L. destruct (hidden_field_spec counts rank w (S w (or_introl eq_refl)) ltac:(lia)) as (hw & E1 & P1).
    destruct (IH (Datatypes.S rank)) as (hs & E2 & L2 & P2); [intros; apply S; now right|lia|].
    exists (hw :: hs). cbn [hidden_fields]. rewrite E1. cbn [bind]. rewrite E2. cbn [bind]. split; [reflexivity|]. split; [cbn; lia|].
    intros [|k] w' Hw.
    + cbn in Hw. injection Hw as <-. exists hw. split; [reflexivity|]. now rewrite Nat.add_0_r.
    + cbn in Hw. destruct (P2 k w' Hw) as (hw' & N & P). exists hw'. split; [exact N|]. now rewrite <- Nat.add_succ_comm.
Qed.

(** The requests of a process. *)
Lemma positions_selected base w hw : 0 <= base -> sound w -> positions base w hw -> forall i, In i (selected hw) <-> In i (pr_ids w).
Proof.
  intros B S (L & V & O) i. rewrite selected_in, L. split.
  - intros [Hi N]. destruct (in_dec Z.eq_dec i (pr_ids w)) as [I|I]; [exact I|]. specialize (O i Hi I). rewrite rd_zat in O by lia. apply Ok_inj in O. contradiction.
  - intros I. pose proof (ids_range w i S I) as Hi. split; [exact Hi|]. apply In_nth_error in I. destruct I as [j J]. specialize (V j i J).
    rewrite rd_zat in V by lia. apply Ok_inj in V. rewrite V. lia.
Qed.
Lemma positions_zat base w hw j i : positions base w hw -> nth_error (pr_ids w) j = Some i -> zat hw i = base + Z.of_nat j.
Proof. intros (L & V & _) J. specialize (V j i J). pose proof (rd_ok_inv _ _ _ V) as Q. rewrite rd_zat in V by exact Q. now apply Ok_inj in V. Qed.
Lemma positions_request base w hw o : 0 <= base -> sound w -> positions base w hw -> In o (requests hw) -> base <= o < base + Z.of_nat (length (pr_ids w)).
Proof.
  intros B S P I. rewrite requests_selected in I. apply in_map_iff in I. destruct I as (i & <- & I). apply (positions_selected base w hw B S P) in I.
  apply In_nth_error in I. destruct I as [j J]. rewrite (positions_zat base w hw j i P J). assert (j < length (pr_ids w))%nat by (apply nth_error_Some; congruence). lia.
Qed.
Lemma positions_nodup base w hw : 0 <= base -> sound w -> positions base w hw -> NoDup (requests hw).
Proof.
  intros B S P. rewrite requests_selected. assert (G : forall l, (forall i, In i l -> In i (pr_ids w)) -> NoDup l -> NoDup (map (zat hw) l)).
  { induction l as [|i l IH]; intros I ND; cbn [map]; constructor; apply NoDup_cons_iff in ND; destruct ND as [N1 N2].
    - intros M. apply in_map_iff in M. destruct M as (i' & E & I'). pose proof (I i (or_introl eq_refl)) as J. pose proof (I i' (or_intror I')) as J'.
      apply In_nth_error in J, J'. destruct J as [j J], J' as [j' J']. rewrite (positions_zat base w hw j i P J), (positions_zat base w hw j' i' P J') in E.
      assert (j = j') by lia. subst j'. rewrite J in J'. injection J' as ->. contradiction.
    - apply IH; [|exact N2]. intros; apply I; now right. }
  apply G; [|apply sorted_nodup, selected_sorted]. intros i. apply (positions_selected base w hw B S P).
Qed.
Lemma nodup_same_length (a b : list Z) : NoDup a -> NoDup b -> (forall x, In x a <-> In x b) -> length a = length b.
Proof. intros Na Nb E. apply Nat.le_antisymm; apply NoDup_incl_length; try assumption; intros x; apply E. Qed.
Lemma positions_length base w hw : 0 <= base -> sound w -> positions base w hw -> length (requests hw) = length (pr_ids w).
Proof.
  intros B S P. rewrite requests_selected, map_length. apply nodup_same_length; [apply sorted_nodup, selected_sorted|apply S|]. now apply (positions_selected base w hw B S P).
Qed.
Lemma positions_sorted base w hw j : 0 <= base -> sound w -> positions base w hw -> StronglySorted Z.lt (pr_ids w) ->
  (j < length (pr_ids w))%nat -> nth_error (requests hw) j = Some (base + Z.of_nat j).
Proof.
  intros B S P SS L. rewrite requests_selected.
  rewrite (sorted_ext (selected hw) (pr_ids w) (selected_sorted hw) SS (positions_selected base w hw B S P)).
  destruct (nth_error (pr_ids w) j) as [i|] eqn:J; [|apply nth_error_None in J; lia].
  rewrite (map_nth_error _ _ _ J). f_equal. now apply (positions_zat base w hw j i P J).
Qed.
End Hidden.

(** ** All processes write *)
Section Ranks.
Context {A : Type}.
Lemma spot_eq hist (f g : nfield) h fr c q o : single (nf_lay f) = single (nf_lay g) -> spot hist f h fr c q o = spot hist g h fr c q o.
Proof. intros E. unfold spot. rewrite !cell_header. unfold sub_part. now rewrite E. Qed.

Lemma write_local_ranks_spec total hist name v h nb k fr comp nsub : 0 < total -> Z.of_nat (length comp) <= 2 ^ 31 -> entry hist h -> accessed k nb = Ok fr ->
  forall (ranks : list (nfield * list Z * list A)) file,
  (forall f px m, In (f, px, m) ranks -> l_comp (nf_lay f) = comp /\ l_nsub (nf_lay f) = nsub /\ registered_local total hist name f v /\
     (exists n, local_field f n m /\ Z.of_nat (length (requests px)) <= n) /\ Forall (fun o => 0 <= o < total) (requests px) /\ NoDup (requests px)) ->
  ForallOrdPairs (fun a b => forall o, In o (requests (snd (fst a))) -> In o (requests (snd (fst b))) -> False) ranks ->
  exists g, write_local_ranks nb k v h ranks file = Ok g /\ recs file <= recs g /\
    (forall f px m, In (f, px, m) ranks -> requests px <> [] -> fr < recs g) /\
    (forall k at_, (k <> name \/ forall f px m c q o, In (f, px, m) ranks -> in_shape comp c -> 0 <= q < nsub -> In o (requests px) -> at_ <> spot hist f h fr c q o) -> cells g k at_ = cells file k at_) /\
    (forall f px m c q j o, In (f, px, m) ranks -> in_shape comp c -> 0 <= q < nsub -> nth_error (requests px) j = Some o -> holds (nf_lay f) m c q [Z.of_nat j] (cells g name (spot hist f h fr c q o))).
Proof.
  intros T LC EN AC. induction ranks as [|[[f px] m] ranks IH]; intros file RD DJ.
  - exists file. split; [reflexivity|]. split; [lia|]. split; [easy|]. split; [easy|]. intros f px m c q j o [].
  - destruct (RD f px m (or_introl eq_refl)) as (EC & ES & R & (n & LF & LE) & B & ND). inversion DJ as [|? ? F1 DJ']; subst.
    destruct (write_local_spec total hist name f v n R (ex_intro _ m LF) T LC h EN nb k fr px m file AC LF LE B ND) as (g1 & E1 & R1 & R2 & O1 & V1).
    destruct (IH g1) as (g & E & R3 & R4 & O & V); [intros; apply RD; now right|exact DJ'|].
    exists g. cbn [write_local_ranks]. rewrite E1. cbn [bind]. split; [exact E|]. split; [lia|]. split; [|split].
    + intros f' px' m' [I|I] N; [injection I as <- <- <-; specialize (R2 N); lia|now apply (R4 f' px' m')].
    + intros k0 at_ H. rewrite O, O1; [reflexivity| |].
      * destruct H as [H|H]; [now left|right]. intros c q o Hc Hq Ho. now apply (H f px m c q o (or_introl eq_refl)).
      * destruct H as [H|H]; [now left|right]. intros f' px' m' c q o I Hc Hq Ho. now apply (H f' px' m' c q o (or_intror I)).
    + intros f' px' m' c q j o [I|I] Hc Hq Hn; [|now apply (V f' px' m')]. injection I as <- <- <-. rewrite O; [now apply V1|].
      right. intros f' px' m' c' q' o' I' Hc' Hq' Ho' E'. destruct (RD f' px' m' (or_intror I')) as (EC' & ES' & _ & (n' & LF' & _) & _).
      assert (SG : single (nf_lay f) = single (nf_lay f')).
      { unfold single. rewrite (lf_nbc f n (ex_intro _ m LF)), (lf_nbc f' n' (ex_intro _ m' LF')), EC', ES'. reflexivity. }
      rewrite (spot_eq hist f' f) in E' by now symmetry. apply (spot_inj hist f h) in E'; [|assumption..]. subst o'.
      rewrite Forall_forall in F1. specialize (F1 _ I'). cbn [fst snd] in F1. apply (F1 o); [now apply nth_error_In in Hn|exact Ho'].
Qed.
End Ranks.
