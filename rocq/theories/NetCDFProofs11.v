(** Round trip of local fields, all processes. *)
From Coq Require Import String Ascii Sorting.Sorted.
From Verif Require Import Base CIntModel GridModel GridSpec GridProofs StridedModel StridedProofs LayoutModel LayoutSpec LayoutProofs LayoutProofs2 SqrtModel CommModel CommProofs FrameModel RegistryModel.
From Verif Require Import NetCDFModel NetCDFSpec NetCDFProofs NetCDFProofs2 NetCDFProofs3 NetCDFProofs4 NetCDFProofs5 NetCDFProofs6 NetCDFProofs7 NetCDFProofs8 NetCDFProofs9 NetCDFProofs10.
Local Open Scope Z_scope.
Local Open Scope list_scope.

Lemma pairs_intro {B} (P : B -> B -> Prop) l : (forall i j a b, (i < j)%nat -> nth_error l i = Some a -> nth_error l j = Some b -> P a b) -> ForallOrdPairs P l.
Proof.
  induction l as [|x l IH]; intros H; constructor.
  - apply Forall_forall. intros y Hy. apply In_nth_error in Hy. destruct Hy as [j J]. apply (H 0%nat (S j) x y); [lia|reflexivity|exact J].
  - apply IH. intros i j a b L A1 A2. apply (H (S i) (S j)); [lia|exact A1|exact A2].
Qed.
Lemma pairs_elim {B} (P : B -> B -> Prop) l : ForallOrdPairs P l -> forall i j a b, (i < j)%nat -> nth_error l i = Some a -> nth_error l j = Some b -> P a b.
Proof.
  induction 1 as [|x l F D IH]; intros i j a b L A1 A2; [destruct i; discriminate|]. destruct j as [|j]; [lia|]. destruct i as [|i].
  - cbn in A1. injection A1 as <-. rewrite Forall_forall in F. apply F. cbn in A2. now apply nth_error_In in A2.
  - apply (IH i j); [lia|exact A1|exact A2].
Qed.
Lemma combine_at {B C} (a : list B) : forall (b : list C) i x y, nth_error (combine a b) i = Some (x, y) <-> nth_error a i = Some x /\ nth_error b i = Some y.
Proof.
  induction a as [|u a IH]; intros [|w b] [|i] x y; cbn [combine nth_error]; split; try (intros; discriminate); try tauto; try (intros [? ?]; discriminate).
  - intros E. injection E as -> ->. auto.
  - intros [E1 E2]. congruence.
  - apply IH.
  - apply IH.
Qed.

Section All.
Context {A : Type}.
Variables (lname : string) (hv : ncvar) (hist : option Z) (name : string) (v : ncvar) (comp : list Z) (nsub : Z).
Variables (h nb k fr : Z).
Hypothesis LC : Z.of_nat (length comp) <= 2 ^ 31.
Hypothesis EN : entry hist h.
Hypothesis AC : accessed k nb = Ok fr.
Implicit Types (w r : process A) (ws : list (process A)).

Lemma access_zero : accessed 0 nb = Ok 0.
Proof.
  unfold accessed, handle_frame in *. cbn [bind Z.ltb Z.compare] in *.
  destruct (Z.leb_spec nb 0); [|reflexivity]. destruct (Z.leb_spec nb (if k <? 0 then nb + k else k)); [discriminate|]. cbn [bind] in AC.
  destruct (Z.ltb_spec (if k <? 0 then nb + k else k) 0); [discriminate|]. lia.
Qed.
Lemma process_sound total w : local_process lname hv total hist name v comp nsub w -> sound w.
Proof. intros (PF & _ & ND & IX & _). split; [exact PF|]. split; [exact ND|exact IX]. Qed.
Lemma process_hidden total w (hw : list Z) : local_process lname hv total hist name v comp nsub w -> Z.of_nat (length hw) = l_npix (nf_lay (pr_sub w)) ->
  ready true None lname hv (pr_sub w) hw.
Proof.
  intros (PF & (seen & s & E) & _) L. destruct (pixel_facts _ PF) as (_ & SG & _). apply (registered_hidden lname (pr_sub w) hv hw seen s E SG).
  destruct PF as (_ & _ & NB & _ & D). destruct D as (D1 & D2 & D3 & D4 & D5 & D6). repeat (split; [assumption|]). rewrite repeat_length in D6.
  rewrite L. destruct (Z.le_gt_cases 0 (l_npix (nf_lay (pr_sub w)))) as [Q|Q]; [rewrite Z2Nat.id in D6 by exact Q; exact D6|]. rewrite <- L in Q. lia.
Qed.
Lemma counts_at ws i w : nth_error ws i = Some w -> nth_error (counts_of ws) i = Some (Z.of_nat (length (pr_ids w))).
Proof. intros E. unfold counts_of. now rewrite (map_nth_error _ _ _ E). Qed.
Lemma counts_nonneg ws : Forall (fun x => 0 <= x) (counts_of ws).
Proof. apply Forall_forall. intros x Hx. apply in_map_iff in Hx. destruct Hx as (w & <- & _). lia. Qed.
Lemma base_next (l : list Z) i n : nth_error l i = Some n -> base_of l (S i) = base_of l i + n.
Proof.
  intros E. unfold base_of. assert (L : (i < length l)%nat) by (apply nth_error_Some; congruence). rewrite firstn_next by exact L. rewrite zsum_app. cbn.
  rewrite (nth_error_nth _ _ 0 E). lia.
Qed.
Lemma base_mono ws i j : (i <= j)%nat -> base_of (counts_of ws) i <= base_of (counts_of ws) j.
Proof. intros L. unfold base_of. apply prefix_mono; [apply counts_nonneg|exact L]. Qed.
Lemma base_bounds ws i w : nth_error ws i = Some w -> 0 <= base_of (counts_of ws) i /\ base_of (counts_of ws) i + Z.of_nat (length (pr_ids w)) <= zsum (counts_of ws).
Proof.
  intros E. split.
  - apply (base_mono ws 0 i). lia.
  - rewrite <- (base_next _ _ _ (counts_at ws i w E)). rewrite <- (firstn_all (counts_of ws)) at 2.
    apply (base_mono ws (S i) (length (counts_of ws))). apply counts_at in E. assert (i < length (counts_of ws))%nat by (apply nth_error_Some; congruence). lia.
Qed.

Lemma collection_written ws hfile file : 0 < zsum (counts_of ws) ->
  (forall w, In w ws -> local_process lname hv (zsum (counts_of ws)) hist name v comp nsub w) -> tiles ws ->
  exists hf g, write_collection nb k hv v h ws hfile file = Ok (hf, g) /\ fr < recs g /\
    forall i w, nth_error ws i = Some w -> exists hw, positions (base_of (counts_of ws) i) w hw /\
      (forall x, owns (pr_sub w) x -> rd hw (pixel_id (pr_sub w) x) = Ok (cells hf lname (0 :: x))) /\
      (forall c q j o, in_shape comp c -> 0 <= q < nsub -> nth_error (requests hw) j = Some o ->
         holds (nf_lay (pr_field w)) (pr_mem w) c q [Z.of_nat j] (cells g name (spot hist (pr_field w) h fr c q o))).
Proof.
  intros T LP [TD TS]. set (counts := counts_of ws) in *. unfold write_collection. fold counts.
  assert (CL : length counts = length ws) by (unfold counts, counts_of; apply map_length).
  assert (SO : forall w, In w ws -> sound w) by (intros w I; apply (process_sound (zsum counts)); now apply LP).
  destruct (hidden_fields_spec counts ws 0 SO ltac:(lia)) as (hs & EH & LH & PH). rewrite EH. cbn [bind]. cbn [Nat.add] in PH.
  destruct (write_ranks_spec true None lname hv 0 nb 0 0 (combine (map pr_sub ws) hs) hfile) as (hf & EW & _ & _ & _ & VW).
  { intros f m I. apply In_nth_error in I. destruct I as [i I]. apply combine_at in I. destruct I as [I1 I2].
    rewrite nth_error_map in I1. destruct (nth_error ws i) as [w|] eqn:EI; [|discriminate]. cbn in I1. injection I1 as <-.
    destruct (PH i w EI) as (hw & N & P). rewrite I2 in N. injection N as <-. apply (process_hidden (zsum counts)); [apply LP; now apply nth_error_In in EI|apply P]. }
  { intros [a ma] [b mb] Ia Ib. cbn [fst]. apply in_combine_l, in_map_iff in Ia, Ib. destruct Ia as (a' & <- & Ia), Ib as (b' & <- & Ib). now apply TS. }
  { apply pairs_intro. intros i j [a ma] [b mb] L Ia Ib. cbn [fst]. apply combine_at in Ia, Ib. destruct Ia as [Ia _], Ib as [Ib _].
    rewrite nth_error_map in Ia, Ib. destruct (nth_error ws i) as [wa|] eqn:Ea; [|discriminate]. destruct (nth_error ws j) as [wb|] eqn:Eb; [|discriminate].
    cbn in Ia, Ib. injection Ia as <-. injection Ib as <-. exact (pairs_elim _ _ TD i j wa wb L Ea Eb). }
  { intros n E. discriminate. }
  { exact access_zero. }
  rewrite EW. cbn [bind].
  set (ranks := map (fun x => (pr_field (fst x), snd x, pr_mem (fst x))) (combine ws hs)).
  assert (RA : forall i f px m, nth_error ranks i = Some (f, px, m) -> exists w, nth_error ws i = Some w /\ nth_error hs i = Some px /\ f = pr_field w /\ m = pr_mem w /\ positions (base_of counts i) w px).
  { intros i f px m E. unfold ranks in E. rewrite nth_error_map in E. destruct (nth_error (combine ws hs) i) as [[w hw]|] eqn:EI; [|discriminate].
    cbn in E. injection E as <- <- <-. apply combine_at in EI. destruct EI as [E1 E2]. exists w. repeat (split; [assumption || reflexivity|]).
    destruct (PH i w E1) as (hw' & N & P). congruence. }
  destruct (write_local_ranks_spec (zsum counts) hist name v h nb k fr comp nsub T LC EN AC ranks file) as (g & EG & _ & RG & _ & VG).
  { intros f px m I. apply In_nth_error in I. destruct I as [i I]. destruct (RA i f px m I) as (w & Ew & Eh & -> & -> & P).
    pose proof (nth_error_In _ _ Ew) as Iw. destruct (LP w Iw) as (PF & _ & ND & IX & LF & RL & EC & ES). destruct (base_bounds ws i w Ew) as [B1 B2]. fold counts in B1, B2.
    split; [exact EC|]. split; [exact ES|]. split; [exact RL|]. split; [|split].
    - eexists. split; [exact LF|]. rewrite (positions_length (base_of counts i) w px B1 (SO w Iw) P). lia.
    - apply Forall_forall. intros o Ho. pose proof (positions_request (base_of counts i) w px o B1 (SO w Iw) P Ho). lia.
    - now apply (positions_nodup (base_of counts i) w px B1 (SO w Iw)). }
  { apply pairs_intro. intros i j [[f px] m] [[f' px'] m'] L Ia Ib o Ho Ho'. cbn [fst snd] in Ho, Ho'.
    destruct (RA i f px m Ia) as (w & Ew & _ & _ & _ & P). destruct (RA j f' px' m' Ib) as (w' & Ew' & _ & _ & _ & P').
    destruct (base_bounds ws i w Ew) as [B1 _]. destruct (base_bounds ws j w' Ew') as [B1' _]. fold counts in B1, B1'.
    pose proof (positions_request _ w px o B1 (SO w (nth_error_In _ _ Ew)) P Ho) as Q. pose proof (positions_request _ w' px' o B1' (SO w' (nth_error_In _ _ Ew')) P' Ho') as Q'.
    pose proof (base_next _ _ _ (counts_at ws i w Ew)) as N. fold counts in N. pose proof (base_mono ws (S i) j L) as M. fold counts in M. lia. }
  rewrite EG. cbn [bind]. exists hf, g. split; [reflexivity|]. split.
  - (* some process has a pixel *)
    assert (X : exists w, In w ws /\ pr_ids w <> []).
    { destruct (Exists_dec (fun w => pr_ids w <> []) ws) as [E|E].
      - intros w. destruct (pr_ids w); [right; tauto|left; discriminate].
      - apply Exists_exists in E. exact E.
      - exfalso. apply Forall_Exists_neg in E. assert (Z : zsum counts = 0); [|lia]. unfold counts. clear - E. induction E as [|w l Hw E IH]; [reflexivity|].
        cbn [counts_of map]. rewrite zsum_cons. fold (counts_of l). rewrite IH. destruct (pr_ids w); [reflexivity|]. exfalso. apply Hw. discriminate. }
    destruct X as (w & Iw & NE). apply In_nth_error in Iw. destruct Iw as [i Ei]. destruct (PH i w Ei) as (hw & N & P).
    apply (RG (pr_field w) hw (pr_mem w)).
    + unfold ranks. apply in_map_iff. exists (w, hw). split; [reflexivity|]. apply (nth_error_In _ i). apply combine_at. auto.
    + destruct (base_bounds ws i w Ei) as [B1 _]. pose proof (positions_length _ w hw B1 (SO w (nth_error_In _ _ Ei)) P) as Q. intros Z. rewrite Z in Q. destruct (pr_ids w); [contradiction|discriminate].
  - intros i w Ei. destruct (PH i w Ei) as (hw & N & P). exists hw. split; [exact P|]. pose proof (nth_error_In _ _ Ei) as Iw. destruct (LP w Iw) as (PF & _). split.
    + intros x O. apply (pixel_holds (pr_sub w) hw x _ PF O). rewrite <- (pixel_target (pr_sub w) 0 x PF O).
      apply VW; [|now apply pixel_indexes]. apply (nth_error_In _ i). apply combine_at. split; [now apply map_nth_error|exact N].
    + intros c q j o Hc Hq Hn. apply (VG (pr_field w) hw (pr_mem w) c q j o); try assumption. unfold ranks. apply in_map_iff. exists (w, hw). split; [reflexivity|].
      apply (nth_error_In _ i). apply combine_at. auto.
Qed.

(** What a reader finds: the positions of the pixels of the writers, and the
    values at these positions. *)
Lemma collection_read ws (r : process A) nb' k' (hf : ncfile Z) (g : ncfile A) : 0 < zsum (counts_of ws) -> local_process lname hv (zsum (counts_of ws)) hist name v comp nsub r -> accessed k' nb' = Ok fr -> fr < recs g ->
  exists hr, Z.of_nat (length hr) = l_npix (nf_lay (pr_sub r)) /\ (forall x, owns (pr_sub r) x -> rd hr (pixel_id (pr_sub r) x) = Ok (cells hf lname (0 :: x))) /\
    (Forall (fun o => 0 <= o < zsum (counts_of ws)) (requests hr) -> (length (requests hr) <= length (pr_ids r))%nat ->
     exists mem', read_collection nb' k' hv v h r hf g = Ok mem' /\ length mem' = length (pr_mem r) /\
       forall c q j o, in_shape comp c -> 0 <= q < nsub -> nth_error (requests hr) j = Some o ->
         holds (nf_lay (pr_field r)) mem' c q [Z.of_nat j] (cells g name (spot hist (pr_field r) h fr c q o))).
Proof.
  intros T LP AC' FR. pose proof LP as (PF & (seen & s & EP) & _ & _ & LF & RL & EC & ES). destruct (pixel_facts _ PF) as (_ & SG & NN & _).
  pose proof PF as (_ & _ & _ & _ & D).
  destruct (registered_hidden lname (pr_sub r) hv _ seen s EP SG D) as (R & HH & N1 & _).
  assert (AZ : accessed 0 nb' = Ok 0).
  { unfold accessed, handle_frame in *. cbn [bind Z.ltb Z.compare] in *.
    destruct (Z.leb_spec nb' 0); [|reflexivity]. destruct (Z.leb_spec nb' (if k' <? 0 then nb' + k' else k')); [discriminate|]. cbn [bind] in AC'.
    destruct (Z.ltb_spec (if k' <? 0 then nb' + k' else k') 0); [discriminate|]. lia. }
  apply accessed_inv in AZ. destruct AZ as [HF F].
  destruct (read_global_spec true None lname (pr_sub r) hv R HH N1 0 ltac:(intros ? ?; discriminate) nb' 0 0 _ hf D HF F (or_introl eq_refl)) as (hr & EH & LH & VH & _).
  exists hr. split; [rewrite LH, repeat_length; now apply Z2Nat.id|]. split.
  - intros x O. apply (pixel_holds (pr_sub r) hr x _ PF O). rewrite <- (pixel_target (pr_sub r) 0 x PF O). apply VH. now apply pixel_indexes.
  - intros B LE. unfold read_collection. rewrite EH. cbn [bind].
    assert (LC' : Z.of_nat (length (l_comp (nf_lay (pr_field r)))) <= 2 ^ 31) by now rewrite EC.
    destruct (read_local_spec (zsum (counts_of ws)) hist name (pr_field r) v _ RL (ex_intro _ _ LF) T LC' h EN nb' k' fr hr (pr_mem r) g AC' (fun _ => FR) LF ltac:(lia) B) as (m & EM & LM & VM).
    exists m. split; [exact EM|]. split; [exact LM|]. intros c q j o Hc Hq Hn. apply VM; [now rewrite EC|now rewrite ES|exact Hn].
Qed.

Lemma spot_keeps (f : nfield) (g g2 : ncfile A) c q o : keeps name hist fr h g g2 -> cells g2 name (spot hist f h fr c q o) = cells g name (spot hist f h fr c q o).
Proof.
  intros [_ K]. apply K. unfold spot. rewrite cell_header. unfold header. destruct hist; cbn [app]; eexists; reflexivity.
Qed.
Lemma same_spot total w r c q o : local_process lname hv total hist name v comp nsub w -> local_process lname hv total hist name v comp nsub r ->
  spot hist (pr_field w) h fr c q o = spot hist (pr_field r) h fr c q o.
Proof.
  intros (_ & _ & _ & _ & LF & _ & EC & ES) (_ & _ & _ & _ & LF' & _ & EC' & ES'). apply spot_eq. unfold single.
  rewrite (lf_nbc (pr_field w) _ (ex_intro _ _ LF)), (lf_nbc (pr_field r) _ (ex_intro _ _ LF')), EC, EC', ES, ES'. reflexivity.
Qed.

(** Another process reads, with pixels in increasing order. *)
Lemma local_roundtrip ws hfile file : 0 < zsum (counts_of ws) ->
  (forall w, In w ws -> local_process lname hv (zsum (counts_of ws)) hist name v comp nsub w) -> tiles ws ->
  (forall w, In w ws -> StronglySorted Z.lt (pr_ids w)) ->
  exists hf g, write_collection nb k hv v h ws hfile file = Ok (hf, g) /\
    forall r nb' k' hf2 g2, local_process lname hv (zsum (counts_of ws)) hist name v comp nsub r -> StronglySorted Z.lt (pr_ids r) ->
      (forall x, owns (pr_sub r) x -> exists w, In w ws /\ owns (pr_sub w) x) ->
      (forall x w, In w ws -> owns (pr_sub r) x -> owns (pr_sub w) x -> (In (pixel_id (pr_sub w) x) (pr_ids w) <-> In (pixel_id (pr_sub r) x) (pr_ids r))) ->
      accessed k' nb' = Ok fr -> (forall a, cells hf2 lname a = cells hf lname a) -> keeps name hist fr h g g2 ->
      exists mem', read_collection nb' k' hv v h r hf2 g2 = Ok mem' /\ length mem' = length (pr_mem r) /\
        forall w x jw jr c q, In w ws -> pixel_at w jw x -> pixel_at r jr x -> in_shape comp c -> 0 <= q < nsub ->
          exists a, holds (nf_lay (pr_field w)) (pr_mem w) c q [Z.of_nat jw] a /\ holds (nf_lay (pr_field r)) mem' c q [Z.of_nat jr] a.
Proof.
  intros T LP TL SW. destruct (collection_written ws hfile file T LP TL) as (hf & g & EW & FR & V). exists hf, g. split; [exact EW|].
  intros r nb' k' hf2 g2 LR SR CO SA AC' KH KG. pose proof KG as [RC _].
  destruct (collection_read ws r nb' k' hf2 g2 T LR AC' ltac:(lia)) as (hr & LH & VH & VR). destruct LR as (PF & LR'). pose proof (conj PF LR' : local_process lname hv (zsum (counts_of ws)) hist name v comp nsub r) as LR.
  destruct (pixel_facts _ PF) as (_ & _ & NN & PR & _ & PS).
  assert (SE : selected hr = pr_ids r /\ Forall (fun o => 0 <= o < zsum (counts_of ws)) (requests hr)).
  { assert (K : forall i, In i (selected hr) <-> In i (pr_ids r)).
    { intros i. rewrite selected_in, LH. split.
      - intros [B N]. destruct (PS i B) as (x & O & <-). destruct (CO x O) as (w & Iw & Ow). apply (SA x w Iw O Ow).
        apply In_nth_error in Iw. destruct Iw as [n En]. destruct (V n w En) as (hw & P & VP & _). pose proof P as (LW & P1 & P2).
        destruct (in_dec Z.eq_dec (pixel_id (pr_sub w) x) (pr_ids w)) as [I|I]; [exact I|]. exfalso. apply N.
        destruct (LP w (nth_error_In _ _ En)) as (PFw & _). destruct (pixel_facts _ PFw) as (_ & _ & _ & PRw & _).
        specialize (P2 _ (PRw x Ow) I). rewrite (VP x Ow) in P2. specialize (VH x O). rewrite KH in VH. rewrite rd_zat in VH by (rewrite LH; exact B). apply Ok_inj in P2, VH. congruence.
      - intros I. destruct LR' as (_ & _ & IX & _). destruct (IX i I) as (x & O & ->). split; [now apply PR|]. destruct (CO x O) as (w & Iw & Ow). apply (SA x w Iw O Ow) in I.
        apply In_nth_error in Iw. destruct Iw as [n En]. destruct (V n w En) as (hw & P & VP & _). pose proof P as (LW & P1 & P2). apply In_nth_error in I. destruct I as [j J].
        specialize (P1 j _ J). rewrite (VP x Ow) in P1. specialize (VH x O). rewrite KH in VH. rewrite rd_zat in VH by (rewrite LH; now apply PR). apply Ok_inj in P1, VH.
        destruct (base_bounds ws n w En) as [B1 _]. rewrite VH, P1. lia. }
    split; [now apply sorted_ext; [apply selected_sorted|exact SR|]|]. rewrite requests_selected. apply Forall_forall. intros o Ho. apply in_map_iff in Ho. destruct Ho as (i & <- & Hi).
    apply K in Hi. destruct LR' as (_ & _ & IX & _). destruct (IX i Hi) as (x & O & ->). destruct (CO x O) as (w & Iw & Ow). apply (SA x w Iw O Ow) in Hi.
    apply In_nth_error in Iw. destruct Iw as [n En]. destruct (V n w En) as (hw & P & VP & _). pose proof P as (LW & P1 & P2). apply In_nth_error in Hi. destruct Hi as [j J].
    specialize (P1 j _ J). rewrite (VP x Ow) in P1. specialize (VH x O). rewrite KH in VH. rewrite rd_zat in VH by (rewrite LH; now apply PR). apply Ok_inj in P1, VH.
    destruct (base_bounds ws n w En) as [B1 B2]. assert (j < length (pr_ids w))%nat by (apply nth_error_Some; congruence). rewrite VH, P1. lia. }
  destruct SE as [SE SB]. destruct (VR SB) as (mem' & ER & LM & VM).
  { rewrite requests_selected, map_length, SE. lia. }
  exists mem'. split; [exact ER|]. split; [exact LM|]. intros w x jw jr c q Iw [Ow Jw] [Or Jr] Hc Hq.
  pose proof (LP w Iw) as LW. apply In_nth_error in Iw. destruct Iw as [n En]. destruct (V n w En) as (hw & P & VP & VW). destruct (base_bounds ws n w En) as [B1 B2].
  set (o := base_of (counts_of ws) n + Z.of_nat jw).
  exists (cells g name (spot hist (pr_field w) h fr c q o)). split.
  - apply VW; [exact Hc|exact Hq|]. apply (positions_sorted _ w hw); [exact B1|now apply (process_sound (zsum (counts_of ws)))|exact P|apply SW; now apply nth_error_In in En|].
    apply nth_error_Some. congruence.
  - rewrite (same_spot _ w r c q o LW LR), <- (spot_keeps (pr_field r) g g2 c q o KG). apply VM; [exact Hc|exact Hq|].
    rewrite requests_selected, SE, (map_nth_error _ _ _ Jr). f_equal. pose proof P as (_ & P1 & _). specialize (P1 jw _ Jw). rewrite (VP x Ow) in P1.
    specialize (VH x Or). rewrite KH in VH. rewrite rd_zat in VH by (rewrite LH; now apply PR). apply Ok_inj in P1, VH. unfold o. congruence.
Qed.

(** The same process reads, its pixels are in any order. *)
Lemma local_roundtrip_same ws hfile file : 0 < zsum (counts_of ws) ->
  (forall w, In w ws -> local_process lname hv (zsum (counts_of ws)) hist name v comp nsub w) -> tiles ws ->
  exists hf g, write_collection nb k hv v h ws hfile file = Ok (hf, g) /\
    forall w r nb' k' hf2 g2, In w ws -> local_process lname hv (zsum (counts_of ws)) hist name v comp nsub r ->
      pr_sub r = pr_sub w -> pr_ids r = pr_ids w ->
      accessed k' nb' = Ok fr -> (forall a, cells hf2 lname a = cells hf lname a) -> keeps name hist fr h g g2 ->
      exists mem', read_collection nb' k' hv v h r hf2 g2 = Ok mem' /\ length mem' = length (pr_mem r) /\
        forall j c q, (j < length (pr_ids w))%nat -> in_shape comp c -> 0 <= q < nsub ->
          exists a, holds (nf_lay (pr_field w)) (pr_mem w) c q [Z.of_nat j] a /\ holds (nf_lay (pr_field r)) mem' c q [Z.of_nat j] a.
Proof.
  intros T LP TL. destruct (collection_written ws hfile file T LP TL) as (hf & g & EW & FR & V). exists hf, g. split; [exact EW|].
  intros w r nb' k' hf2 g2 Iw LR ES EI AC' KH KG. pose proof KG as [RC _].
  destruct (collection_read ws r nb' k' hf2 g2 T LR AC' ltac:(lia)) as (hr & LH & VH & VR).
  pose proof (LP w Iw) as LW. apply In_nth_error in Iw. destruct Iw as [n En]. destruct (V n w En) as (hw & P & VP & VW). destruct (base_bounds ws n w En) as [B1 B2].
  pose proof (process_sound _ w LW) as SD. pose proof SD as (PF & _). destruct (pixel_facts _ PF) as (_ & _ & NN & _ & _ & PS).
  assert (E : hr = hw).
  { pose proof P as (LW' & _). rewrite ES in LH, VH. apply nth_ext with (d := 0) (d' := 0); [lia|]. intros i Hi.
    destruct (PS (Z.of_nat i) ltac:(lia)) as (x & O & X). specialize (VP x O). specialize (VH x O). rewrite KH, X in VH. rewrite X in VP.
    rewrite rd_zat in VP, VH by lia. apply Ok_inj in VP, VH. unfold zat in VP, VH. rewrite Nat2Z.id in VP, VH. congruence. }
  subst hr. pose proof (positions_length _ w hw B1 SD P) as PL. destruct VR as (mem' & ER & LM & VM).
  { apply Forall_forall. intros o Ho. pose proof (positions_request _ w hw o B1 SD P Ho). lia. }
  { rewrite PL, EI. lia. }
  exists mem'. split; [exact ER|]. split; [exact LM|]. intros j c q Hj Hc Hq. rewrite <- PL in Hj. destruct (nth_error (requests hw) j) as [o|] eqn:EO; [|apply nth_error_None in EO; lia].
  exists (cells g name (spot hist (pr_field w) h fr c q o)). split; [now apply VW|]. rewrite (same_spot _ w r c q o LW LR), <- (spot_keeps (pr_field r) g g2 c q o KG). now apply VM.
Qed.
End All.
