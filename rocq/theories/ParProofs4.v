(** Entries of variables and positions of local pixels, transferred by all
    processes: the session says what comes out. *)
From Coq Require Import String Sorting.Sorted.
From Verif Require Import Base CIntModel GridModel GridSpec StridedModel LayoutModel LayoutSpec LayoutProofs CommModel FrameModel NetCDFModel NetCDFSpec NetCDFProofs4 NetCDFProofs5 NetCDFProofs6 NetCDFProofs9 NetCDFProofs10 NetCDFProofs11.
From Verif Require Import SessionModel SessionSpec SessionProofs SessionProofs2 SessionProofs3 SessionProofs4 ParModel ParSpec ParProofs ParProofs2 ParProofs3.
Local Open Scope Z_scope.
Local Open Scope list_scope.

(** A frame without record cannot be read. *)
Lemma global_get_bad {B} hist name f v nb k fr h (m : list B) b file : ready false hist name v f m -> accessed k nb = Ok fr ->
  global_box nb k v h f = Ok b -> puts v b 0 m -> recs file <= fr -> get_box v b 0 m file = Err FileIOError.
Proof.
  intros (R & HH & N1 & D) AC E PU RC. destruct (accessed_inv _ _ _ AC) as [HF F0]. pose proof D as (Sn & _ & L1 & L2 & _).
  destruct (PU file) as [f' EP]. unfold put_box, put_varm in EP. unfold get_box, get_varm. destruct (negb _); [discriminate|]. clear EP.
  unfold global_box in E. rewrite HF in E. cbn [bind] in E.
  rewrite (start_vector _ _ _ _ _ R) in E by assumption. cbn [bind] in E. rewrite (count_vector _ _ _ _ _ R) in E by assumption. cbn [bind] in E. rewrite (stride_vector _ _ _ _ _ R) in E. cbn [bind] in E.
  destruct (get_nc_imap v f) as [im| |]; try discriminate. cbn [bind] in E. injection E as <-. cbn [b_start b_stride b_count b_imap].
  destruct R as (-> & _). cbn [v_dims frame_part app header all_within]. unfold within_dim at 1. change (base_is frame_dim "frame") with true. cbv iota. change (1 =? 0) with false. cbv iota.
  destruct (Z.ltb_spec fr (recs file)); [lia|]. now rewrite andb_false_r.
Qed.

Section Entries.
Context {A : Type}.
Notation session := (session A).
Notation world := (world A).
Notation rank := (rank A).
Notation prog := (prog A).
Notation config := (config A).
Variables (P : plan) (pos : string -> list Z -> Z).
Implicit Types (s : session) (w : world) (r : rank) (ranks : list rank).

Lemma agrees_pairs s w ranks (R : rank -> rank -> Prop) : agrees s w ranks ->
  (forall i j r r', (i < j)%nat -> nth_error ranks i = Some r -> nth_error ranks j = Some r' -> R r r') -> ForallOrdPairs R ranks.
Proof. intros _ H. now apply pairs_intro. Qed.

(** *** Writing *)
Section Write.
Variables (s : session) (q : quantity) (v : ncvar) (h k : Z).
Hypothesis F : fits P (se_setup s).
Hypothesis SZ : sized P (se_setup s) (se_mem s).
Hypothesis Iq : In q (pl_quantities P).
Hypothesis V : var_of P (se_setup s) q v.
Hypothesis EH : entry_of q h.

Let FD r := pt_field (own_part r) (q_name q).
Lemma rank_fields w ranks : agrees s w ranks -> combine (fields_of s (mk_svar v (q_local q))) (se_mem s (q_name q) h) = map (fun r => (FD r, r_mem r (q_name q) h)) ranks.
Proof.
  intros AG. pose proof (agrees_fields s w ranks (mk_svar v (q_local q)) h AG) as E. cbn [sv_var] in E. rewrite (vo_name _ _ _ _ V) in E. apply E. exact (mems_length P s q h SZ Iq EH).
Qed.
Lemma rank_field w ranks r i : agrees s w ranks -> nth_error ranks i = Some r -> exists p, nth_error (su_parts (se_setup s)) i = Some p /\ FD r = pt_field p (q_name q) /\ nth_error (se_mem s (q_name q) h) i = Some (r_mem r (q_name q) h).
Proof.
  intros AG E. destruct (agrees_rank s w ranks i r AG E) as (p & Ep & EO). exists p. split; [exact Ep|]. split; [unfold FD; now rewrite EO|].
  destruct AG as (_ & _ & L & H). destruct (H i r E) as (_ & _ & _ & _ & _ & _ & _ & _ & HM). rewrite HM. apply some_nth. rewrite (mems_length P s q h SZ Iq EH). apply nth_error_Some. congruence.
Qed.
Lemma rank_ready w ranks r i : agrees s w ranks -> q_local q = None -> nth_error ranks i = Some r -> ready false (q_hist q) (q_name q) v (FD r) (r_mem r (q_name q) h) /\ shaped P q (FD r) /\ nf_dom (FD r) = pl_dom P.
Proof.
  intros AG EL E. destruct (rank_field w ranks r i AG E) as (p & Ep & -> & Em). destruct (SZ q h Iq EH) as [_ H]. specialize (H i p _ Ep Em). rewrite EL in H.
  destruct (vo_parts _ _ _ _ V p (nth_error_In _ _ Ep)) as [S R]. rewrite EL in R. destruct R as [R1 R2]. split; [now apply registered_ready|]. auto.
Qed.
Lemma global_puts w ranks fr : agrees s w ranks -> q_local q = None -> accessed k (se_nb s) = Ok fr -> exists file',
  written_file s q v h k = Ok file' /\
  (forall r, In r ranks -> exists b, global_box (se_nb s) k v h (FD r) = Ok b /\ puts v b 0 (r_mem r (q_name q) h)) /\
  file' = fold_left (fun (fl : ncfile A) r => put_total v (the_box (global_box (se_nb s) k v h (FD r))) 0 (r_mem r (q_name q) h) fl) ranks (se_file s) /\
  ForallOrdPairs (fun x y => forall n at_, foot v (the_box (global_box (se_nb s) k v h (FD x))) n at_ -> foot v (the_box (global_box (se_nb s) k v h (FD y))) n at_ -> False) ranks.
Proof.
  intros AG EL AC. destruct (write_entry_global P pos s q v h k F SZ Iq V EH fr EL AC) as (file' & E & _). exists file'. split; [unfold written_file; now rewrite EL in *|].
  rewrite (rank_fields w ranks AG) in E. destruct (write_ranks_boxes _ _ _ _ FD (fun r => r_mem r (q_name q) h) ranks _ _ E) as [H1 H2]. split; [exact H1|]. split; [exact H2|].
  apply pairs_intro. intros i j r r' L Ei Ej n at_. destruct (H1 r (nth_error_In _ _ Ei)) as (b & E1 & _). destruct (H1 r' (nth_error_In _ _ Ej)) as (b' & E2 & _).
  rewrite E1, E2. cbn [the_box]. destruct (rank_ready w ranks r i AG EL Ei) as (R1 & (S1 & S2 & S3) & D1). destruct (rank_ready w ranks r' j AG EL Ej) as (R2 & (T1 & T2 & T3) & D2).
  apply (global_disjoint false (q_hist q) (q_name q) (FD r) (FD r') v (se_nb s) k fr h _ _ b b' n at_ R1 R2 AC); [unfold same_array; rewrite S1, S2, S3, T1, T2, T3, D1, D2; auto| |assumption|exact E2].
  destruct (rank_field w ranks r i AG Ei) as (p & Ep & -> & _). destruct (rank_field w ranks r' j AG Ej) as (p' & Ep' & -> & _). destruct F as (_ & _ & FP & _). exact (pairs_elim _ _ (FP q Iq EL) i j p p' L Ep Ep').
Qed.

Hypothesis NU : forall l, q_local q = Some l -> numbers P pos l /\ all_list pos l (se_setup s) (se_hidden s l).
Lemma rank_locals w ranks l : agrees s w ranks -> q_local q = Some l ->
  combine (combine (fields_of s (mk_svar v (q_local q))) (se_hidden s l)) (se_mem s (q_name q) h) = map (fun r => (FD r, r_pos r l, r_mem r (q_name q) h)) ranks.
Proof.
  intros AG EL. pose proof (agrees_locals s w ranks (mk_svar v (q_local q)) h l AG) as E. cbn [sv_var] in E. rewrite (vo_name _ _ _ _ V) in E. apply E; [exact (mems_length P s q h SZ Iq EH)|]. apply (NU l EL).
Qed.
Lemma rank_local w ranks r i l : agrees s w ranks -> q_local q = Some l -> nth_error ranks i = Some r -> exists p, nth_error (su_parts (se_setup s)) i = Some p /\ FD r = pt_field p (q_name q) /\
  coll_part P (se_setup s) l p /\ numbers P pos l /\ lists pos l p (r_pos r l) /\ local_field (FD r) (Z.of_nat (length (pt_ids p l))) (r_mem r (q_name q) h) /\ registered_local (pl_total P l) (q_hist q) (q_name q) (FD r) v /\ shaped P q (FD r).
Proof.
  intros AG EL E. destruct (rank_field w ranks r i AG E) as (p & Ep & EF & Em). exists p. split; [exact Ep|]. split; [exact EF|]. rewrite EF.
  assert (Eh : nth_error (se_hidden s l) i = Some (r_pos r l)).
  { destruct AG as (_ & _ & L & H). destruct (H i r E) as (_ & _ & _ & _ & _ & _ & _ & HP & _). rewrite HP. apply some_nth. destruct (NU l EL) as [_ [HL _]]. rewrite HL, <- L. apply nth_error_Some. congruence. }
  destruct (hidden_at P pos s q v F V NU l i p _ EL Ep Eh) as (C1 & C2 & C3). split; [exact C1|]. split; [exact C2|]. split; [exact C3|].
  split; [exact (local_shape P s q h SZ Iq EH l p _ i EL Ep Em)|]. destruct (vo_parts _ _ _ _ V p (nth_error_In _ _ Ep)) as [S R]. rewrite EL in R. auto.
Qed.
Lemma local_puts w ranks l fr : agrees s w ranks -> q_local q = Some l -> accessed k (se_nb s) = Ok fr -> exists file',
  written_file s q v h k = Ok file' /\
  (forall r, In r ranks -> exists bs, request_boxes (se_nb s) k v h (FD r) (r_pos r l) = Ok bs /\ puts_list v bs 0 (r_mem r (q_name q) h)) /\
  file' = after (flat_map (fun r => put_list v (the_boxes (request_boxes (se_nb s) k v h (FD r) (r_pos r l))) 0 (r_mem r (q_name q) h)) ranks) (se_file s) /\
  ForallOrdPairs (fun x y => forall b b' n at_, In b (the_boxes (request_boxes (se_nb s) k v h (FD x) (r_pos x l))) -> In b' (the_boxes (request_boxes (se_nb s) k v h (FD y) (r_pos y l))) -> foot v b n at_ -> foot v b' n at_ -> False) ranks.
Proof.
  intros AG EL AC. destruct (write_entry_local P pos s q v h k F SZ Iq V EH NU l fr EL AC) as (file' & E & _). exists file'. split; [unfold written_file; now rewrite EL in *|].
  rewrite (rank_locals w ranks l AG EL) in E. destruct (write_local_ranks_boxes _ _ _ _ FD (fun r => r_pos r l) (fun r => r_mem r (q_name q) h) ranks _ _ E) as [H1 H2]. split; [exact H1|]. split; [exact H2|].
  apply pairs_intro. intros i j r r' L Ei Ej b b' n at_ Ib Ib' I I'. destruct (H1 r (nth_error_In _ _ Ei)) as (bs & E1 & _). destruct (H1 r' (nth_error_In _ _ Ej)) as (bs' & E2 & _).
  rewrite E1 in Ib. rewrite E2 in Ib'. cbn [the_boxes] in Ib, Ib'. destruct (rank_local w ranks r i l AG EL Ei) as (p & Ep & _ & C1 & N & C2 & LF & R & S). destruct (rank_local w ranks r' j l AG EL Ej) as (p' & Ep' & _ & C1' & _ & C2' & LF' & R' & S').
  pose proof (vo_comp _ _ _ _ V) as VC.
  assert (CL : Z.of_nat (length (l_comp (nf_lay (FD r)))) <= 2 ^ 31) by (destruct S as [-> _]; exact VC). assert (CL' : Z.of_nat (length (l_comp (nf_lay (FD r')))) <= 2 ^ 31) by (destruct S' as [-> _]; exact VC).
  destruct (local_foot _ _ _ _ _ _ _ _ _ _ _ _ _ _ _ _ R LF (cp_total _ _ _ _ C1) CL AC E1 Ib I) as (c & qq & o & Hc & Hq & Ho & ->). destruct (local_foot _ _ _ _ _ _ _ _ _ _ _ _ _ _ _ _ R' LF' (cp_total _ _ _ _ C1') CL' AC E2 Ib' I') as (c' & qq' & o' & Hc' & Hq' & Ho' & Q).
  rewrite (spot_at P q h (FD r) fr c qq o (local_sane _ _ _ LF) S), (spot_at P q h (FD r') fr c' qq' o' (local_sane _ _ _ LF') S') in Q.
  assert (o = o'). { rewrite <- (spot_at P q h (FD r) fr c qq o (local_sane _ _ _ LF) S), <- (spot_at P q h (FD r) fr c' qq' o' (local_sane _ _ _ LF) S) in Q. destruct S as [S1 _], S' as [S1' _]. apply spot_inj in Q; [exact Q|exact Hc|]. rewrite S1, <- S1'. exact Hc'. }
  subst o'. destruct (part_requests P (se_setup s) l p pos _ C1 N C2 o Ho) as (x & Ox & Px & Qx). destruct (part_requests P (se_setup s) l p' pos _ C1' N C2' o Ho') as (y & Oy & Py & Qy).
  assert (x = y) by (apply (N x (part_dom _ _ _ _ C1 x Ox)); [now apply (part_dom _ _ _ _ C1')|assumption|assumption|congruence]). subst y.
  destruct F as (_ & _ & _ & _ & _ & _ & _ & _ & FP & _). exact (pairs_elim _ _ FP i j p p' L Ep Ep' x Ox Oy).
Qed.

Lemma does_write_entry : (se_mode s = Reading -> q_local q = None) ->
  does (write_entry k (mk_svar v (q_local q)) h) s (fst (SessionModel.write_entry k (mk_svar v (q_local q)) h s)) (snd (SessionModel.write_entry k (mk_svar v (q_local q)) h s)).
Proof.
  intros RD. rewrite (write_entry_unfold P s q v h k V). cbv zeta. pose proof (vo_name _ _ _ _ V) as VN.
  destruct (accessed_bad k (se_nb s)) as [[fr AC]|AC].
  2: { rewrite (written_bad P pos s q v h k F SZ Iq EH NU AC). replace (if match se_mode s with Reading => negb (unplaced s (mk_svar v (q_local q))) | _ => false end then Err FileIOError else Err FileIOError) with (@Err (ncfile A) FileIOError) by now destruct (match se_mode s with Reading => _ | _ => false end).
       cbn [fst snd failed]. apply does_ret. intros w ranks AG r Ir K. destruct (agrees_in _ _ _ _ AG Ir) as (_ & _ & EN & _). unfold write_entry. cbn [sv_local sv_var]. rewrite EN. destruct (q_local q) as [l|].
       - now rewrite request_boxes_bad.
       - now rewrite global_box_bad. }
  assert (DL : (exists l, q_local q = Some l) \/ q_local q = None) by (destruct (q_local q); eauto). destruct DL as [[l EL]|EL].
  - assert (MR : se_mode s <> Reading) by (intros E; specialize (RD E); congruence).
    intros K Q HK w ranks AG. pose proof (agrees_some _ _ _ AG (parts_some P s F)) as NE.
    destruct (local_puts w ranks l fr AG EL AC) as (file' & EW & H1 & H2 & H3). rewrite EW in HK. replace (match se_mode s with Reading => negb (unplaced s (mk_svar v (q_local q))) | _ => false end) with false in HK by (destruct (se_mode s); congruence).
    cbn [fst snd] in HK.
    rewrite (map_ext_in _ (fun r => Sync CBeginIndep 0 (fun _ => put_each v (the_boxes (request_boxes (se_nb s) k v h (FD r) (r_pos r l))) 0 (r_mem r (q_name q) h) (with_indep true r) K))).
    2: { intros r Ir. destruct (agrees_in _ _ _ _ AG Ir) as (_ & _ & EN & _). unfold write_entry. cbn [sv_local sv_var]. rewrite EL, VN, EN. fold (FD r). destruct (H1 r Ir) as (bs & -> & _). reflexivity. }
    apply (always_sync Q w CBeginIndep (fun _ => 0) (fun r _ => put_each v (the_boxes (request_boxes (se_nb s) k v h (FD r) (r_pos r l))) 0 (r_mem r (q_name q) h) (with_indep true r) K)); [exact NE|].
    apply (write_phase Q ranks w (fun r => put_list v (the_boxes (request_boxes (se_nb s) k v h (FD r) (r_pos r l))) 0 (r_mem r (q_name q) h)) _ (fun r => Sync CEndIndep 0 (fun _ => K (with_indep false (with_indep true r)) (Ok tt))) (se_file s)).
    + apply fine_list; [|exact H3]. intros r Ir. destruct (H1 r Ir) as (bs & -> & PU). exact PU.
    + intros r Ir. split; [|exact I]. apply put_each_acts; [|destruct (H1 r Ir) as (bs & -> & PU); exact PU]. destruct (agrees_in _ _ _ _ AG Ir) as (EM & _). cbn. congruence.
    + apply AG.
    + intros w' S1 S2. rewrite <- H2 in S2. apply (always_sync Q w' CEndIndep (fun _ => 0) (fun r _ => K (with_indep false (with_indep true r)) (Ok tt))); [exact NE|].
      rewrite (map_ext_in _ (fun r => K r (Ok tt))); [apply HK; now apply (agrees_file s w)|]. intros r Ir. destruct (agrees_in _ _ _ _ AG Ir) as (_ & _ & _ & _ & _ & EI). f_equal. destruct r. cbn in *. now subst.
  - intros K Q HK w ranks AG. pose proof (agrees_some _ _ _ AG (parts_some P s F)) as NE. destruct (global_puts w ranks fr AG EL AC) as (file' & EW & H1 & H2 & H3). rewrite EW in HK.
    rewrite (map_ext_in _ (fun r => transfer true (q_name q) r (put_value (r_mode r) v (the_box (global_box (se_nb s) k v h (FD r))) 0 (r_mem r (q_name q) h)) (K r))).
    2: { intros r Ir. destruct (agrees_in _ _ _ _ AG Ir) as (_ & _ & EN & _). unfold write_entry. cbn [sv_local sv_var]. rewrite EL, VN, EN. fold (FD r). destruct (H1 r Ir) as (b & -> & _). reflexivity. }
    assert (IN : forall r, In r ranks -> r_indep r = false) by (intros r Ir; now destruct (agrees_in _ _ _ _ AG Ir) as (_ & _ & _ & _ & _ & EI)).
    assert (DM : se_mode s = Reading \/ se_mode s <> Reading) by (destruct (se_mode s); [right|right|left]; congruence). destruct DM as [MR|MR].
    + rewrite MR in HK. unfold unplaced in HK. cbn [sv_local] in HK. rewrite EL in HK. cbn [negb fst snd failed] in HK. apply (get_phase Q true (q_name q) (fun r => put_value (r_mode r) v (the_box (global_box (se_nb s) k v h (FD r))) 0 (r_mem r (q_name q) h)) (fun _ => Err FileIOError) K); [exact NE|exact IN| |].
      * intros r w' Ir S. destruct (agrees_in _ _ _ _ AG Ir) as (EM & _). unfold put_value. now rewrite EM, MR.
      * intros w' S. apply HK. now apply (agrees_same s w).
    + replace (match se_mode s with Reading => negb (unplaced s (mk_svar v (q_local q))) | _ => false end) with false in HK by (destruct (se_mode s); congruence). cbn [fst snd] in HK.
      apply (put_phase Q (q_name q) v (fun r => the_box (global_box (se_nb s) k v h (FD r))) (fun r => r_mem r (q_name q) h) K (se_file s)); [exact NE| | |exact H3|apply AG|].
      * intros r Ir. split; [now apply IN|]. destruct (agrees_in _ _ _ _ AG Ir) as (EM & _). congruence.
      * intros r Ir. destruct (H1 r Ir) as (b & -> & PU). exact PU.
      * intros w' S1 S2. rewrite <- H2 in S2. apply HK. now apply (agrees_file s w).
Qed.

(** *** Reading *)
Definition got {B} (x : res (list B)) : list B := match x with Ok m => m | _ => [] end.
Lemma agrees_mems w ranks ms (up : rank -> list A) : agrees s w ranks -> length ms = length ranks -> (forall i r, nth_error ranks i = Some r -> nth_error ms i = Some (up r)) ->
  agrees (with_mem s (SessionProofs2.put_mem s q h ms)) w (map (fun r => ParModel.put_mem (q_name q) h (up r) r) ranks).
Proof.
  intros (A1 & A2 & A3 & A4) L H. split; [exact A1|]. split; [exact A2|]. split; [now rewrite map_length|]. intros i r' E. rewrite nth_error_map in E. destruct (nth_error ranks i) as [r|] eqn:Er; [|discriminate]. injection E as <-.
  destruct (A4 i r Er) as (B1 & B2 & B3 & B4 & B5 & B6 & B7 & B8 & B9). cbn. split; [exact B1|]. split; [exact B2|]. split; [exact B3|]. split; [exact B4|]. split; [exact B5|]. split; [exact B6|]. split; [exact B7|]. split; [exact B8|].
  intros n e. unfold SessionProofs2.put_mem. destruct (String.eqb n (q_name q) && (e =? h))%bool; [|apply B9]. symmetry. now apply nth_some, H.
Qed.
Lemma accessed_handle nb : - nb <= k -> accessed k nb = Err FileIOError -> handle_frame k nb = Err FileIOError.
Proof.
  intros H. unfold accessed. destruct (handle_frame k nb) as [fr|e|] eqn:E; cbn [bind]; [|congruence|congruence]. destruct (Z.ltb_spec fr 0); [|discriminate]. intros _. exfalso.
  unfold handle_frame in E. destruct (Z.leb_spec nb (if k <? 0 then nb + k else k)); [discriminate|]. apply Ok_inj in E. destruct (Z.ltb_spec k 0); lia.
Qed.
Lemma read_mems_ok fr : accessed k (se_nb s) = Ok fr -> fr < recs (se_file s) -> exists ms, read_mems s q v h k = Ok ms.
Proof.
  intros AC FR. destruct (read_entry_ok P pos s q v h k F SZ Iq V EH NU fr AC FR) as (mem' & E & _). rewrite (read_entry_unfold P s q v h k V) in E. destruct (read_mems s q v h k) as [ms| |]; [eauto|discriminate|discriminate].
Qed.

Lemma does_read_entry : q_local q = None \/ (- se_nb s <= k /\ forall fr, accessed k (se_nb s) = Ok fr -> fr < recs (se_file s)) ->
  does (read_entry k (mk_svar v (q_local q)) h) s (fst (SessionModel.read_entry k (mk_svar v (q_local q)) h s)) (snd (SessionModel.read_entry k (mk_svar v (q_local q)) h s)).
Proof.
  intros RD. rewrite (read_entry_unfold P s q v h k V). pose proof (vo_name _ _ _ _ V) as VN.
  assert (DL : (exists l, q_local q = Some l) \/ q_local q = None) by (destruct (q_local q); eauto). destruct DL as [[l EL]|EL].
  - destruct RD as [RD|[RD1 RD2]]; [congruence|].
    assert (RM : read_mems s q v h k = mapm (fun x => read_local (se_nb s) k v h (fst (fst x)) (snd (fst x)) (se_file s) (snd x)) (combine (combine (fields_of s (mk_svar v (q_local q))) (se_hidden s l)) (se_mem s (q_name q) h))) by (unfold read_mems; now rewrite EL).
    destruct (accessed_bad k (se_nb s)) as [[fr AC]|AC].
    + destruct (read_mems_ok fr AC (RD2 fr AC)) as [ms EM]. rewrite EM. cbn [fst snd]. intros K Q HK w ranks AG. pose proof (agrees_some _ _ _ AG (parts_some P s F)) as NE.
      rewrite EM in RM. symmetry in RM. rewrite (rank_locals w ranks l AG EL) in RM. apply mapm_at in RM. destruct RM as [LM RM]. rewrite map_length in LM.
      set (BX := fun r => the_boxes (request_boxes (se_nb s) k v h (FD r) (r_pos r l))). set (OUT := fun r => got (get_list v (BX r) 0 (r_mem r (q_name q) h) (se_file s))).
      assert (H : forall i r, nth_error ranks i = Some r -> request_boxes (se_nb s) k v h (FD r) (r_pos r l) = Ok (BX r) /\ get_list v (BX r) 0 (r_mem r (q_name q) h) (se_file s) = Ok (OUT r) /\ nth_error ms i = Some (OUT r)).
      { intros i r Er. destruct (RM i (FD r, r_pos r l, r_mem r (q_name q) h)) as (m & E1 & E2); [now rewrite nth_error_map, Er|]. cbn [fst snd] in E2. destruct (read_local_boxes _ _ _ _ _ _ _ _ _ E2) as (bs & E3 & E4).
        assert (EB : BX r = bs) by (unfold BX; now rewrite E3). assert (EO : OUT r = m) by (unfold OUT; rewrite EB, E4; reflexivity). rewrite EB, EO. auto. }
      assert (HI : forall r, In r ranks -> request_boxes (se_nb s) k v h (FD r) (r_pos r l) = Ok (BX r) /\ get_list v (BX r) 0 (r_mem r (q_name q) h) (se_file s) = Ok (OUT r)).
      { intros r Ir. apply In_nth_error in Ir. destruct Ir as [i Ir]. destruct (H i r Ir) as (H1 & H2 & _). auto. }
      rewrite (map_ext_in _ (fun r => Sync CBeginIndep 0 (fun _ => get_each v (BX r) 0 (r_mem r (q_name q) h) (ParModel.put_mem (q_name q) h) (with_indep true r) K))).
      2: { intros r Ir. destruct (agrees_in _ _ _ _ AG Ir) as (_ & _ & EN & _). unfold read_entry. cbn [sv_local sv_var]. rewrite EL, VN, EN. fold (FD r). destruct (HI r Ir) as [-> _]. destruct (accessed_inv _ _ _ AC) as [-> _]. reflexivity. }
      apply (always_sync Q w CBeginIndep (fun _ => 0) (fun r _ => get_each v (BX r) 0 (r_mem r (q_name q) h) (ParModel.put_mem (q_name q) h) (with_indep true r) K)); [exact NE|].
      apply (read_phase Q ranks w (fun r => length (BX r)) _ (fun r => Sync CEndIndep 0 (fun _ => K (with_indep false (ParModel.put_mem (q_name q) h (OUT r) (with_indep true r))) (Ok tt)))).
      * intros r Ir. split; [|exact I]. apply get_each_acts. destruct (HI r Ir) as [_ E]. assert (SF : same_file (se_file s) (w_file w)) by apply AG. revert E. clear - SF. generalize (BX r), 0, (r_mem r (q_name q) h), (OUT r). intros bs.
        induction bs as [|b bs IH]; intros p m m' E; [exact E|]. cbn [get_list] in *. rewrite <- (get_box_same v b p m _ _ SF). destruct (get_box v b p m (se_file s)); cbn [bind] in *; try discriminate. now apply IH.
      * intros w' S. apply (always_sync Q w' CEndIndep (fun _ => 0) (fun r _ => K (with_indep false (ParModel.put_mem (q_name q) h (OUT r) (with_indep true r))) (Ok tt))); [exact NE|].
        rewrite (map_ext_in _ (fun r => K (ParModel.put_mem (q_name q) h (OUT r) r) (Ok tt))).
        2: { intros r Ir. destruct (agrees_in _ _ _ _ AG Ir) as (_ & _ & _ & _ & _ & EI). f_equal. destruct r. cbn in *. now subst. }
        rewrite <- (map_map (fun r => ParModel.put_mem (q_name q) h (OUT r) r) (fun r => K r (Ok tt))). apply HK. apply agrees_mems; [now apply (agrees_same s w)|exact LM|]. intros i r Er. now destruct (H i r Er) as (_ & _ & E).
    + assert (EB : read_mems s q v h k = Err FileIOError).
      { rewrite RM. apply mapm_bad; [|intros [[f px] m] _; now apply read_local_bad].
        apply combine_nonempty; [apply combine_nonempty; [exact (fields_some P s q v F)|]|]; [|rewrite combine_length]; destruct (NU l EL) as [_ [HL _]]; rewrite fields_length; [exact HL|]. rewrite HL, Nat.min_id. exact (mems_length P s q h SZ Iq EH). }
      rewrite EB. cbn [fst snd failed]. apply does_ret. intros w ranks AG r Ir K. destruct (agrees_in _ _ _ _ AG Ir) as (_ & _ & EN & _). unfold read_entry. cbn [sv_local sv_var]. rewrite EL, EN. now rewrite (accessed_handle _ RD1 AC).
  - assert (RM : read_mems s q v h k = mapm (fun x => read_global (se_nb s) k v h (fst x) (se_file s) (snd x)) (combine (fields_of s (mk_svar v (q_local q))) (se_mem s (q_name q) h))) by (unfold read_mems; now rewrite EL).
    destruct (accessed_bad k (se_nb s)) as [[fr AC]|AC].
    + intros K Q HK w ranks AG. pose proof (agrees_some _ _ _ AG (parts_some P s F)) as NE. destruct (global_puts w ranks fr AG EL AC) as (_ & _ & H1 & _ & _).
      assert (IN : forall r, In r ranks -> r_indep r = false) by (intros r Ir; now destruct (agrees_in _ _ _ _ AG Ir) as (_ & _ & _ & _ & _ & EI)).
      assert (SF : same_file (se_file s) (w_file w)) by apply AG. rewrite (rank_fields w ranks AG) in RM. set (BX := fun r => the_box (global_box (se_nb s) k v h (FD r))).
      assert (HB : forall r, In r ranks -> global_box (se_nb s) k v h (FD r) = Ok (BX r) /\ puts v (BX r) 0 (r_mem r (q_name q) h)).
      { intros r Ir. destruct (H1 r Ir) as (b & E & PU). unfold BX. rewrite E. auto. }
      set (GO := fun r => get_box v (BX r) 0 (r_mem r (q_name q) h) (se_file s)).
      assert (RG : forall r, In r ranks -> read_global (se_nb s) k v h (FD r) (se_file s) (r_mem r (q_name q) h) = GO r).
      { intros r Ir. rewrite read_global_box. destruct (HB r Ir) as [-> _]. reflexivity. }
      rewrite (map_ext_in _ (fun r => transfer false (q_name q) r (fun w => (w, get_box v (BX r) 0 (r_mem r (q_name q) h) (w_file w))) (fun a => match a with Ok m => K (ParModel.put_mem (q_name q) h m r) (Ok tt) | e => K r (failed e) end))).
      2: { intros r Ir. destruct (agrees_in _ _ _ _ AG Ir) as (_ & _ & EN & _). unfold read_entry. cbn [sv_local sv_var]. rewrite EL, VN, EN. fold (FD r). destruct (HB r Ir) as [-> _]. reflexivity. }
      apply (get_phase Q false (q_name q) (fun r w => (w, get_box v (BX r) 0 (r_mem r (q_name q) h) (w_file w))) GO (fun r a => match a with Ok m => K (ParModel.put_mem (q_name q) h m r) (Ok tt) | e => K r (failed e) end)); [exact NE|exact IN| |].
      * intros r w' _ [_ S]. unfold GO. rewrite (get_box_same v (BX r) 0 _ (se_file s) (w_file w')); [reflexivity|]. now apply (same_file_trans _ (w_file w)).
      * intros w' S. destruct (Z.lt_ge_cases fr (recs (se_file s))) as [FR|FR].
        -- destruct (read_mems_ok fr AC FR) as [ms EM]. rewrite EM in HK. cbn [fst snd] in HK. rewrite EM in RM. symmetry in RM. apply mapm_at in RM. destruct RM as [LM RM]. rewrite map_length in LM.
           assert (H : forall i r, nth_error ranks i = Some r -> GO r = Ok (got (GO r)) /\ nth_error ms i = Some (got (GO r))).
           { intros i r Er. destruct (RM i (FD r, r_mem r (q_name q) h)) as (m & E1 & E2); [now rewrite nth_error_map, Er|]. cbn [fst snd] in E2. rewrite (RG r (nth_error_In _ _ Er)) in E2. rewrite E2. auto. }
           rewrite (map_ext_in _ (fun r => K (ParModel.put_mem (q_name q) h (got (GO r)) r) (Ok tt))).
           2: { intros r Ir. apply In_nth_error in Ir. destruct Ir as [i Ir]. destruct (H i r Ir) as [-> _]. reflexivity. }
           rewrite <- (map_map (fun r => ParModel.put_mem (q_name q) h (got (GO r)) r) (fun r => K r (Ok tt))). apply HK. apply agrees_mems; [now apply (agrees_same s w)|exact LM|]. intros i r Er. now destruct (H i r Er) as [_ E].
        -- assert (HG : forall r, In r ranks -> GO r = Err FileIOError).
           { intros r Ir. destruct (HB r Ir) as [E PU]. apply In_nth_error in Ir. destruct Ir as [i Ir]. destruct (rank_ready w ranks r i AG EL Ir) as [RR _]. exact (global_get_bad (q_hist q) (q_name q) (FD r) v (se_nb s) k fr h _ (BX r) (se_file s) RR AC E PU FR). }
           assert (EM : read_mems s q v h k = Err FileIOError).
           { rewrite RM. apply mapm_bad; [destruct ranks; [contradiction|discriminate]|]. intros x I. apply in_map_iff in I. destruct I as (r & <- & Ir). cbn [fst snd]. rewrite (RG r Ir). now apply HG. }
           rewrite EM in HK. cbn [fst snd failed] in HK. rewrite (map_ext_in _ (fun r => K r (Err FileIOError))); [apply HK; now apply (agrees_same s w)|]. intros r Ir. now rewrite (HG r Ir).
    + assert (EB : read_mems s q v h k = Err FileIOError).
      { rewrite RM. apply mapm_bad; [|intros [f m] _; now apply read_global_bad]. apply combine_nonempty; [exact (fields_some P s q v F)|]. rewrite fields_length. exact (mems_length P s q h SZ Iq EH). }
      rewrite EB. cbn [fst snd failed]. apply does_ret. intros w ranks AG r Ir K. destruct (agrees_in _ _ _ _ AG Ir) as (_ & _ & EN & _). unfold read_entry. cbn [sv_local sv_var]. rewrite EL, EN. now rewrite global_box_bad.
Qed.
End Write.
End Entries.
