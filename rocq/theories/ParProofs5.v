(** Positions of local pixels and whole calls of [write] and [read], by all
    processes. *)
From Coq Require Import String Sorting.Sorted.
From Verif Require Import Base CIntModel GridModel GridSpec StridedModel LayoutModel LayoutSpec LayoutProofs CommModel FrameModel NetCDFModel NetCDFSpec NetCDFProofs4 NetCDFProofs5 NetCDFProofs6 NetCDFProofs9 NetCDFProofs10 NetCDFProofs11.
From Verif Require Import SessionModel SessionSpec SessionProofs SessionProofs2 SessionProofs3 SessionProofs4 ParModel ParSpec ParProofs ParProofs2 ParProofs3 ParProofs4.
Local Open Scope Z_scope.
Local Open Scope list_scope.

Section Calls.
Context {A : Type}.
Notation session := (session A).
Notation world := (world A).
Notation rank := (rank A).
Notation prog := (prog A).
Notation config := (config A).
Variables (P : plan) (pos : string -> list Z -> Z).
Implicit Types (s : session) (w : world) (r : rank) (ranks : list rank).
Notation inv := (@inv A P pos).

(** *** Hidden variables *)
Lemma rank_sub s w ranks r i : agrees s w ranks -> nth_error ranks i = Some r -> exists p, nth_error (su_parts (se_setup s)) i = Some p /\ pt_sub (own_part r) = pt_sub p.
Proof. intros AG E. destruct (agrees_rank s w ranks i r AG E) as (p & Ep & EO). exists p. split; [exact Ep|]. now rewrite EO. Qed.
Lemma rank_pos s w ranks r i l : agrees s w ranks -> hidden_sized (se_setup s) (se_hidden s l) -> nth_error ranks i = Some r -> nth_error (se_hidden s l) i = Some (r_pos r l).
Proof. intros AG [HL _] E. destruct AG as (_ & _ & L & H). destruct (H i r E) as (_ & _ & _ & _ & _ & _ & _ & HP & _). rewrite HP. apply some_nth. rewrite HL, <- L. apply nth_error_Some. congruence. Qed.
Lemma subs_ranks s w ranks l : agrees s w ranks -> hidden_sized (se_setup s) (se_hidden s l) -> combine (subs s) (se_hidden s l) = map (fun r => (pt_sub (own_part r), r_pos r l)) ranks.
Proof. intros AG [HL _]. now apply (agrees_subs s w). Qed.

Lemma does_store s known l : inv s known -> In l (pl_colls P) -> se_mode s = Creating -> does (store l) s (fst (SessionModel.store l s)) (snd (SessionModel.store l s)).
Proof.
  intros I Il EM. pose proof (inv_fits _ _ _ _ I) as F. pose proof (inv_shape _ _ _ _ I l Il) as HS. unfold SessionModel.store. destruct (memberb l (se_written s)) eqn:M.
  { cbn [fst snd]. apply does_ret. intros w ranks AG r Ir K. destruct (agrees_in _ _ _ _ AG Ir) as (_ & _ & _ & _ & EW & _). unfold store. now rewrite EW, M. }
  destruct (accessed_bad 0 (se_nb s)) as [[fr AC]|AC].
  - destruct (stored P pos (se_setup s) l (se_hidden s l) (se_nb s) 0 fr (se_hfile s) F Il AC (inv_list _ _ _ _ I l Il (or_introl EM))) as (hf' & E & _).
    change (map pt_sub (su_parts (se_setup s))) with (subs s) in E. cbv zeta. rewrite E. cbn [fst snd]. intros K Q HK w ranks AG.
    assert (NE : ranks <> []) by (apply (agrees_some _ _ _ AG); apply F).
    rewrite (subs_ranks s w ranks l AG HS) in E. destruct (write_ranks_boxes _ _ _ _ (fun r => pt_sub (own_part r)) (fun r => r_pos r l) ranks _ _ E) as [H1 H2].
    set (v := su_hidden (se_setup s) l) in *. set (BX := fun r => the_box (global_box (se_nb s) 0 v 0 (pt_sub (own_part r)))).
    assert (HB : forall r, In r ranks -> global_box (se_nb s) 0 v 0 (pt_sub (own_part r)) = Ok (BX r) /\ puts v (BX r) 0 (r_pos r l)).
    { intros r Ir. destruct (H1 r Ir) as (b & EB & PU). unfold BX. rewrite EB. auto. }
    set (UP := fun r => mk_rank (r_id r) (r_mode r) (r_setup r) (r_nb r) (r_read r) (r_written r ++ [l]) (r_pos r) (r_mem r) (r_indep r)).
    rewrite (map_ext_in _ (fun r => transfer true l r (put_position v (BX r) (r_pos r l)) (fun a => match a with Ok _ => K (UP r) (Ok tt) | e => K r e end))).
    2: { intros r Ir. destruct (agrees_in _ _ _ _ AG Ir) as (_ & ES & EN & _ & EW & _). unfold store. rewrite EW, M, ES, EN. fold v. destruct (HB r Ir) as [-> _]. unfold UP. now rewrite EW, ES, EN. }
    apply (hput_phase Q l v BX (fun r => r_pos r l) (fun r a => match a with Ok _ => K (UP r) (Ok tt) | e => K r e end) (se_hfile s)); [exact NE| | | |apply AG|].
    + intros r Ir. now destruct (agrees_in _ _ _ _ AG Ir) as (_ & _ & _ & _ & _ & EI).
    + intros r Ir. now apply HB.
    + apply pairs_intro. intros i j r r' L Ei Ej n at_. destruct (HB r (nth_error_In _ _ Ei)) as [E1 _]. destruct (HB r' (nth_error_In _ _ Ej)) as [E2 _].
      destruct (rank_sub s w ranks r i AG Ei) as (p & Ep & EP). destruct (rank_sub s w ranks r' j AG Ej) as (p' & Ep' & EP'). rewrite EP in E1. rewrite EP' in E2.
      assert (R1 : ready true None l v (pt_sub p) (r_pos r l)) by (apply (pixel_ready _ l p _ P); [apply fits_part; [exact F|exact Il|now apply nth_error_In in Ep]|destruct HS as [_ HS]; apply (HS i); [exact Ep|now apply (rank_pos s w ranks); [|apply I|]]]).
      assert (R2 : ready true None l v (pt_sub p') (r_pos r' l)) by (apply (pixel_ready _ l p' _ P); [apply fits_part; [exact F|exact Il|now apply nth_error_In in Ep']|destruct HS as [_ HS]; apply (HS j); [exact Ep'|now apply (rank_pos s w ranks); [|apply I|]]]).
      apply (global_disjoint true None l (pt_sub p) (pt_sub p') v (se_nb s) 0 fr 0 _ _ _ _ n at_ R1 R2 AC); [| |exact E1|exact E2].
      * pose proof (nth_error_In _ _ Ep) as Ip. pose proof (nth_error_In _ _ Ep') as Ip'. destruct F as (_ & _ & _ & _ & _ & _ & F1 & F2 & _). destruct (F1 p Ip) as [(A1 & A2 & _) A3]. destruct (F1 p' Ip') as [(B1 & B2 & _) B3].
        unfold same_array. rewrite A1, A2, A3, B1, B2, B3. split; [reflexivity|]. split; [reflexivity|]. split; [now apply F2|reflexivity].
      * destruct F as (_ & _ & _ & _ & _ & _ & _ & _ & F1 & _). exact (pairs_elim _ _ F1 i j p p' L Ep Ep').
    + intros w' S1 S2. fold BX in H2. rewrite <- (map_map UP (fun r => K r (Ok tt))). apply HK.
      destruct AG as (A1 & A2 & A3 & A4). split; [cbn; now rewrite H2|]. split; [cbn; now apply (same_file_trans _ (w_file w))|]. split; [now rewrite map_length|].
      intros i r' Er. rewrite nth_error_map in Er. destruct (nth_error ranks i) as [r|] eqn:Ei; [|discriminate]. injection Er as <-. destruct (A4 i r Ei) as (B1 & B2 & B3 & B4 & B5 & B6 & B7 & B8 & B9). cbn. rewrite B6. repeat split; assumption.
  - rewrite (write_ranks_bad _ _ _ _ _ _ AC).
    2: { apply combine_nonempty; [|unfold subs; rewrite map_length; apply HS]. unfold subs. destruct F as (_ & _ & _ & NE & _). destruct (su_parts (se_setup s)); [contradiction|discriminate]. }
    cbn [fst snd failed]. apply does_ret. intros w ranks AG r Ir K. destruct (agrees_in _ _ _ _ AG Ir) as (_ & ES & EN & _ & EW & _). unfold store. rewrite EW, M, EN. now rewrite global_box_bad.
Qed.
Lemma does_load s known k l : inv s known -> In l (pl_colls P) -> In l known -> does (load k l) s (fst (SessionModel.load k l s)) (snd (SessionModel.load k l s)).
Proof.
  intros I Il Kl. pose proof (inv_fits _ _ _ _ I) as F. pose proof (inv_shape _ _ _ _ I l Il) as HS. unfold SessionModel.load. destruct (memberb l (se_read s)) eqn:M.
  { cbn [fst snd]. apply does_ret. intros w ranks AG r Ir K. destruct (agrees_in _ _ _ _ AG Ir) as (_ & _ & _ & ER & _). unfold load. now rewrite ER, M. }
  destruct (accessed_bad k (se_nb s)) as [[fr AC]|AC].
  - destruct (loaded P pos (se_setup s) l (se_hidden s l) (se_nb s) k fr (se_hfile s) F Il AC HS (inv_known _ _ _ _ I l Il Kl)) as (hs' & E & AL).
    change (map pt_sub (su_parts (se_setup s))) with (subs s) in E. cbv zeta. rewrite E. cbn [fst snd]. intros K Q HK w ranks AG.
    assert (NE : ranks <> []) by (apply (agrees_some _ _ _ AG); apply F).
    rewrite (subs_ranks s w ranks l AG HS) in E. apply mapm_at in E. destruct E as [LM E]. rewrite map_length in LM. set (v := su_hidden (se_setup s) l) in *.
    set (BX := fun r => the_box (global_box (se_nb s) k v 0 (pt_sub (own_part r)))). set (GO := fun r => get_box v (BX r) 0 (r_pos r l) (se_hfile s)).
    assert (H : forall i r, nth_error ranks i = Some r -> global_box (se_nb s) k v 0 (pt_sub (own_part r)) = Ok (BX r) /\ GO r = Ok (got (GO r)) /\ nth_error hs' i = Some (got (GO r))).
    { intros i r Er. destruct (E i (pt_sub (own_part r), r_pos r l)) as (m & E1 & E2); [now rewrite nth_error_map, Er|]. cbn [fst snd] in E2. rewrite read_global_box in E2. unfold GO, BX.
      destruct (global_box (se_nb s) k v 0 (pt_sub (own_part r))) as [b| |]; cbn [bind the_box] in *; try discriminate. rewrite E2. auto. }
    assert (HI : forall r, In r ranks -> global_box (se_nb s) k v 0 (pt_sub (own_part r)) = Ok (BX r) /\ GO r = Ok (got (GO r))).
    { intros r Ir. apply In_nth_error in Ir. destruct Ir as [i Ir]. destruct (H i r Ir) as (H1 & H2 & _). auto. }
    set (UP := fun m r => mk_rank (r_id r) (r_mode r) (r_setup r) (r_nb r) (r_read r ++ [l]) (r_written r) (set_at l m (r_pos r)) (r_mem r) (r_indep r)).
    rewrite (map_ext_in _ (fun r => transfer false l r (fun w => (w, get_box v (BX r) 0 (r_pos r l) (w_hfile w))) (fun a => match a with Ok m => K (UP m r) (Ok tt) | e => K r (failed e) end))).
    2: { intros r Ir. destruct (agrees_in _ _ _ _ AG Ir) as (_ & ES & EN & ER & _). unfold load. rewrite ER, M, ES, EN. fold v. destruct (HI r Ir) as [-> _]. unfold UP. now rewrite ER, ES, EN. }
    apply (get_phase Q false l (fun r w => (w, get_box v (BX r) 0 (r_pos r l) (w_hfile w))) GO (fun r a => match a with Ok m => K (UP m r) (Ok tt) | e => K r (failed e) end)); [exact NE| | |].
    + intros r Ir. now destruct (agrees_in _ _ _ _ AG Ir) as (_ & _ & _ & _ & _ & EI).
    + intros r w' _ [S _]. unfold GO. rewrite (get_box_same v (BX r) 0 _ (se_hfile s) (w_hfile w')); [reflexivity|]. apply (same_file_trans _ (w_hfile w)); [apply AG|exact S].
    + intros w' S. rewrite (map_ext_in _ (fun r => K (UP (got (GO r)) r) (Ok tt))); [|intros r Ir; destruct (HI r Ir) as [_ ->]; reflexivity].
      rewrite <- (map_map (fun r => UP (got (GO r)) r) (fun r => K r (Ok tt))). apply HK. pose proof (agrees_same s w ranks w' AG S) as (A1 & A2 & A3 & A4). split; [exact A1|]. split; [exact A2|]. split; [now rewrite map_length|].
      intros i r' Er. rewrite nth_error_map in Er. destruct (nth_error ranks i) as [r|] eqn:Ei; [|discriminate]. injection Er as <-. destruct (A4 i r Ei) as (B1 & B2 & B3 & B4 & B5 & B6 & B7 & B8 & B9). cbn. rewrite B5. repeat split; try assumption.
      intros n. unfold set_at. destruct (String.eqb n l); [|apply B8]. symmetry. apply nth_some. now destruct (H i r Ei) as (_ & _ & ->).
  - rewrite (mapm_bad _ FileIOError).
    2: { apply combine_nonempty; [|unfold subs; rewrite map_length; apply HS]. unfold subs. destruct F as (_ & _ & _ & NE & _). destruct (su_parts (se_setup s)); [contradiction|discriminate]. }
    2: { intros [f m] _. now apply read_global_bad. }
    cbn [fst snd failed]. apply does_ret. intros w ranks AG r Ir K. destruct (agrees_in _ _ _ _ AG Ir) as (_ & ES & EN & ER & _). unfold load. rewrite ER, M, EN. now rewrite global_box_bad.
Qed.

(** *** Entries and names *)
Lemma does_ext (p p' : action A) s s' a : (forall w ranks r K, agrees s w ranks -> In r ranks -> p r K = p' r K) -> does p' s s' a -> does p s s' a.
Proof. intros E H K Q HK w ranks AG. rewrite (map_ext_in _ (fun r => p' r K)); [now apply H|]. intros r Ir. now apply (E w ranks). Qed.
Lemma does_entries (f : Z -> action A) (g : Z -> session -> session * res unit) (ok : session -> Prop) n : forall lo s,
  (forall h s, lo <= h < lo + Z.of_nat n -> ok s -> does (f h) s (fst (g h s)) (snd (g h s)) /\ ok (fst (g h s))) -> ok s ->
  does (each_entry f lo n) s (fst (SessionModel.each_entry g lo n s)) (snd (SessionModel.each_entry g lo n s)).
Proof.
  induction n as [|n IH]; intros lo s H O; cbn [each_entry SessionModel.each_entry].
  - cbn [fst snd]. apply does_ret. reflexivity.
  - destruct (H lo s ltac:(lia) O) as [D O1]. apply does_then; [exact D|]. intros _. apply IH; [|exact O1]. intros h s1 Hh. apply H. lia.
Qed.
Lemma does_names (f : string -> action A) (g : string -> session -> session * res unit) (ok : session -> Prop) names : forall s,
  (forall n s, In n names -> ok s -> does (f n) s (fst (g n s)) (snd (g n s)) /\ ok (fst (g n s))) -> ok s ->
  does (each_name f names) s (fst (SessionModel.each_name g names s)) (snd (SessionModel.each_name g names s)).
Proof.
  induction names as [|n names IH]; intros s H O; cbn [each_name SessionModel.each_name].
  - cbn [fst snd]. apply does_ret. reflexivity.
  - destruct (H n s (or_introl eq_refl) O) as [D O1]. apply does_then; [exact D|]. intros _. apply IH; [|exact O1]. intros m s1 Im. apply H. now right.
Qed.

Lemma does_before_write s known q v k : inv s known -> In q (pl_quantities P) -> var_of P (se_setup s) q v -> to_write known s q ->
  does (before_write k (mk_svar v (q_local q))) s (fst (SessionModel.before_write k (mk_svar v (q_local q)) s)) (snd (SessionModel.before_write k (mk_svar v (q_local q)) s)).
Proof.
  intros I Iq V TW. unfold SessionModel.before_write. cbn [sv_local]. destruct (q_local q) as [l|] eqn:EL.
  - pose proof (vo_coll _ _ _ _ V l EL) as Il. destruct (se_mode s) eqn:EM.
    + apply (does_ext _ (store l)); [|now apply (does_store s known)]. intros w ranks r K AG Ir. destruct (agrees_in _ _ _ _ AG Ir) as (E & _). unfold before_write. cbn [sv_local]. now rewrite E, EM.
    + apply (does_ext _ (load k l)); [|apply (does_load s known); [exact I|exact Il|exact (TW EM l EL)]]. intros w ranks r K AG Ir. destruct (agrees_in _ _ _ _ AG Ir) as (E & _). unfold before_write. cbn [sv_local]. now rewrite E, EM.
    + cbn [fst snd]. apply does_ret. intros w ranks AG r Ir K. destruct (agrees_in _ _ _ _ AG Ir) as (E & _). unfold before_write. cbn [sv_local]. now rewrite E, EM.
  - cbn [fst snd]. apply does_ret. reflexivity.
Qed.
Lemma does_before_read s known q v : inv s known -> In q (pl_quantities P) -> var_of P (se_setup s) q v -> (forall l, q_local q = Some l -> In l known) ->
  does (before_read (mk_svar v (q_local q))) s (fst (SessionModel.before_read (mk_svar v (q_local q)) s)) (snd (SessionModel.before_read (mk_svar v (q_local q)) s)).
Proof.
  intros I Iq V TW. unfold SessionModel.before_read. cbn [sv_local]. destruct (q_local q) as [l|] eqn:EL.
  - apply (does_ext _ (load 0 l)); [reflexivity|]. apply (does_load s known); [exact I|exact (vo_coll _ _ _ _ V l EL)|now apply TW].
  - cbn [fst snd]. apply does_ret. reflexivity.
Qed.

Lemma does_write_name s known q k : inv s known -> In q (pl_quantities P) -> to_write known s q -> (se_mode s = Reading -> q_local q = None) ->
  does (write_name k (q_name q)) s (fst (SessionModel.write_name k (q_name q) s)) (snd (SessionModel.write_name k (q_name q) s)).
Proof.
  intros I Iq TW RD. destruct (fits_var P _ q (inv_fits _ _ _ _ I) Iq) as [v V]. unfold SessionModel.write_name. rewrite (var_found P _ q v (inv_fits _ _ _ _ I) V).
  apply (does_ext _ (pthen (before_write k (mk_svar v (q_local q))) (each_entry (write_entry k (mk_svar v (q_local q))) 0 (entries v)))).
  { intros w ranks r K AG Ir. destruct (agrees_in _ _ _ _ AG Ir) as (_ & E & _). unfold write_name. rewrite E. now rewrite (var_found P _ q v (inv_fits _ _ _ _ I) V). }
  apply does_then; [now apply (does_before_write s known)|]. destruct (before_write_spec P pos s known q v k I Iq V TW) as (s1 & r1 & E1 & I1 & SR & M1 & F1 & H1 & _). rewrite E1. cbn [fst snd sv_var]. intros ->.
  pose proof SR as (SR1 & SR2 & SR3 & _).
  apply (does_entries _ _ (fun s2 => inv s2 known /\ se_mode s2 = se_mode s /\ se_setup s2 = se_setup s /\ forall l, q_local q = Some l -> all_list pos l (se_setup s2) (se_hidden s2 l))).
  - intros h s2 Hh (I2 & EM & ES & AL). assert (V2 : var_of P (se_setup s2) q v) by now rewrite ES. assert (EH : entry_of q h) by (apply (entries_spec P _ q v V); lia).
    assert (NU : forall l, q_local q = Some l -> numbers P pos l /\ all_list pos l (se_setup s2) (se_hidden s2 l)) by (intros l El; split; [apply (inv_numbers _ _ _ _ I2); now apply (vo_coll _ _ _ _ V)|now apply AL]).
    split; [apply (does_write_entry P pos s2 q v h k (inv_fits _ _ _ _ I2) (inv_sized _ _ _ _ I2) Iq V2 EH NU); intros E; apply RD; congruence|].
    destruct (write_entry_spec P pos s2 q v h k (inv_fits _ _ _ _ I2) (inv_sized _ _ _ _ I2) Iq V2 EH NU) as (f' & r & E & _). rewrite E. cbn [fst]. split; [now apply inv_with_file|]. auto.
  - split; [exact I1|]. split; [exact SR1|]. split; [exact SR2|]. intros l El. destruct (H1 eq_refl l El) as [_ H]. apply H. intros E. specialize (RD E). congruence.
Qed.
Lemma does_read_name s known q k : inv s known -> In q (pl_quantities P) -> (forall l, q_local q = Some l -> In l known) ->
  q_local q = None \/ (- se_nb s <= k /\ forall fr, accessed k (se_nb s) = Ok fr -> fr < recs (se_file s)) ->
  does (read_name k (q_name q)) s (fst (SessionModel.read_name k (q_name q) s)) (snd (SessionModel.read_name k (q_name q) s)).
Proof.
  intros I Iq TW RD. destruct (fits_var P _ q (inv_fits _ _ _ _ I) Iq) as [v V]. unfold SessionModel.read_name. rewrite (var_found P _ q v (inv_fits _ _ _ _ I) V).
  apply (does_ext _ (pthen (before_read (mk_svar v (q_local q))) (each_entry (read_entry k (mk_svar v (q_local q))) 0 (entries v)))).
  { intros w ranks r K AG Ir. destruct (agrees_in _ _ _ _ AG Ir) as (_ & E & _). unfold read_name. rewrite E. now rewrite (var_found P _ q v (inv_fits _ _ _ _ I) V). }
  apply does_then; [now apply (does_before_read s known)|]. destruct (before_read_spec P pos s known q v I Iq V TW) as (s1 & r1 & E1 & I1 & SR & M1 & F1 & H1 & _). rewrite E1. cbn [fst snd sv_var]. intros ->.
  pose proof SR as (SR1 & SR2 & SR3 & _).
  apply (does_entries _ _ (fun s2 => inv s2 known /\ se_setup s2 = se_setup s /\ se_nb s2 = se_nb s /\ se_file s2 = se_file s /\ forall l, q_local q = Some l -> all_list pos l (se_setup s2) (se_hidden s2 l))).
  - intros h s2 Hh (I2 & ES & EN & EF & AL). assert (V2 : var_of P (se_setup s2) q v) by now rewrite ES. assert (EH : entry_of q h) by (apply (entries_spec P _ q v V); lia).
    assert (NU : forall l, q_local q = Some l -> numbers P pos l /\ all_list pos l (se_setup s2) (se_hidden s2 l)) by (intros l El; split; [apply (inv_numbers _ _ _ _ I2); now apply (vo_coll _ _ _ _ V)|now apply AL]).
    split; [apply (does_read_entry P pos s2 q v h k (inv_fits _ _ _ _ I2) (inv_sized _ _ _ _ I2) Iq V2 EH NU); now rewrite EN, EF|].
    destruct (read_entry_any P pos s2 q v h k (inv_fits _ _ _ _ I2) (inv_sized _ _ _ _ I2) Iq V2 EH NU) as (m' & r & E & LK & _). rewrite E. cbn [fst].
    split; [apply inv_with_mem; [exact I2|exact (sized_len P _ (se_mem s2) m' (inv_sized _ _ _ _ I2) LK)]|]. auto.
  - split; [exact I1|]. auto.
Qed.

Lemma does_write s known k names : inv s known -> allowed P known s (Write k names) -> (se_mode s = Reading -> no_local P names) ->
  does (each_name (write_name k) names) s (fst (SessionModel.each_name (SessionModel.write_name k) names s)) (snd (SessionModel.each_name (SessionModel.write_name k) names s)).
Proof.
  intros I [NM PO] RD. apply (does_names _ _ (fun s2 => inv s2 known /\ se_mode s2 = se_mode s)); [|auto]. intros n s2 In_ [I2 EM]. destruct (NM n In_) as (q & Iq & <-).
  assert (TW : to_write known s2 q) by (intros E l El; rewrite EM in E; exact (PO E q l Iq In_ El)). split.
  - apply (does_write_name s2 known); [exact I2|exact Iq|exact TW|]. intros E. rewrite EM in E. now apply (RD E).
  - destruct (write_name_spec P pos s2 known q k I2 Iq TW) as (s3 & r & E & I3 & (SR & _) & _). rewrite E. cbn [fst]. split; [exact I3|congruence].
Qed.
Lemma does_read s known k names : inv s known -> allowed P known s (Read k names) -> no_local P names \/ (- se_nb s <= k /\ forall fr, accessed k (se_nb s) = Ok fr -> fr < recs (se_file s)) ->
  does (each_name (read_name k) names) s (fst (SessionModel.each_name (SessionModel.read_name k) names s)) (snd (SessionModel.each_name (SessionModel.read_name k) names s)).
Proof.
  intros I [NM PO] RD. apply (does_names _ _ (fun s2 => inv s2 known /\ se_nb s2 = se_nb s /\ se_file s2 = se_file s)); [|auto]. intros n s2 In_ (I2 & EN & EF). destruct (NM n In_) as (q & Iq & <-).
  assert (TW : forall l, q_local q = Some l -> In l known) by (intros l El; exact (PO q l Iq In_ El)). split.
  - apply (does_read_name s2 known); [exact I2|exact Iq|exact TW|]. rewrite EN, EF. destruct RD as [RD|RD]; [left; now apply RD|now right].
  - destruct (read_name_spec P pos s2 known q k I2 Iq TW) as (s3 & r & E & I3 & (_ & _ & SR & _) & E3 & _). rewrite E. cbn [fst]. split; [exact I3|]. split; congruence.
Qed.
End Calls.
