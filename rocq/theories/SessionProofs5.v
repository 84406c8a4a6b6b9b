(** Programs. *)
From Coq Require Import String Sorting.Sorted.
From Verif Require Import Base CIntModel GridModel GridSpec GridProofs StridedModel StridedProofs LayoutModel LayoutSpec LayoutProofs LayoutProofs2 CommModel FrameModel RegistryModel.
From Verif Require Import NetCDFModel NetCDFSpec NetCDFProofs5 NetCDFProofs6 NetCDFProofs9 NetCDFProofs10 NetCDFProofs11 SessionModel SessionSpec SessionProofs SessionProofs2 SessionProofs3 SessionProofs4.
Local Open Scope Z_scope.
Local Open Scope list_scope.

Section Programs.
Context {A : Type}.
Notation session := (session A).
Implicit Types (s : session).
Variable P : plan.

(** *** Creating a file *)
Section Create.
Variable u : setup.
Hypothesis F : fits P u.

Lemma coll_sound l w : In l (pl_colls P) -> In w (map (@in_coll A l) (su_parts u)) -> sound w.
Proof.
  intros Il I. apply in_map_iff in I. destruct I as (p & <- & Ip). pose proof (fits_part P u l p F Il Ip) as C. split; [apply C|]. split; [|apply C]. cbn. apply sorted_nodup, C.
Qed.
(** The number of [x] is that of an entry of a process, or -1. *)
Definition numbered (l : string) (hs : list (list Z)) : Prop :=
  length hs = length (su_parts u) /\ forall i p, nth_error (su_parts u) i = Some p -> exists m, nth_error hs i = Some m /\
    positions (base_of (counts_of (map (@in_coll A l) (su_parts u))) i) (@in_coll A l p) m.
Lemma first_numbered l : In l (pl_colls P) -> exists hs, @first_positions A Creating (su_parts u) l = Ok hs /\ numbered l hs.
Proof.
  intros Il. unfold first_positions. set (ws := map (in_coll l) (su_parts u)).
  destruct (hidden_fields_spec (counts_of ws) ws 0) as (hs & E & L & H); [intros w Iw; now apply (coll_sound l)|unfold counts_of; rewrite map_length; lia|].
  exists hs. split; [exact E|]. split; [rewrite L; apply map_length|]. intros i p Ep. destruct (H i (in_coll l p)) as (m & Em & PM); [unfold ws; now rewrite (map_nth_error _ _ _ Ep)|]. eauto.
Qed.
Lemma all_numbered ls : (forall l, In l ls -> In l (pl_colls P)) -> exists g, @all_positions A Creating (su_parts u) ls = Ok g /\ forall l, In l ls -> numbered l (g l).
Proof.
  induction ls as [|l ls IH]; intros H; cbn [all_positions]; [eexists; split; [reflexivity|intros l []]|].
  destruct (first_numbered l (H l (or_introl eq_refl))) as (hs & -> & N). destruct IH as (g & -> & G); [intros; apply H; now right|]. cbn [bind]. eexists. split; [reflexivity|].
  intros l' I. unfold set_at. destruct (String.eqb_spec l' l) as [->|NE]; [exact N|]. destruct I as [E|I]; [congruence|now apply G].
Qed.
Lemma blank_sized m l : m <> Creating -> exists hs, @first_positions A m (su_parts u) l = Ok hs /\ hidden_sized u hs.
Proof.
  intros NC. exists (map (fun p => repeat (-1) (Z.to_nat (l_npix (nf_lay (pt_sub p))))) (su_parts u)). split; [destruct m; [contradiction|reflexivity|reflexivity]|].
  split; [apply map_length|]. intros i p hs Ep E. rewrite (map_nth_error _ _ _ Ep) in E. injection E as <-. rewrite repeat_length.
  destruct F as (_ & _ & _ & _ & _ & _ & F1 & _). destruct (F1 p (nth_error_In _ _ Ep)) as [PF _]. destruct (pixel_facts _ PF) as (_ & _ & NN & _). lia.
Qed.
Lemma all_blank m ls : m <> Creating -> exists g, @all_positions A m (su_parts u) ls = Ok g /\ forall l, In l ls -> hidden_sized u (g l).
Proof.
  intros NC. induction ls as [|l ls IH]; cbn [all_positions]; [eexists; split; [reflexivity|intros l []]|].
  destruct (blank_sized m l NC) as (hs & -> & N). destruct IH as (g & -> & G). cbn [bind]. eexists. split; [reflexivity|].
  intros l' I. unfold set_at. destruct (String.eqb_spec l' l) as [->|NE]; [exact N|]. destruct I as [E|I]; [congruence|now apply G].
Qed.

Lemma numbered_sized l hs : In l (pl_colls P) -> numbered l hs -> hidden_sized u hs.
Proof.
  intros Il [L H]. split; [exact L|]. intros i p m Ep Em. destruct (H i p Ep) as (m' & Em' & (LM & _)). rewrite Em in Em'. injection Em' as <-. exact LM.
Qed.
(** The numbers, as they would be in a file. *)
Definition pos_of (g : string -> list (list Z)) (l : string) (x : list Z) : Z :=
  match write_ranks 1 0 (su_hidden u l) 0 (combine (map pt_sub (su_parts u)) (g l)) (mk_ncfile 0 (fun _ _ => 0)) with
  | Ok hf => cells hf l (0 :: x)
  | _ => 0
  end.
Lemma pos_of_rd g l i p m x : In l (pl_colls P) -> numbered l (g l) -> nth_error (su_parts u) i = Some p -> nth_error (g l) i = Some m -> owns (pt_sub p) x ->
  rd m (pixel_id (pt_sub p) x) = Ok (pos_of g l x).
Proof.
  intros Il N Ep Em O. unfold pos_of.
  destruct (store_file P u l (g l) 1 0 0 (mk_ncfile 0 (fun _ _ => 0)) F Il eq_refl (numbered_sized l _ Il N)) as (hf' & E & _ & V). rewrite E. now apply (V i p m).
Qed.
Lemma pos_of_lists g l : In l (pl_colls P) -> numbered l (g l) -> all_list (pos_of g) l u (g l).
Proof.
  intros Il N. destruct (numbered_sized l _ Il N) as [L H]. split; [exact L|]. intros i p m Ep Em. split; [now apply (H i)|]. intros x O. now apply (pos_of_rd g l i p m x).
Qed.
Lemma counts_total l : In l (pl_colls P) -> zsum (counts_of (map (@in_coll A l) (su_parts u))) = pl_total P l.
Proof.
  intros Il. destruct F as (_ & _ & _ & _ & _ & _ & _ & _ & _ & _ & F1). destruct (F1 l Il) as (_ & <- & _). unfold counts_of. rewrite map_map. reflexivity.
Qed.
Lemma pos_of_numbers g l : In l (pl_colls P) -> numbered l (g l) -> numbers P (pos_of g) l.
Proof.
  intros Il N. set (ws := map (@in_coll A l) (su_parts u)).
  assert (K : forall x, in_shape (pl_dom P) x -> (~ pl_pixels P l x /\ pos_of g l x = -1) \/ pl_pixels P l x /\ exists i p j, nth_error (su_parts u) i = Some p /\ owns (pt_sub p) x /\
     nth_error (pt_ids p l) j = Some (pixel_id (pt_sub p) x) /\ pos_of g l x = base_of (counts_of ws) i + Z.of_nat j).
  { intros x D. destruct (covered P u F x D) as (i & p & Ep & O). destruct N as [L H]. destruct (H i p Ep) as (m & Em & (LM & V & W)).
    pose proof (pos_of_rd g l i p m x Il (conj L H) Ep Em O) as R. pose proof (fits_part P u l p F Il (nth_error_In _ _ Ep)) as C. cbn [in_coll pr_ids pr_sub] in *.
    destruct (in_dec Z.eq_dec (pixel_id (pt_sub p) x) (pt_ids p l)) as [I|NI].
    - right. split; [now apply (cp_pixels _ _ _ _ C)|]. apply In_nth_error in I. destruct I as [j J]. exists i, p, j. split; [exact Ep|]. split; [exact O|]. split; [exact J|].
      rewrite (V j _ J) in R. apply Ok_inj in R. now rewrite <- R.
    - left. split; [intros Q; apply NI; now apply (cp_pixels _ _ _ _ C)|]. destruct (pixel_facts _ (cp_sub _ _ _ _ C)) as (_ & _ & _ & PR & _). rewrite (W _ (PR x O) NI) in R. apply Ok_inj in R. now rewrite <- R. }
  assert (B : forall i p j, nth_error (su_parts u) i = Some p -> (j < length (pt_ids p l))%nat -> 0 <= base_of (counts_of ws) i /\ base_of (counts_of ws) i + Z.of_nat j < base_of (counts_of ws) (S i) /\ base_of (counts_of ws) (S i) <= pl_total P l).
  { intros i p j Ep Lj. assert (Ew : nth_error ws i = Some (in_coll l p)) by (unfold ws; now rewrite (map_nth_error _ _ _ Ep)). destruct (base_bounds [] ws i _ Ew) as [B1 B2]. unfold ws in B2 at 2. rewrite (counts_total l Il) in B2.
    rewrite (base_next [] _ _ _ (counts_at ws i _ Ew)). cbn [in_coll pr_ids] in *. lia. }
  intros x D. split; [|split].
  - intros Q. destruct (K x D) as [[NQ _]|[_ (i & p & j & Ep & _ & J & ->)]]; [contradiction|]. pose proof (B i p j Ep ltac:(apply nth_error_Some; congruence)). lia.
  - intros NQ. destruct (K x D) as [[_ Q]|[Q _]]; [contradiction|exact Q].
  - intros y Dy Qx Qy EQ. destruct (K x D) as [[NQ _]|[_ (i & p & j & Ep & Ox & J & Ex)]]; [contradiction|]. destruct (K y Dy) as [[NQ _]|[_ (i' & p' & j' & Ep' & Oy & J' & Ey)]]; [contradiction|].
    pose proof (B i p j Ep ltac:(apply nth_error_Some; congruence)) as B1. pose proof (B i' p' j' Ep' ltac:(apply nth_error_Some; congruence)) as B2.
    assert (EI : i = i').
    { destruct (Nat.lt_trichotomy i i') as [LT|[->|LT]]; [exfalso|reflexivity|exfalso]; pose proof (base_mono [] ws _ _ LT) as BM; lia. }
    subst i'. rewrite Ep in Ep'. injection Ep' as <-. assert (j = j') by lia. subst j'. rewrite J in J'. injection J' as EP.
    destruct (pixel_facts _ (cp_sub _ _ _ _ (fits_part P u l p F Il (nth_error_In _ _ Ep)))) as (_ & _ & _ & _ & PI & _). now apply PI.
Qed.
Lemma colls_same l : In l (pl_colls P) <-> In l (su_colls u).
Proof. destruct F as (_ & _ & _ & _ & _ & F1 & _). symmetry. apply F1. Qed.

Lemma create_inv mem hf (f : ncfile A) : sized P u mem -> exists pos s, start Creating u mem hf f = Ok s /\ inv P pos s [].
Proof.
  intros SZ. unfold start. destruct (all_numbered (su_colls u)) as (g & -> & G); [intros l; apply colls_same|]. cbn [bind]. exists (pos_of g). eexists. split; [reflexivity|].
  constructor; cbn; try assumption.
  - intros l Il. apply pos_of_numbers; [exact Il|]. now apply G, colls_same.
  - intros l _ [].
  - intros l _ [].
  - intros l Il. apply (numbered_sized l); [exact Il|]. now apply G, colls_same.
  - intros l Il _. apply pos_of_lists; [exact Il|]. now apply G, colls_same.
Qed.
Lemma reopen_inv pos s known m mem : inv P pos s known -> m <> Creating -> sized P u mem -> exists s', start m u mem (se_hfile s) (se_file s) = Ok s' /\ inv P pos s' known /\
  se_file s' = se_file s.
Proof.
  intros I NC SZ. unfold start. destruct (all_blank m (su_colls u) NC) as (g & -> & G). cbn [bind]. eexists. split; [reflexivity|]. split; [|reflexivity].
  constructor; cbn; try assumption; try apply I.
  - intros l _ [].
  - intros l Il. now apply G, colls_same.
  - intros l _ [H|[]]. contradiction.
Qed.
End Create.

(** *** Steps *)
Definition keeps (name : string) (fr : Z) (f f' : ncfile A) : Prop :=
  recs f <= recs f' /\ forall t, cells f' name (fr :: t) = cells f name (fr :: t).
Lemma colls_of_in names l : In l (colls_of P names) -> exists q, In q (pl_quantities P) /\ In (q_name q) names /\ q_local q = Some l.
Proof.
  unfold colls_of. intros I. apply in_flat_map in I. destruct I as (q & Iq & I). exists q. split; [exact Iq|]. destruct (q_local q) as [l'|]; [|destruct I].
  destruct (existsb (String.eqb (q_name q)) names) eqn:E; [|destruct I]. destruct I as [<-|[]]. split; [|reflexivity]. apply existsb_exists in E. destruct E as (n & In_ & E). apply String.eqb_eq in E. now subst n.
Qed.
Definition creates (o : op A) : bool := match o with Create _ _ _ _ => true | _ => false end.

Lemma step_inv pos s known o s' r : inv P pos s known -> allowed P known s o -> creates o = false -> step s o = (s', r) -> inv P pos s' (learn P known s o r) /\
  forall name fr, spares name fr s o -> keeps name fr (se_file s) (se_file s').
Proof.
  intros I AL NC E. destruct o as [u mem hc c|append u mem| |mem|k names|k names]; [discriminate| | | | |]; cbn [step allowed learn spares] in *.
  - destruct AL as [F SZ]. destruct (reopen_inv u F pos s known (if append then Appending else Reading) mem I ltac:(destruct append; discriminate) SZ) as (s1 & E1 & I1 & F1).
    rewrite E1 in E. injection E as <- <-. split; [exact I1|]. intros name fr _. rewrite F1. split; [lia|reflexivity].
  - injection E as <- <-. split; [constructor; cbn; apply I|]. intros name fr _. split; [cbn; lia|reflexivity].
  - injection E as <- <-. split; [now apply inv_with_mem|]. intros name fr _. split; [cbn; lia|reflexivity].
  - destruct AL as [NM PO]. destruct (write_names_spec P pos k names s known I) as (s1 & r1 & E1 & I1 & SR & _ & SE & H1 & _).
    { intros n In_. destruct (NM n In_) as (q & Iq & Nq). exists q. split; [exact Iq|]. split; [exact Nq|]. intros EM l El. apply (PO EM q l Iq); [now rewrite Nq|exact El]. }
    rewrite E in E1. injection E1 as <- <-. split.
    + destruct r as [[]|e|]; [|exact I1|exact I1]. destruct (se_mode s) eqn:EM; [|exact I1|exact I1]. apply (inv_weaken P pos s' known); [exact I1|]. intros l Il Kl. apply in_app_or in Kl. destruct Kl as [Kl|Kl].
      * apply colls_of_in in Kl. destruct Kl as (q & Iq & In_ & El). apply (inv_written _ _ _ _ I1 l Il). destruct (H1 eq_refl q Iq In_) as [H _]. now apply H.
      * now apply (inv_known _ _ _ _ I1).
    + intros name fr N. destruct SE as [S1 S2]. split; [exact S1|]. intros t. now apply S2.
  - destruct AL as [NM PO]. destruct (read_names_spec P pos k names s known I) as (s1 & r1 & E1 & I1 & SR & F1 & _).
    { intros n In_. destruct (NM n In_) as (q & Iq & Nq). exists q. split; [exact Iq|]. split; [exact Nq|]. intros l El. apply (PO q l Iq); [now rewrite Nq|exact El]. }
    rewrite E in E1. injection E1 as <- <-. split; [exact I1|]. intros name fr _. rewrite F1. split; [lia|reflexivity].
Qed.
Lemma create_step s known u mem hc c s' r : allowed P known s (Create u mem hc c) -> step s (Create u mem hc c) = (s', r) -> exists pos, inv P pos s' [].
Proof.
  intros [F SZ] E. cbn [step] in E. destruct (create_inv u F mem (mk_ncfile 0 hc) (mk_ncfile 0 c) SZ) as (pos & s1 & E1 & I). rewrite E1 in E. injection E as <- <-. eauto.
Qed.
Lemma run_inv K s known ops s' known' : run P K s known ops s' known' -> (exists pos, inv P pos s known) -> exists pos, inv P pos s' known'.
Proof.
  induction 1 as [|s known o s1 r ops s2 known2 AL KO E R IH]; intros I; [exact I|]. apply IH. destruct (creates o) eqn:EC.
  - destruct o; try discriminate. apply (create_step s known _ _ _ _ s1 r AL E).
  - destruct I as [pos I]. exists pos. now apply (step_inv pos s known o s1 r).
Qed.
Lemma run_created K s known u mem hc c ops s' known' : run P K s known (Create u mem hc c :: ops) s' known' -> exists pos, inv P pos s' known'.
Proof.
  intros R. inversion R as [|? ? ? s1 r ? ? ? AL KO E R']; subst. apply (run_inv K s1 (learn P known s (Create u mem hc c) r) ops); [exact R'|]. now apply (create_step s known _ _ _ _ s1 r AL E).
Qed.
Lemma run_keeps pos name fr s known ops s' known' : run P (spares name fr) s known ops s' known' -> inv P pos s known -> inv P pos s' known' /\ keeps name fr (se_file s) (se_file s').
Proof.
  induction 1 as [|s known o s1 r ops s2 known2 AL KO E R IH]; intros I; [split; [exact I|split; [lia|reflexivity]]|].
  assert (NC : creates o = false) by (destruct o; [destruct KO| | | | |]; reflexivity). destruct (step_inv pos s known o s1 r I AL NC E) as [I1 H]. destruct (H name fr KO) as [K1 K2].
  destruct (IH I1) as [I2 [K3 K4]]. split; [exact I2|]. split; [lia|]. intros t. now rewrite K4.
Qed.

(** The frame stays within the file. *)
Lemma step_frame pos s known o s' r fr : inv P pos s known -> allowed P known s o -> creates o = false -> step s o = (s', r) ->
  0 <= fr < se_nb s -> fr < recs (se_file s) -> 0 <= fr < se_nb s' /\ fr < recs (se_file s').
Proof.
  intros I AL NC E [H0 H1] H2. destruct o as [u mem hc c|append u mem| |mem|k names|k names]; [discriminate| | | | |]; cbn [step allowed] in *.
  - destruct AL as [F SZ]. destruct (reopen_inv u F pos s known (if append then Appending else Reading) mem I ltac:(destruct append; discriminate) SZ) as (s1 & E1 & I1 & F1).
    rewrite E1 in E. injection E as <- <-. rewrite F1. assert (N : se_nb s1 = recs (se_file s)); [|lia]. unfold start in E1. destruct (all_positions _ _ _); cbn [bind] in E1; [|discriminate|discriminate]. apply Ok_inj in E1. now subst s1.
  - injection E as <- <-. cbn. lia.
  - injection E as <- <-. cbn. lia.
  - destruct AL as [NM PO]. destruct (write_names_spec P pos k names s known I) as (s1 & r1 & E1 & I1 & SR & _ & SE & _).
    { intros n In_. destruct (NM n In_) as (q & Iq & Nq). exists q. split; [exact Iq|]. split; [exact Nq|]. intros EM l El. apply (PO EM q l Iq); [now rewrite Nq|exact El]. }
    rewrite E in E1. injection E1 as <- <-. destruct SR as (_ & _ & -> & _). destruct SE. lia.
  - destruct AL as [NM PO]. destruct (read_names_spec P pos k names s known I) as (s1 & r1 & E1 & I1 & SR & F1 & _).
    { intros n In_. destruct (NM n In_) as (q & Iq & Nq). exists q. split; [exact Iq|]. split; [exact Nq|]. intros l El. apply (PO q l Iq); [now rewrite Nq|exact El]. }
    rewrite E in E1. injection E1 as <- <-. destruct SR as (_ & _ & -> & _). rewrite F1. lia.
Qed.
Lemma run_frame pos name fr s known ops s' known' : run P (spares name fr) s known ops s' known' -> inv P pos s known ->
  0 <= fr < se_nb s -> fr < recs (se_file s) -> 0 <= fr < se_nb s'.
Proof.
  induction 1 as [|s known o s1 r ops s2 known2 AL KO E R IH]; intros I H1 H2; [exact H1|].
  assert (NC : creates o = false) by (destruct o; [destruct KO| | | | |]; reflexivity). destruct (step_inv pos s known o s1 r I AL NC E) as [I1 _].
  destruct (step_frame pos s known o s1 r fr I AL NC E H1 H2). now apply IH.
Qed.
Lemma accessed_range k nb fr : accessed k nb = Ok fr -> 0 <= fr < nb.
Proof.
  unfold accessed, handle_frame. destruct (Z.leb_spec nb (if k <? 0 then nb + k else k)); cbn [bind]; [discriminate|]. destruct (Z.ltb_spec (if k <? 0 then nb + k else k) 0); [discriminate|].
  intros E. apply Ok_inj in E. lia.
Qed.
Lemma accessed_self nb fr : 0 <= fr < nb -> accessed fr nb = Ok fr.
Proof.
  intros H. unfold accessed, handle_frame. destruct (Z.ltb_spec fr 0); [lia|]. destruct (Z.leb_spec nb fr); [lia|]. cbn [bind]. destruct (Z.ltb_spec fr 0); [lia|reflexivity].
Qed.

(** *** The last write is read *)
Lemma last_write s0 known0 u0 mem0 hc0 c0 ops s1 known1 q k names fr s2 r2 :
  run P anything s0 known0 (Create u0 mem0 hc0 c0 :: ops) s1 known1 ->
  In q (pl_quantities P) -> In (q_name q) names -> allowed P known1 s1 (Write k names) -> se_mode s1 <> Reading -> accessed k (se_nb s1) = Ok fr ->
  step s1 (Write k names) = (s2, r2) ->
  r2 = Ok tt /\
  forall ops' s3 known3 k' names' s4 r4,
    run P (spares (q_name q) fr) s2 (learn P known1 s1 (Write k names) r2) ops' s3 known3 ->
    (exists h, entry_of q h) ->
    accessed fr (se_nb s3) = Ok fr /\
    (allowed P known3 s3 (Read k' names') -> In (q_name q) names' -> accessed k' (se_nb s3) = Ok fr ->
    step s3 (Read k' names') = (s4, r4) ->
    r4 = Ok tt /\
    forall h i j c b x a, entry_of q h -> in_shape (q_comp q) c -> 0 <= b < q_nsub q ->
      has_value s1 i q h c b x a -> has_pixel s3 j q x -> has_value s4 j q h c b x a).
Proof.
  intros R Iq In_ AL NR AC E. destruct (run_created _ _ _ _ _ _ _ _ _ _ R) as [pos I]. pose proof AL as [NM PO].
  destruct (write_names_spec P pos k names s1 known1 I) as (s2' & r2' & E1 & I1 & SR & _ & SE & H1 & H2).
  { intros n In1. destruct (NM n In1) as (q' & Iq' & Nq). exists q'. split; [exact Iq'|]. split; [exact Nq|]. intros EM l El. apply (PO EM q' l Iq'); [now rewrite Nq|exact El]. }
  pose proof E as E0. cbn [step] in E0. rewrite E0 in E1. injection E1 as <- <-. split; [now apply (H2 NR fr)|]. pose proof (H2 NR fr AC) as Er. subst r2.
  destruct (H1 eq_refl q Iq In_) as [_ AI]. specialize (AI NR fr AC).
  intros ops' s3 known3 k' names' s4 r4 R' [h0 Eh0].
  assert (I2 : inv P pos s2 (learn P known1 s1 (Write k names) (Ok tt))) by now apply (step_inv pos s1 known1 (Write k names) s2 (Ok tt) I AL eq_refl E).
  destruct (run_keeps pos _ _ _ _ _ _ _ R' I2) as [I3 [K1 K2]]. destruct (AI h0 Eh0) as [FR _]. split.
  { apply accessed_self, (run_frame pos _ _ _ _ _ _ _ R' I2); [|exact FR]. destruct SR as (_ & _ & -> & _). now apply accessed_range in AC. }
  intros AL' In' AC' E'. destruct AL' as [NM' PO'].
  destruct (read_names_spec P pos k' names' s3 known3 I3) as (s4' & r4' & E4 & I4 & SR' & F4 & OT & OK).
  { intros n In1. destruct (NM' n In1) as (q' & Iq' & Nq). exists q'. split; [exact Iq'|]. split; [exact Nq|]. intros l El. apply (PO' q' l Iq'); [now rewrite Nq|exact El]. }
  cbn [step] in E'. rewrite E' in E4. injection E4 as <- <-. destruct (OK fr AC' ltac:(lia)) as [-> G]. split; [reflexivity|].
  intros h i j c b x a Eh Hc Hb HV HP. specialize (G q h Iq In' Eh j c b x Hc Hb). destruct SR' as (_ & SR2 & _). specialize (G (has_pixel_same s3 s4 j q x SR2 HP)).
  destruct (AI h Eh) as [_ AI2]. rewrite <- (AI2 i c b x a Hc Hb HV). unfold at_of in *. rewrite <- K2. exact G.
Qed.
End Programs.
