(** Whole operations of a session. *)
From Coq Require Import String Sorting.Sorted.
From Verif Require Import Base CIntModel GridModel GridSpec GridProofs StridedModel StridedProofs LayoutModel LayoutSpec LayoutProofs LayoutProofs2 CommModel FrameModel RegistryModel.
From Verif Require Import NetCDFModel NetCDFSpec NetCDFProofs5 NetCDFProofs6 NetCDFProofs9 NetCDFProofs10 NetCDFProofs11 SessionModel SessionSpec SessionProofs SessionProofs2 SessionProofs3.
Local Open Scope Z_scope.
Local Open Scope list_scope.

Section Names.
Context {A : Type}.
Notation session := (session A).
Variables (P : plan) (pos : string -> list Z -> Z).
Implicit Types (s : session).
Notation inv := (@inv A P pos).

Lemma inv_with_file s known f : inv s known -> inv (with_file s f) known.
Proof. intros I. constructor; cbn; apply I. Qed.
Lemma inv_with_mem s known mem : inv s known -> sized P (se_setup s) mem -> inv (with_mem s mem) known.
Proof. intros I S. constructor; cbn; try apply I. exact S. Qed.
Lemma inv_weaken s known known' : inv s known -> (forall l, In l (pl_colls P) -> In l known' -> in_file P pos l (se_hfile s)) -> inv s known'.
Proof. intros I H. constructor; try apply I. exact H. Qed.

(** Two quantities with one name are the same. *)
Lemma quantity_unique u q q' : fits P u -> In q (pl_quantities P) -> In q' (pl_quantities P) -> q_name q = q_name q' -> q = q'.
Proof.
  intros F Iq Iq' N. destruct (fits_var P u q F Iq) as [v V]. destruct (fits_var P u q' F Iq') as [v' V'].
  pose proof (var_found P u q v F V) as E. pose proof (var_found P u q' v' F V') as E'. rewrite N, E' in E. injection E as -> EL.
  pose proof F as (_ & _ & _ & NE & _). destruct (su_parts u) as [|p r] eqn:EP; [contradiction|]. assert (Ip : In p (su_parts u)) by (rewrite EP; now left).
  destruct (vo_parts _ _ _ _ V p Ip) as [(A1 & A2 & A3) _]. destruct (vo_parts _ _ _ _ V' p Ip) as [(B1 & B2 & B3) _]. rewrite N in *.
  pose proof (vo_hist _ _ _ _ V) as H1. pose proof (vo_hist _ _ _ _ V') as H2. destruct q, q'; cbn in *. congruence.
Qed.

Lemma entries_spec u q v : var_of P u q v -> forall h, entry_of q h <-> 0 <= h < Z.of_nat (entries v).
Proof.
  intros V h. unfold entry_of, entries. rewrite (vo_hist _ _ _ _ V). destruct (q_hist q) as [n|] eqn:E; [|cbn; lia]. pose proof (vo_nonneg _ _ _ _ V n E). lia.
Qed.
Lemma at_of_entry q fr h h' c b y c' b' y' : entry_of q h -> entry_of q h' -> at_of q fr h c b y = at_of q fr h' c' b' y' -> h = h'.
Proof. unfold entry_of, at_of. destruct (q_hist q); [|lia]. intros _ _ E. cbn in E. now injection E. Qed.

(** *** Writing the entries of a variable *)
Definition wrote (s : session) (q : quantity) (fr lo hi : Z) (file file' : ncfile A) : Prop :=
  recs file <= recs file' /\ (lo < hi -> fr < recs file') /\
  (forall n at_, (n <> q_name q \/ forall h c b y, lo <= h < hi -> at_ <> at_of q fr h c b y) -> cells file' n at_ = cells file n at_) /\
  (forall h i c b x a, lo <= h < hi -> in_shape (q_comp q) c -> 0 <= b < q_nsub q -> has_value s i q h c b x a -> cells file' (q_name q) (at_of q fr h c b (where_ pos q x)) = a).

Lemma write_entries s known q v k fr : inv s known -> In q (pl_quantities P) -> var_of P (se_setup s) q v ->
  (forall l, q_local q = Some l -> all_list pos l (se_setup s) (se_hidden s l)) -> se_mode s <> Reading -> accessed k (se_nb s) = Ok fr ->
  forall n lo file, (forall h, lo <= h < lo + Z.of_nat n -> entry_of q h) -> exists file',
    each_entry (write_entry k (mk_svar v (q_local q))) lo n (with_file s file) = (with_file s file', Ok tt) /\ wrote s q fr lo (lo + Z.of_nat n) file file'.
Proof.
  intros I Iq V AL NR AC n. induction n as [|n IH]; intros lo file EN.
  - exists file. split; [reflexivity|]. split; [lia|]. split; [lia|]. split; [reflexivity|]. intros; lia.
  - cbn [each_entry]. pose proof (inv_with_file s known file I) as I1.
    destruct (write_entry_spec P pos (with_file s file) q v lo k (inv_fits _ _ _ _ I1) (inv_sized _ _ _ _ I1) Iq V (EN lo ltac:(lia))) as (f1 & r & E & H & OK).
    { intros l El. split; [apply (inv_numbers _ _ _ _ I); now apply (vo_coll _ _ _ _ V)|now apply AL]. }
    specialize (OK NR fr AC). subst r. destruct H as [[_ H]|[_ (fr' & AC' & PT)]]; [contradiction|]. cbn [with_file se_nb] in AC'. rewrite AC in AC'. apply Ok_inj in AC'. subst fr'.
    rewrite E. unfold andthen. cbn [fst snd]. change (with_file (with_file s file) f1) with (with_file s f1).
    destruct (IH (lo + 1) f1) as (f2 & E2 & W1 & W2 & W3 & W4); [intros h Hh; apply EN; lia|]. rewrite E2. exists f2. split; [reflexivity|].
    destruct PT as (P1 & P2 & P3 & P4). cbn [with_file se_file] in *. split; [lia|]. split; [intros; lia|]. split.
    + intros m at_ H. rewrite W3, P3; [reflexivity| |].
      * destruct H as [H|H]; [now left|right]. intros c b y. apply H. lia.
      * destruct H as [H|H]; [now left|right]. intros h c b y Hh. apply H. lia.
    + intros h i c b x a Hh Hc Hb HV. destruct (Z.eq_dec h lo) as [->|N].
      * rewrite W3; [now apply (P4 i)|]. right. intros h c' b' y Hh' Q. apply at_of_entry in Q; [lia|apply EN; lia|apply EN; lia].
      * apply (W4 h i); try assumption; lia.
Qed.
Lemma write_entries_bad s q v k : In q (pl_quantities P) -> var_of P (se_setup s) q v -> accessed k (se_nb s) = Err FileIOError ->
    (exists known, inv s known /\ forall l, q_local q = Some l -> all_list pos l (se_setup s) (se_hidden s l)) ->
  forall n lo, (forall h, lo <= h < lo + Z.of_nat n -> entry_of q h) -> exists r, each_entry (write_entry k (mk_svar v (q_local q))) lo n s = (s, r) /\ (r = Ok tt -> n = O).
Proof.
  intros Iq V AC (known & I & AL) n lo EN. destruct n as [|n]; [exists (Ok tt); auto|]. cbn [each_entry]. exists (Err FileIOError). split; [|discriminate].
  assert (X : write_entry k (mk_svar v (q_local q)) lo s = (s, Err FileIOError)); [|rewrite X; reflexivity].
  rewrite (write_entry_unfold P s q v lo k V). cbv zeta. rewrite (written_bad P pos s q v lo k (inv_fits _ _ _ _ I) (inv_sized _ _ _ _ I) Iq (EN lo ltac:(lia))); [now destruct (match se_mode s with Reading => _ | _ => false end)| |exact AC].
  intros l El. split; [apply (inv_numbers _ _ _ _ I); now apply (vo_coll _ _ _ _ V)|now apply AL].
Qed.
(** A file that was opened for reading stays as it is. *)
Lemma no_requests nb k v h (rs : list (nfield * list Z * list A)) : (forall x, In x rs -> requests (snd (fst x)) = []) -> forall f f', write_local_ranks nb k v h rs f = Ok f' -> f' = f.
Proof.
  induction rs as [|[[fi px] m] rs IH]; intros H f f' E; cbn [write_local_ranks] in E; [apply Ok_inj in E; now symmetry|].
  destruct (write_local nb k v h fi px m f) as [f1|e|] eqn:E1; cbn [bind] in E; try discriminate. apply IH in E; [|intros x Ix; apply H; now right]. subst f'.
  unfold write_local in E1. pose proof (H (fi, px, m) (or_introl eq_refl)) as HR. cbn [fst snd] in HR. rewrite HR in E1. destruct (handle_frame k nb) as [fr|e|]; cbn [bind] in E1; try discriminate. destruct (fr <? 0); [discriminate|].
  destruct (get_nc_stride v); cbn [bind] in E1; try discriminate. destruct (get_nc_imap v fi); cbn [bind] in E1; try discriminate. cbn [put_requests] in E1. apply Ok_inj in E1. now symmetry.
Qed.
Lemma read_only_entry s v k h : se_mode s = Reading -> exists r, write_entry k v h s = (s, r).
Proof.
  intros EM. unfold write_entry. rewrite EM. destruct (unplaced s v) eqn:U; cbn [negb]; [|eauto]. unfold unplaced in U. destruct (sv_local v) as [l|]; [|discriminate]. rewrite forallb_forall in U.
  destruct (write_local_ranks _ _ _ _ _ _) as [f|e|] eqn:E; [|eauto|eauto]. apply no_requests in E; [subst f; exists (Ok tt); destruct s; reflexivity|].
  intros [[fi px] m] Ix. cbn [fst snd]. apply in_combine_l in Ix. apply in_combine_r in Ix. specialize (U px Ix). now destruct (requests px).
Qed.
Lemma read_only_entries s v k : se_mode s = Reading -> forall n lo, exists r, each_entry (write_entry k v) lo n s = (s, r).
Proof.
  intros EM. induction n as [|n IH]; intros lo; cbn [each_entry]; [eauto|]. destruct (read_only_entry s v k lo EM) as [r E]. rewrite E. unfold andthen. cbn [fst snd]. destruct r as [[]|e|]; [apply IH|eauto|eauto].
Qed.

(** *** Writing a name *)
Definition same_except (k nb : Z) (names : list string) (file file' : ncfile A) : Prop :=
  recs file <= recs file' /\ forall n fr t, ~ (In n names /\ accessed k nb = Ok fr) -> cells file' n (fr :: t) = cells file n (fr :: t).
Lemma same_except_refl k nb names file : same_except k nb names file file.
Proof. split; [lia|reflexivity]. Qed.
(** What is in the file for a quantity. *)
Definition all_in (s : session) (q : quantity) (fr : Z) (file : ncfile A) : Prop :=
  forall h, entry_of q h -> fr < recs file /\
    forall i c b x a, in_shape (q_comp q) c -> 0 <= b < q_nsub q -> has_value s i q h c b x a -> cells file (q_name q) (at_of q fr h c b (where_ pos q x)) = a.
Definition to_write (known : list string) (s : session) (q : quantity) : Prop :=
  se_mode s = Appending -> forall l, q_local q = Some l -> In l known.

Lemma before_write_spec s known q v k : inv s known -> In q (pl_quantities P) -> var_of P (se_setup s) q v -> to_write known s q -> exists s' r,
  before_write k (mk_svar v (q_local q)) s = (s', r) /\ inv s' known /\ same_run s s' /\ se_mem s' = se_mem s /\ se_file s' = se_file s /\
  (r = Ok tt -> forall l, q_local q = Some l -> (se_mode s = Creating -> In l (se_written s')) /\ (se_mode s <> Reading -> all_list pos l (se_setup s') (se_hidden s' l))) /\
  (forall fr, accessed k (se_nb s) = Ok fr -> r = Ok tt).
Proof.
  intros I Iq V TW. unfold before_write. cbn [sv_local].
  assert (SK : exists s' r, (s, Ok tt) = (s', r) /\ inv s' known /\ same_run s s' /\ se_mem s' = se_mem s /\ se_file s' = se_file s /\ r = Ok tt /\ s' = s).
  { exists s, (Ok tt). split; [reflexivity|]. split; [exact I|]. split; [apply same_run_refl|]. auto. }
  destruct (q_local q) as [l|] eqn:EL.
  - pose proof (vo_coll _ _ _ _ V l EL) as Il. destruct (se_mode s) eqn:EM.
    + destruct (store_spec P pos s known l I Il EM) as (s' & r & E & I' & SR & E1 & E2 & H1 & H2). exists s', r. split; [exact E|]. split; [exact I'|]. split; [exact SR|]. split; [exact E1|]. split; [exact E2|]. split.
      * intros Er l' El. injection El as <-. split; [intros _; now apply H1|]. intros _. apply (inv_list _ _ _ _ I' l Il). left. destruct SR as (-> & _). exact EM.
      * intros fr AC. apply H2. now apply accessed_zero in AC.
    + destruct (load_spec P pos s known k l I Il (TW EM l EL)) as (s' & r & E & I' & SR & E1 & E2 & H1 & H2). exists s', r. split; [exact E|]. split; [exact I'|]. split; [exact SR|]. split; [exact E1|]. split; [exact E2|]. split; [|exact H2].
      intros Er l' El. injection El as <-. split; [discriminate|intros _; now apply H1].
    + destruct SK as (s' & r & E & I' & SR & E1 & E2 & -> & ->). exists s, (Ok tt). split; [reflexivity|]. split; [exact I|]. split; [exact SR|]. split; [exact E1|]. split; [exact E2|]. split; [|reflexivity].
      intros _ l' _. split; [discriminate|contradiction].
  - destruct SK as (s' & r & E & I' & SR & E1 & E2 & -> & ->). exists s, (Ok tt). split; [reflexivity|]. split; [exact I|]. split; [exact SR|]. split; [exact E1|]. split; [exact E2|]. split; [discriminate|reflexivity].
Qed.

Lemma has_value_same s s' i q h c b x a : se_setup s' = se_setup s -> se_mem s' = se_mem s -> has_value s i q h c b x a -> has_value s' i q h c b x a.
Proof. unfold has_value. intros -> ->. auto. Qed.

Lemma write_name_spec s known q k : inv s known -> In q (pl_quantities P) -> to_write known s q -> exists s' r,
  write_name k (q_name q) s = (s', r) /\ inv s' known /\ same_run s s' /\ se_mem s' = se_mem s /\ same_except k (se_nb s) [q_name q] (se_file s) (se_file s') /\
  (r = Ok tt -> (se_mode s = Creating -> forall l, q_local q = Some l -> In l (se_written s')) /\ (se_mode s <> Reading -> forall fr, accessed k (se_nb s) = Ok fr -> all_in s q fr (se_file s'))) /\
  (se_mode s <> Reading -> forall fr, accessed k (se_nb s) = Ok fr -> r = Ok tt).
Proof.
  intros I Iq TW. destruct (fits_var P _ q (inv_fits _ _ _ _ I) Iq) as [v V]. unfold write_name. rewrite (var_found P _ q v (inv_fits _ _ _ _ I) V).
  destruct (before_write_spec s known q v k I Iq V TW) as (s1 & r1 & E1 & I1 & SR & M1 & F1 & H1 & H2). rewrite E1. unfold andthen at 1. cbn [fst snd sv_var].
  pose proof SR as (SR1 & SR2 & SR3 & SR4).
  assert (EN : forall h, 0 <= h < 0 + Z.of_nat (entries v) -> entry_of q h) by (intros h Hh; apply (entries_spec _ q v V); lia).
  assert (V1 : var_of P (se_setup s1) q v) by now rewrite SR2.
  destruct r1 as [[]|e|].
  2,3: eexists s1, _; split; [reflexivity|]; split; [exact I1|]; split; [exact SR|]; split; [exact M1|]; split; [rewrite F1; apply same_except_refl|]; split; [discriminate|]; intros _ fr AC; now apply H2 in AC.
  destruct (se_mode s) eqn:EM.
  3: { destruct (read_only_entries s1 (mk_svar v (q_local q)) k SR1 (entries v) 0) as (r & E). rewrite E. exists s1, r.
       split; [reflexivity|]. split; [exact I1|]. split; [exact SR|]. split; [exact M1|]. split; [rewrite F1; apply same_except_refl|]. split; [|contradiction].
       intros Er. split; [discriminate|contradiction]. }
  1,2: assert (AL : forall l, q_local q = Some l -> all_list pos l (se_setup s1) (se_hidden s1 l)) by (intros l El; now apply (H1 eq_refl l El));
    (destruct (accessed_bad k (se_nb s)) as [[fr AC]|AC];
    [assert (NR : se_mode s1 <> Reading) by (rewrite SR1; discriminate);
     assert (AC1 : accessed k (se_nb s1) = Ok fr) by (rewrite SR3; exact AC);
     destruct (write_entries s1 known q v k fr I1 Iq V1 AL NR AC1 (entries v) 0 (se_file s1) EN) as (f2 & E & W1 & W2 & W3 & W4);
     assert (SW : with_file s1 (se_file s1) = s1) by (destruct s1; reflexivity); rewrite SW in E; rewrite E; exists (with_file s1 f2), (Ok tt);
     split; [reflexivity|]; split; [now apply inv_with_file|]; split; [exact SR|]; split; [exact M1|]; split;
     [rewrite <- F1; split; [exact W1|]; intros n fr' t N; apply W3; destruct (String.string_dec n (q_name q)) as [->|NN]; [right|now left];
      intros h c b y _ Q; injection Q as -> _; apply N; split; [now left|exact AC]
     |split; [intros _; split; [|intros _ fr' AC'; rewrite AC in AC'; apply Ok_inj in AC'; subst fr';
        intros h Eh; apply (entries_spec _ q v V) in Eh; split; [apply W2; lia|]; intros i c b x a Hc Hb HV; apply (W4 h i); [lia|exact Hc|exact Hb|now apply (has_value_same s)]]|reflexivity]]
    |destruct (write_entries_bad s1 q v k Iq V1 (eq_trans (f_equal (accessed k) SR3) AC) (ex_intro _ known (conj I1 AL)) (entries v) 0 EN) as (r & E & Hr);
     rewrite E; exists s1, r; split; [reflexivity|]; split; [exact I1|]; split; [exact SR|]; split; [exact M1|]; split; [rewrite F1; apply same_except_refl|]; split; [intros Er; split; [|congruence]|congruence]]).
  1,2: intros _ l El; now apply (H1 eq_refl l El).
  1,2: discriminate.
Qed.

Lemma same_except_trans k nb n r f1 f2 f3 : same_except k nb [n] f1 f2 -> same_except k nb r f2 f3 -> same_except k nb (n :: r) f1 f3.
Proof.
  intros [A1 A2] [B1 B2]. split; [lia|]. intros m fr t N. rewrite B2, A2; [reflexivity| |]; intros [I AC]; apply N; split; try exact AC; [destruct I as [<-|[]]; now left|now right].
Qed.

Lemma write_names_spec k names : forall s known, inv s known -> (forall n, In n names -> exists q, In q (pl_quantities P) /\ q_name q = n /\ to_write known s q) -> exists s' r,
  each_name (write_name k) names s = (s', r) /\ inv s' known /\ same_run s s' /\ se_mem s' = se_mem s /\ same_except k (se_nb s) names (se_file s) (se_file s') /\
  (r = Ok tt -> forall q, In q (pl_quantities P) -> In (q_name q) names -> (se_mode s = Creating -> forall l, q_local q = Some l -> In l (se_written s')) /\ (se_mode s <> Reading -> forall fr, accessed k (se_nb s) = Ok fr -> all_in s q fr (se_file s'))) /\
  (se_mode s <> Reading -> forall fr, accessed k (se_nb s) = Ok fr -> r = Ok tt).
Proof.
  induction names as [|n names IH]; intros s known I NM.
  - exists s, (Ok tt). split; [reflexivity|]. split; [exact I|]. split; [apply same_run_refl|]. split; [reflexivity|]. split; [apply same_except_refl|]. split; [intros _ q _ []|reflexivity].
  - cbn [each_name]. destruct (NM n (or_introl eq_refl)) as (q & Iq & <- & TW). destruct (write_name_spec s known q k I Iq TW) as (s1 & r1 & E1 & I1 & SR & M1 & SE & H1 & H2). rewrite E1.
    unfold andthen. cbn [fst snd]. pose proof SR as (SR1 & SR2 & SR3 & SR4). destruct r1 as [[]|e|].
    2,3: eexists s1, _; split; [reflexivity|]; split; [exact I1|]; split; [exact SR|]; split; [exact M1|]; split;
      [destruct SE as [S1 S2]; split; [exact S1|]; intros m fr t N; apply S2; intros [[<-|[]] AC]; apply N; split; [now left|exact AC]
      |split; [discriminate|intros NR fr AC; now apply (H2 NR) in AC]].
    destruct (IH s1 known I1) as (s2 & r2 & E2 & I2 & SR' & M2 & SE2 & H3 & H4).
    { intros m Im. destruct (NM m (or_intror Im)) as (q' & Iq' & Nq' & TW'). exists q'. split; [exact Iq'|]. split; [exact Nq'|]. unfold to_write. rewrite SR1. exact TW'. }
    rewrite E2. exists s2, r2. rewrite SR3, SR1 in *. split; [reflexivity|]. split; [exact I2|]. split; [now apply (same_run_trans s s1)|]. split; [congruence|]. split; [now apply (same_except_trans _ _ _ _ _ (se_file s1))|].
    split; [|exact H4]. intros Er q' Iq' In_. destruct SR' as (_ & _ & _ & W'). destruct (in_dec String.string_dec (q_name q') names) as [In2|N2].
    + destruct (H3 Er q' Iq' In2) as [H5 H6]. split; [exact H5|]. intros NR fr AC h Eh. destruct (H6 NR fr AC h Eh) as [H7 H8]. split; [exact H7|]. intros i c b x a Hc Hb HV. apply (H8 i c b x a Hc Hb). now apply (has_value_same s).
    + destruct In_ as [Eq|]; [|contradiction]. assert (q' = q) by (apply (quantity_unique (se_setup s)); [apply I|assumption|assumption|congruence]). subst q'.
      destruct (H1 eq_refl) as [H5 H6]. split; [intros EM l El; now apply W', H5|]. intros NR fr AC h Eh. destruct (H6 NR fr AC h Eh) as [H7 H8]. destruct SE2 as [S1 S2]. split; [lia|].
      intros i c b x a Hc Hb HV. rewrite <- (H8 i c b x a Hc Hb HV). unfold at_of. apply S2. now intros [H _].
Qed.

(** *** Reading *)
Lemma has_pixel_same s s' i q x : se_setup s' = se_setup s -> has_pixel s i q x -> has_pixel s' i q x.
Proof. unfold has_pixel. intros ->. auto. Qed.

Lemma before_read_spec s known q v : inv s known -> In q (pl_quantities P) -> var_of P (se_setup s) q v -> (forall l, q_local q = Some l -> In l known) -> exists s' r,
  before_read (mk_svar v (q_local q)) s = (s', r) /\ inv s' known /\ same_run s s' /\ se_mem s' = se_mem s /\ se_file s' = se_file s /\
  (r = Ok tt -> forall l, q_local q = Some l -> all_list pos l (se_setup s') (se_hidden s' l)) /\
  (forall k fr, accessed k (se_nb s) = Ok fr -> r = Ok tt).
Proof.
  intros I Iq V TW. unfold before_read. cbn [sv_local]. destruct (q_local q) as [l|] eqn:EL.
  - destruct (load_spec P pos s known 0 l I (vo_coll _ _ _ _ V l EL) (TW l eq_refl)) as (s' & r & E & I' & SR & E1 & E2 & H1 & H2). exists s', r. split; [exact E|]. split; [exact I'|]. split; [exact SR|]. split; [exact E1|]. split; [exact E2|].
    split; [intros Er l' El; injection El as <-; now apply H1|]. intros k fr AC. apply (H2 0). now apply accessed_zero in AC.
  - exists s, (Ok tt). split; [reflexivity|]. split; [exact I|]. split; [apply same_run_refl|]. split; [reflexivity|]. split; [reflexivity|]. split; [discriminate|reflexivity].
Qed.

(** The values of entry [h] are those of the file. *)
Definition entry_read (s : session) (q : quantity) (fr h : Z) (file : ncfile A) : Prop :=
  forall i c b x, in_shape (q_comp q) c -> 0 <= b < q_nsub q -> has_pixel s i q x -> has_value s i q h c b x (cells file (q_name q) (at_of q fr h c b (where_ pos q x))).
Lemma entry_read_same s s' q fr h file : se_setup s' = se_setup s -> se_mem s' (q_name q) h = se_mem s (q_name q) h -> entry_read s q fr h file -> entry_read s' q fr h file.
Proof. unfold entry_read, has_pixel, has_value. intros -> ->. auto. Qed.

Lemma read_entries s0 known q v k : inv s0 known -> In q (pl_quantities P) -> var_of P (se_setup s0) q v ->
  (forall l, q_local q = Some l -> all_list pos l (se_setup s0) (se_hidden s0 l)) ->
  forall n lo mem, sized P (se_setup s0) mem -> (forall h, lo <= h < lo + Z.of_nat n -> entry_of q h) -> exists mem' r,
    each_entry (read_entry k (mk_svar v (q_local q))) lo n (with_mem s0 mem) = (with_mem s0 mem', r) /\ sized P (se_setup s0) mem' /\
    (forall m e, m <> q_name q \/ e < lo \/ lo + Z.of_nat n <= e -> mem' m e = mem m e) /\
    (forall fr, accessed k (se_nb s0) = Ok fr -> fr < recs (se_file s0) -> r = Ok tt /\ forall h, lo <= h < lo + Z.of_nat n -> entry_read (with_mem s0 mem') q fr h (se_file s0)).
Proof.
  intros I Iq V AL n. induction n as [|n IH]; intros lo mem SZ EN.
  - exists mem, (Ok tt). split; [reflexivity|]. split; [exact SZ|]. split; [reflexivity|]. intros fr _ _. split; [reflexivity|intros; lia].
  - cbn [each_entry]. pose proof (inv_with_mem s0 known mem I SZ) as I1.
    assert (NU : forall l, q_local q = Some l -> numbers P pos l /\ all_list pos l (se_setup (with_mem s0 mem)) (se_hidden (with_mem s0 mem) l)).
    { intros l El. split; [apply (inv_numbers _ _ _ _ I); now apply (vo_coll _ _ _ _ V)|now apply AL]. }
    pose proof (EN lo ltac:(lia)) as EH.
    destruct (read_entry_any P pos (with_mem s0 mem) q v lo k (inv_fits _ _ _ _ I1) (inv_sized _ _ _ _ I1) Iq V EH NU) as (m1 & r & E & LK & OT).
    change (with_mem (with_mem s0 mem) m1) with (with_mem s0 m1) in E. cbn [with_mem se_mem] in LK, OT.
    assert (SZ1 : sized P (se_setup s0) m1) by exact (sized_len P _ mem m1 SZ LK).
    rewrite E. unfold andthen. cbn [fst snd].
    assert (OKR : forall fr, accessed k (se_nb s0) = Ok fr -> fr < recs (se_file s0) -> r = Ok tt /\ entry_read (with_mem s0 m1) q fr lo (se_file s0)).
    { intros fr AC FR. destruct (read_entry_ok P pos (with_mem s0 mem) q v lo k (inv_fits _ _ _ _ I1) (inv_sized _ _ _ _ I1) Iq V EH NU fr AC FR) as (m2 & E2 & _ & _ & HV).
      rewrite E in E2. injection E2 as E2 ->. subst m2. split; [reflexivity|exact HV]. }
    destruct r as [[]|e|].
    2,3: eexists m1, _; split; [reflexivity|]; split; [exact SZ1|]; split;
      [intros m e' H; apply OT; destruct H as [H|H]; [now left|right; lia]|intros fr AC FR; destruct (OKR fr AC FR) as [H _]; discriminate].
    destruct (IH (lo + 1) m1 SZ1) as (m2 & r2 & E2 & SZ2 & OT2 & OK2); [intros h Hh; apply EN; lia|]. rewrite E2. exists m2, r2. split; [reflexivity|]. split; [exact SZ2|]. split.
    + intros m e H. rewrite OT2, OT; [reflexivity|destruct H as [H|H]; [now left|right; lia]|destruct H as [H|H]; [now left|right; lia]].
    + intros fr AC FR. destruct (OK2 fr AC FR) as [-> G]. split; [reflexivity|]. intros h Hh. destruct (Z.eq_dec h lo) as [->|N]; [|apply G; lia].
      destruct (OKR fr AC FR) as [_ G1]. apply (entry_read_same (with_mem s0 m1)); [reflexivity| |exact G1]. cbn [with_mem se_mem]. apply OT2. right. lia.
Qed.

Lemma read_name_spec s known q k : inv s known -> In q (pl_quantities P) -> (forall l, q_local q = Some l -> In l known) -> exists s' r,
  read_name k (q_name q) s = (s', r) /\ inv s' known /\ same_run s s' /\ se_file s' = se_file s /\
  (forall n e, n <> q_name q -> se_mem s' n e = se_mem s n e) /\
  (forall fr, accessed k (se_nb s) = Ok fr -> fr < recs (se_file s) -> r = Ok tt /\ forall h, entry_of q h -> entry_read s' q fr h (se_file s)).
Proof.
  intros I Iq TW. destruct (fits_var P _ q (inv_fits _ _ _ _ I) Iq) as [v V]. unfold read_name. rewrite (var_found P _ q v (inv_fits _ _ _ _ I) V).
  destruct (before_read_spec s known q v I Iq V TW) as (s1 & r1 & E1 & I1 & SR & M1 & F1 & H1 & H2). rewrite E1. unfold andthen. cbn [fst snd sv_var].
  pose proof SR as (SR1 & SR2 & SR3 & SR4). assert (V1 : var_of P (se_setup s1) q v) by now rewrite SR2.
  destruct r1 as [[]|e|].
  2,3: eexists s1, _; split; [reflexivity|]; split; [exact I1|]; split; [exact SR|]; split; [exact F1|]; split; [rewrite M1; reflexivity|]; intros fr AC _; specialize (H2 k fr AC); discriminate.
  destruct (read_entries s1 known q v k I1 Iq V1 (H1 eq_refl) (entries v) 0 (se_mem s1) (inv_sized _ _ _ _ I1)) as (m2 & r & E & SZ & OT & OK).
  { intros h Hh. apply (entries_spec _ q v V). lia. }
  assert (SW : with_mem s1 (se_mem s1) = s1) by (destruct s1; reflexivity). rewrite SW in E. rewrite E. exists (with_mem s1 m2), r. split; [reflexivity|].
  split; [now apply inv_with_mem|]. split; [exact SR|]. split; [exact F1|]. split; [intros n e N; cbn; rewrite OT by (now left); now rewrite M1|].
  rewrite SR3, F1 in OK. intros fr AC FR. destruct (OK fr AC FR) as [-> G]. split; [reflexivity|]. intros h Eh. apply G. apply (entries_spec _ q v V) in Eh. lia.
Qed.

Lemma read_names_spec k names : forall s known, inv s known -> (forall n, In n names -> exists q, In q (pl_quantities P) /\ q_name q = n /\ forall l, q_local q = Some l -> In l known) -> exists s' r,
  each_name (read_name k) names s = (s', r) /\ inv s' known /\ same_run s s' /\ se_file s' = se_file s /\
  (forall n e, ~ In n names -> se_mem s' n e = se_mem s n e) /\
  (forall fr, accessed k (se_nb s) = Ok fr -> fr < recs (se_file s) -> r = Ok tt /\ forall q h, In q (pl_quantities P) -> In (q_name q) names -> entry_of q h -> entry_read s' q fr h (se_file s)).
Proof.
  induction names as [|n names IH]; intros s known I NM.
  - exists s, (Ok tt). split; [reflexivity|]. split; [exact I|]. split; [apply same_run_refl|]. split; [reflexivity|]. split; [reflexivity|]. intros fr _ _. split; [reflexivity|intros q h _ []].
  - cbn [each_name]. destruct (NM n (or_introl eq_refl)) as (q & Iq & <- & TW). destruct (read_name_spec s known q k I Iq TW) as (s1 & r1 & E1 & I1 & SR & F1 & OT & OK). rewrite E1.
    unfold andthen. cbn [fst snd]. pose proof SR as (SR1 & SR2 & SR3 & SR4). destruct r1 as [[]|e|].
    2,3: eexists s1, _; split; [reflexivity|]; split; [exact I1|]; split; [exact SR|]; split; [exact F1|]; split;
      [intros m e' N; apply OT; intros ->; apply N; now left|intros fr AC FR; destruct (OK fr AC FR); discriminate].
    destruct (IH s1 known I1) as (s2 & r2 & E2 & I2 & SR' & F2 & OT2 & OK2); [intros m Im; now apply NM; right|]. rewrite E2. exists s2, r2. rewrite SR3, F1 in *.
    split; [reflexivity|]. split; [exact I2|]. split; [now apply (same_run_trans s s1)|]. split; [congruence|]. split.
    + intros m e N. rewrite OT2, OT; [reflexivity|intros ->; apply N; now left|intros Im; apply N; now right].
    + intros fr AC FR. destruct (OK2 fr AC FR) as [-> G]. split; [reflexivity|]. intros q' h Iq' In_ Eh. destruct (in_dec String.string_dec (q_name q') names) as [In2|N2]; [now apply G|].
      destruct In_ as [Eq|]; [|contradiction]. assert (q' = q) by (apply (quantity_unique (se_setup s)); [apply I|assumption|assumption|congruence]). subst q'.
      destruct (OK fr AC FR) as [_ G1]. destruct SR' as (_ & SR5 & _). apply (entry_read_same s1); [exact SR5|now apply OT2|now apply G1].
Qed.
End Names.
