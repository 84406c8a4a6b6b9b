(** The positions of local pixels in the file, and the invariant of sessions. *)
From Coq Require Import String Sorting.Sorted.
From Verif Require Import Base CIntModel GridModel GridSpec GridProofs StridedModel StridedProofs LayoutModel LayoutSpec LayoutProofs LayoutProofs2 CommModel FrameModel RegistryModel.
From Verif Require Import NetCDFModel NetCDFSpec NetCDFProofs5 NetCDFProofs6 NetCDFProofs9 NetCDFProofs10 NetCDFProofs11 SessionModel SessionSpec SessionProofs SessionProofs2.
Local Open Scope Z_scope.
Local Open Scope list_scope.

Definition in_file (P : plan) (pos : string -> list Z -> Z) (l : string) (hf : ncfile Z) : Prop :=
  forall x, in_shape (pl_dom P) x -> cells hf l (0 :: x) = pos l x.
(** Memory of the right size for the positions. *)
Definition hidden_sized (u : setup) (hs : list (list Z)) : Prop :=
  length hs = length (su_parts u) /\
  forall i p m, nth_error (su_parts u) i = Some p -> nth_error hs i = Some m -> Z.of_nat (length m) = l_npix (nf_lay (pt_sub p)).

Lemma pixel_ready u l p (m : list Z) P : coll_part P u l p -> Z.of_nat (length m) = l_npix (nf_lay (pt_sub p)) -> ready true None l (su_hidden u l) (pt_sub p) m.
Proof.
  intros C L. destruct (cp_hidden _ _ _ _ C) as (seen & s & E). pose proof (cp_sub _ _ _ _ C) as PF. destruct (pixel_facts _ PF) as (_ & SG & _).
  apply (registered_hidden l _ _ m seen s E SG). destruct PF as (_ & _ & _ & _ & D). revert D. apply distributed_len. rewrite repeat_length. lia.
Qed.

(** ** Storing and loading *)
Section Positions.
Variables (P : plan) (pos : string -> list Z -> Z) (u : setup) (l : string) (hs : list (list Z)) (nb k fr : Z) (hf : ncfile Z).
Hypothesis F : fits P u.
Hypothesis Il : In l (pl_colls P).
Hypothesis AC : accessed k nb = Ok fr.

Lemma part_of p : In p (su_parts u) -> coll_part P u l p.
Proof. now apply fits_part. Qed.
Lemma ranks_at i f m : nth_error (combine (map pt_sub (su_parts u)) hs) i = Some (f, m) <-> exists p, nth_error (su_parts u) i = Some p /\ f = pt_sub p /\ nth_error hs i = Some m.
Proof.
  rewrite combine_at, nth_error_map. split.
  - intros [E1 E2]. destruct (nth_error (su_parts u) i) as [p|]; [|discriminate]. injection E1 as <-. eauto.
  - intros (p & -> & -> & E). auto.
Qed.

Lemma store_file : hidden_sized u hs -> exists hf', write_ranks nb k (su_hidden u l) 0 (combine (map pt_sub (su_parts u)) hs) hf = Ok hf' /\
  (forall n at_, n <> l -> cells hf' n at_ = cells hf n at_) /\
  (forall i p m x, nth_error (su_parts u) i = Some p -> nth_error hs i = Some m -> owns (pt_sub p) x -> rd m (pixel_id (pt_sub p) x) = Ok (cells hf' l (0 :: x))).
Proof.
  intros [LH HS].
  destruct (write_ranks_spec true None l (su_hidden u l) 0 nb k fr (combine (map pt_sub (su_parts u)) hs) hf) as (hf' & E & _ & _ & O & V).
  - intros f m I. apply In_nth_error in I. destruct I as [i I]. apply ranks_at in I. destruct I as (p & Ep & -> & Em).
    apply (pixel_ready u l p m P); [apply part_of; now apply nth_error_In in Ep|now apply (HS i)].
  - intros [f m] [g n] I J. apply In_nth_error in I, J. destruct I as [i I], J as [j J]. apply ranks_at in I, J. destruct I as (p & Ep & -> & Em), J as (p' & Ep' & -> & Em'). cbn [fst].
    apply nth_error_In in Ep, Ep'. destruct F as (_ & _ & _ & _ & _ & _ & F1 & F2 & _). destruct (F1 p Ep) as [(A1 & A2 & _) A3]. destruct (F1 p' Ep') as [(B1 & B2 & _) B3].
    unfold same_array. rewrite A1, A2, A3, B1, B2, B3. split; [reflexivity|]. split; [reflexivity|]. split; [now apply F2|reflexivity].
  - apply pairs_intro. intros i j [f m] [g n] L Ei Ej. cbn [fst]. apply ranks_at in Ei, Ej. destruct Ei as (p & Ep & -> & Em), Ej as (p' & Ep' & -> & Em').
    destruct F as (_ & _ & _ & _ & _ & _ & _ & _ & F1 & _). exact (pairs_elim _ _ F1 i j p p' L Ep Ep').
  - intros n E. discriminate.
  - exact AC.
  - exists hf'. split; [exact E|]. split; [intros n at_ H; apply O; now left|]. intros i p m x Ep Em OW.
    assert (PF : pixel_field (pt_sub p)) by (apply (cp_sub P u l p), part_of; now apply nth_error_In in Ep).
    assert (I : nth_error (combine (map pt_sub (su_parts u)) hs) i = Some (pt_sub p, m)) by (apply ranks_at; eauto).
    specialize (V (pt_sub p) m [0] 0 _ (nth_error_In _ _ I) (pixel_indexes _ _ PF OW)). rewrite pixel_target in V by assumption. now apply pixel_holds in V.
Qed.
Lemma covered x : in_shape (pl_dom P) x -> exists i p, nth_error (su_parts u) i = Some p /\ owns (pt_sub p) x.
Proof.
  intros D. destruct F as (_ & _ & _ & _ & _ & _ & _ & _ & _ & F1 & _). destruct (F1 x D) as (p & I & O). apply In_nth_error in I. destruct I as [i I]. eauto.
Qed.
Lemma stored : all_list pos l u hs -> exists hf', write_ranks nb k (su_hidden u l) 0 (combine (map pt_sub (su_parts u)) hs) hf = Ok hf' /\
  (forall n at_, n <> l -> cells hf' n at_ = cells hf n at_) /\ in_file P pos l hf'.
Proof.
  intros [LH G]. destruct store_file as (hf' & E & O & V).
  { split; [exact LH|]. intros i p m Ep Em. now apply (G i p m). }
  exists hf'. split; [exact E|]. split; [exact O|]. intros x D. destruct (covered x D) as (i & p & Ep & OW). destruct (nth_lengths _ hs i p LH Ep) as [m Em].
  specialize (V i p m x Ep Em OW). destruct (G i p m Ep Em) as [_ GV]. rewrite (GV x OW) in V. now apply Ok_inj in V.
Qed.
Lemma loaded : hidden_sized u hs -> in_file P pos l hf -> exists hs', mapm (fun x => read_global nb k (su_hidden u l) 0 (fst x) hf (snd x)) (combine (map pt_sub (su_parts u)) hs) = Ok hs' /\ all_list pos l u hs'.
Proof.
  intros [LH HS] IF.
  assert (RA : forall i p m, nth_error (su_parts u) i = Some p -> nth_error hs i = Some m -> exists m', read_global nb k (su_hidden u l) 0 (pt_sub p) hf m = Ok m' /\ lists pos l p m').
  { intros i p m Ep Em. pose proof (part_of p (nth_error_In _ _ Ep)) as C. pose proof (HS i p m Ep Em) as L. destruct (pixel_ready u l p m P C L) as (R & HH & N1 & D).
    destruct (accessed_inv _ _ _ AC) as [HF F0].
    destruct (read_global_spec true None l (pt_sub p) (su_hidden u l) R HH N1 0 ltac:(discriminate) nb k fr m hf D HF F0 (or_introl eq_refl)) as (m' & E & LM & VR & _).
    exists m'. split; [exact E|]. split; [congruence|]. intros x OW. pose proof (cp_sub _ _ _ _ C) as PF. specialize (VR [0] 0 _ (pixel_indexes _ _ PF OW)). rewrite pixel_target in VR by assumption.
    apply pixel_holds in VR; [|exact PF|exact OW]. rewrite VR. f_equal. apply IF. exact (part_dom P u l p C x OW). }
  destruct (mapm_ok (fun x => read_global nb k (su_hidden u l) 0 (fst x) hf (snd x)) (combine (map pt_sub (su_parts u)) hs)) as [hs' E].
  { intros [f m] I. apply In_nth_error in I. destruct I as [i I]. apply ranks_at in I. destruct I as (p & Ep & -> & Em). destruct (RA i p m Ep Em) as (m' & E & _). eauto. }
  exists hs'. split; [exact E|]. apply mapm_at in E. destruct E as [L E]. rewrite combine_length, map_length, LH, Nat.min_id in L. split; [exact L|].
  intros i p m' Ep Em'. destruct (nth_lengths _ hs i p LH Ep) as [m Em]. destruct (E i (pt_sub p, m)) as (m1 & E1 & E2); [apply ranks_at; eauto|]. rewrite Em' in E1. injection E1 as <-.
  destruct (RA i p m Ep Em) as (m2 & E3 & LS). cbn [fst snd] in E2. rewrite E3 in E2. apply Ok_inj in E2. now subst m2.
Qed.
End Positions.

(** ** The invariant *)
Section Invariant.
Context {A : Type}.
Notation session := (session A).
Variables (P : plan) (pos : string -> list Z -> Z).

Record inv (s : session) (known : list string) : Prop := {
  inv_fits : fits P (se_setup s);
  inv_sized : sized P (se_setup s) (se_mem s);
  inv_numbers : forall l, In l (pl_colls P) -> numbers P pos l;
  inv_known : forall l, In l (pl_colls P) -> In l known -> in_file P pos l (se_hfile s);
  inv_written : forall l, In l (pl_colls P) -> In l (se_written s) -> in_file P pos l (se_hfile s);
  inv_shape : forall l, In l (pl_colls P) -> hidden_sized (se_setup s) (se_hidden s l);
  inv_list : forall l, In l (pl_colls P) -> se_mode s = Creating \/ In l (se_read s) -> all_list pos l (se_setup s) (se_hidden s l)
}.
(** What a transfer leaves alone. *)
Definition same_run (s s' : session) : Prop :=
  se_mode s' = se_mode s /\ se_setup s' = se_setup s /\ se_nb s' = se_nb s /\ incl (se_written s) (se_written s').
Lemma same_run_refl s : same_run s s.
Proof. repeat split. apply incl_refl. Qed.
Lemma same_run_trans a b c : same_run a b -> same_run b c -> same_run a c.
Proof. intros (A1 & A2 & A3 & A4) (B1 & B2 & B3 & B4). repeat split; try congruence. now apply (incl_tran A4). Qed.

Lemma memberb_in l ls : memberb l ls = true <-> In l ls.
Proof. unfold memberb. rewrite existsb_exists. split; [intros (x & I & E); apply String.eqb_eq in E; now subst|intros I; exists l; split; [exact I|apply String.eqb_refl]]. Qed.

Lemma all_list_sized l u hs : all_list pos l u hs -> hidden_sized u hs.
Proof. intros [L G]. split; [exact L|]. intros i p m Ep Em. now apply (G i p m). Qed.

Lemma store_spec s known l : inv s known -> In l (pl_colls P) -> se_mode s = Creating -> exists s' r, store l s = (s', r) /\ inv s' known /\ same_run s s' /\
  se_mem s' = se_mem s /\ se_file s' = se_file s /\ (r = Ok tt -> In l (se_written s')) /\ (accessed 0 (se_nb s) = Ok 0 -> r = Ok tt).
Proof.
  intros I Il EM. unfold store. destruct (memberb l (se_written s)) eqn:M.
  - apply memberb_in in M. exists s, (Ok tt). split; [reflexivity|]. split; [exact I|]. split; [apply same_run_refl|]. auto.
  - destruct (accessed_bad 0 (se_nb s)) as [[fr AC]|AC].
    + destruct (stored P pos (se_setup s) l (se_hidden s l) (se_nb s) 0 fr (se_hfile s) (inv_fits _ _ I) Il AC (inv_list _ _ I l Il (or_introl EM))) as (hf' & E & O & IF).
      change (map pt_sub (su_parts (se_setup s))) with (subs s) in E. rewrite E. eexists _, (Ok tt). split; [reflexivity|]. split; [|split; [|split; [|split; [|split]]]]; [|repeat split; cbn; now apply incl_appl, incl_refl|reflexivity|reflexivity|cbn; intros _; apply in_or_app; right; now left|reflexivity].
      assert (K : forall n, In n (pl_colls P) -> in_file P pos n (se_hfile s) -> in_file P pos n hf').
      { intros n In_ H. destruct (String.string_dec n l) as [->|N]; [exact IF|]. intros x D. rewrite O by exact N. now apply H. }
      constructor; cbn; try apply I.
      * intros n In_ Kn. apply K; [exact In_|]. now apply (inv_known _ _ I).
      * intros n In_ Kn. apply in_app_or in Kn. destruct Kn as [Kn|[<-|[]]]; [|exact IF]. apply K; [exact In_|]. now apply (inv_written _ _ I).
    + rewrite (write_ranks_bad _ _ _ _ _ _ AC).
      2: { apply combine_nonempty; [|unfold subs; rewrite map_length; apply (inv_shape _ _ I l Il)]. unfold subs. destruct (inv_fits _ _ I) as (_ & _ & _ & NE & _). destruct (su_parts (se_setup s)); [contradiction|discriminate]. }
      exists s, (Err FileIOError). split; [reflexivity|]. split; [exact I|]. split; [apply same_run_refl|]. split; [reflexivity|]. split; [reflexivity|]. split; [discriminate|congruence].
Qed.

Lemma mapm_bad {B C} (g : B -> res C) e (l : list B) : l <> [] -> (forall x, In x l -> g x = Err e) -> mapm g l = Err e.
Proof. destruct l as [|x l]; [contradiction|]. intros _ H. cbn [mapm]. now rewrite (H x (or_introl eq_refl)). Qed.

Lemma load_spec s known k l : inv s known -> In l (pl_colls P) -> In l known -> exists s' r, load k l s = (s', r) /\ inv s' known /\ same_run s s' /\
  se_mem s' = se_mem s /\ se_file s' = se_file s /\ (r = Ok tt -> all_list pos l (se_setup s') (se_hidden s' l)) /\ (forall fr, accessed k (se_nb s) = Ok fr -> r = Ok tt).
Proof.
  intros I Il Kl. unfold load. destruct (memberb l (se_read s)) eqn:M.
  - apply memberb_in in M. exists s, (Ok tt). split; [reflexivity|]. split; [exact I|]. split; [apply same_run_refl|]. split; [reflexivity|]. split; [reflexivity|]. split; [|reflexivity].
    intros _. apply (inv_list _ _ I l Il). now right.
  - destruct (accessed_bad k (se_nb s)) as [[fr AC]|AC].
    + destruct (loaded P pos (se_setup s) l (se_hidden s l) (se_nb s) k fr (se_hfile s) (inv_fits _ _ I) Il AC (inv_shape _ _ I l Il) (inv_known _ _ I l Il Kl)) as (hs' & E & AL).
      change (map pt_sub (su_parts (se_setup s))) with (subs s) in E. rewrite E. eexists _, (Ok tt). split; [reflexivity|].
      assert (SA : forall n, n <> l -> set_at l hs' (se_hidden s) n = se_hidden s n) by (intros n N; unfold set_at; now destruct (String.eqb_spec n l)).
      assert (SL : set_at l hs' (se_hidden s) l = hs') by (unfold set_at; now rewrite String.eqb_refl).
      split; [|split; [repeat split; apply incl_refl|split; [reflexivity|split; [reflexivity|split; [intros _; cbn; now rewrite SL|reflexivity]]]]].
      constructor; cbn; try apply I.
      * intros n In_. destruct (String.string_dec n l) as [->|N]; [rewrite SL; exact (all_list_sized l _ _ AL)|rewrite SA by exact N; now apply (inv_shape _ _ I)].
      * intros n In_ Hn. destruct (String.string_dec n l) as [->|N]; [rewrite SL; exact AL|rewrite SA by exact N]. apply (inv_list _ _ I n In_).
        destruct Hn as [Hn|Hn]; [now left|right]. apply in_app_or in Hn. destruct Hn as [Hn|[<-|[]]]; [exact Hn|contradiction].
    + rewrite (mapm_bad _ FileIOError).
      2: { apply combine_nonempty; [|unfold subs; rewrite map_length; apply (inv_shape _ _ I l Il)]. unfold subs. destruct (inv_fits _ _ I) as (_ & _ & _ & NE & _). destruct (su_parts (se_setup s)); [contradiction|discriminate]. }
      2: { intros [f m] _. now apply read_global_bad. }
      exists s, (Err FileIOError). split; [reflexivity|]. split; [exact I|]. split; [apply same_run_refl|]. split; [reflexivity|]. split; [reflexivity|]. split; [discriminate|congruence].
Qed.
End Invariant.
