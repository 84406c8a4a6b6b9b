(** The transfer of one entry of a variable by all processes. *)
From Coq Require Import String Sorting.Sorted.
From Verif Require Import Base CIntModel GridModel GridSpec GridProofs StridedModel StridedProofs LayoutModel LayoutSpec LayoutProofs LayoutProofs2 CommModel FrameModel RegistryModel.
From Verif Require Import NetCDFModel NetCDFSpec NetCDFProofs5 NetCDFProofs6 NetCDFProofs9 NetCDFProofs10 NetCDFProofs11 SessionModel SessionSpec SessionProofs.
Local Open Scope Z_scope.
Local Open Scope list_scope.

(** ** Positions of local pixels *)

(** The numbers given to the pixels of a collection. *)
Definition numbers (P : plan) (pos : string -> list Z -> Z) (l : string) : Prop :=
  forall x, in_shape (pl_dom P) x ->
    (pl_pixels P l x -> 0 <= pos l x < pl_total P l) /\ (pos l x <> -1 -> pl_pixels P l x) /\
    forall y, in_shape (pl_dom P) y -> pl_pixels P l x -> pl_pixels P l y -> pos l x = pos l y -> x = y.
(** The memory of a process for them. *)
Definition lists (pos : string -> list Z -> Z) (l : string) (p : part) (m : list Z) : Prop :=
  Z.of_nat (length m) = l_npix (nf_lay (pt_sub p)) /\
  forall x, owns (pt_sub p) x -> rd m (pixel_id (pt_sub p) x) = Ok (pos l x).

Record coll_part (P : plan) (u : setup) (l : string) (p : part) : Prop := {
  cp_sub : pixel_field (pt_sub p);
  cp_dom : nf_dom (pt_sub p) = pl_dom P;
  cp_total : 0 < pl_total P l;
  cp_hidden : registered_pixels l (pt_sub p) (su_hidden u l);
  cp_sorted : StronglySorted Z.lt (pt_ids p l);
  cp_ids : forall i, In i (pt_ids p l) -> exists x, owns (pt_sub p) x /\ i = pixel_id (pt_sub p) x;
  cp_pixels : forall x, owns (pt_sub p) x -> (In (pixel_id (pt_sub p) x) (pt_ids p l) <-> pl_pixels P l x)
}.
Lemma fits_part P u l p : fits P u -> In l (pl_colls P) -> In p (su_parts u) -> coll_part P u l p.
Proof.
  intros (_ & _ & _ & _ & _ & _ & F1 & _ & _ & _ & F2) Il Ip. destruct (F1 p Ip) as [A1 A2]. destruct (F2 l Il) as (T & _ & B). destruct (B p Ip) as (B1 & B2 & B3 & B4).
  constructor; assumption.
Qed.

Section Positions.
Variables (P : plan) (u : setup) (l : string) (p : part) (pos : string -> list Z -> Z) (m : list Z).
Hypothesis CP : coll_part P u l p.
Hypothesis NU : numbers P pos l.
Hypothesis LM : lists pos l p m.

Lemma part_dom x : owns (pt_sub p) x -> in_shape (pl_dom P) x.
Proof. intros O. rewrite <- (cp_dom _ _ _ _ CP). apply owns_dom; [apply (cp_sub _ _ _ _ CP)|exact O]. Qed.
Lemma part_selected : selected m = pt_ids p l.
Proof.
  apply sorted_ext; [apply selected_sorted|apply (cp_sorted _ _ _ _ CP)|]. intros i. rewrite selected_in.
  destruct LM as [L V]. rewrite L. destruct (pixel_facts _ (cp_sub _ _ _ _ CP)) as (_ & _ & NN & PR & _ & PS). split.
  - intros [B N]. destruct (PS i B) as (x & O & <-). apply (cp_pixels _ _ _ _ CP x O). destruct (NU x (part_dom x O)) as (_ & N2 & _).
    apply N2. specialize (V x O). rewrite rd_zat in V by lia. apply Ok_inj in V. congruence.
  - intros I. destruct (cp_ids _ _ _ _ CP i I) as (x & O & ->). split; [now apply PR|]. apply (cp_pixels _ _ _ _ CP x O) in I.
    destruct (NU x (part_dom x O)) as (N1 & _). specialize (N1 I). specialize (V x O). specialize (PR x O). rewrite rd_zat in V by lia. apply Ok_inj in V. lia.
Qed.
Lemma part_request j x : owns (pt_sub p) x -> nth_error (pt_ids p l) j = Some (pixel_id (pt_sub p) x) -> nth_error (requests m) j = Some (pos l x).
Proof.
  intros O J. rewrite requests_selected, part_selected, (map_nth_error _ _ _ J). f_equal. destruct LM as [L V]. specialize (V x O).
  destruct (pixel_facts _ (cp_sub _ _ _ _ CP)) as (_ & _ & NN & PR & _). specialize (PR x O). rewrite rd_zat in V by lia. now apply Ok_inj in V.
Qed.
Lemma part_requests o : In o (requests m) -> exists x, owns (pt_sub p) x /\ pl_pixels P l x /\ o = pos l x.
Proof.
  rewrite requests_selected, part_selected. intros I. apply in_map_iff in I. destruct I as (i & <- & I). destruct (cp_ids _ _ _ _ CP i I) as (x & O & ->).
  exists x. split; [exact O|]. split; [now apply (cp_pixels _ _ _ _ CP x O)|]. destruct LM as [L V]. specialize (V x O).
  destruct (pixel_facts _ (cp_sub _ _ _ _ CP)) as (_ & _ & NN & PR & _). specialize (PR x O). rewrite rd_zat in V by lia. now apply Ok_inj in V.
Qed.
Lemma part_length : length (requests m) = length (pt_ids p l).
Proof. now rewrite requests_selected, map_length, part_selected. Qed.
Lemma part_bounds : Forall (fun o => 0 <= o < pl_total P l) (requests m).
Proof.
  apply Forall_forall. intros o I. destruct (part_requests o I) as (x & O & X & ->). now apply (NU x (part_dom x O)).
Qed.
Lemma part_nodup : NoDup (requests m).
Proof.
  apply NoDup_nth_error. intros i j Li E. destruct (nth_error (requests m) i) as [o|] eqn:Ei; [|apply nth_error_None in Ei; lia]. symmetry in E.
  assert (X : forall n, nth_error (requests m) n = Some o -> exists x, owns (pt_sub p) x /\ pl_pixels P l x /\ nth_error (pt_ids p l) n = Some (pixel_id (pt_sub p) x) /\ o = pos l x).
  { intros n En. assert (L : (n < length (pt_ids p l))%nat) by (rewrite <- part_length; apply nth_error_Some; congruence).
    destruct (nth_error (pt_ids p l) n) as [d|] eqn:Ed; [|apply nth_error_None in Ed; lia]. pose proof (nth_error_In _ _ Ed) as Id.
    destruct (cp_ids _ _ _ _ CP d Id) as (x & O & ->). exists x. split; [exact O|]. split; [now apply (cp_pixels _ _ _ _ CP x O)|]. split; [reflexivity|].
    rewrite (part_request n x O Ed) in En. now injection En. }
  destruct (X i Ei) as (x & Ox & Px & Nx & Qx). destruct (X j E) as (y & Oy & Py & Ny & Qy).
  assert (x = y) by (apply (NU x (part_dom x Ox)); [now apply part_dom|assumption|assumption|congruence]). subst y.
  apply (proj1 (NoDup_nth_error (pt_ids p l)) (sorted_nodup _ (cp_sorted _ _ _ _ CP)) i j); [apply nth_error_Some; congruence|congruence].
Qed.
End Positions.

(** ** Entries *)
Definition where_ (pos : string -> list Z -> Z) (q : quantity) (x : list Z) : list Z :=
  match q_local q with None => x | Some l => [pos l x] end.
(** The positions are known to all processes. *)
Definition all_list (pos : string -> list Z -> Z) (l : string) (u : setup) (hs : list (list Z)) : Prop :=
  length hs = length (su_parts u) /\
  forall i p m, nth_error (su_parts u) i = Some p -> nth_error hs i = Some m -> lists pos l p m.

Section Entries.
Context {A : Type}.
Notation session := (session A).
Variables (P : plan) (pos : string -> list Z -> Z).
Variables (s : session) (q : quantity) (v : ncvar) (h k : Z).
Let u := se_setup s.
Hypothesis F : fits P u.
Hypothesis SZ : sized P u (se_mem s).
Hypothesis Iq : In q (pl_quantities P).
Hypothesis V : var_of P u q v.
Hypothesis EH : entry_of q h.
Hypothesis NU : forall l, q_local q = Some l -> numbers P pos l /\ all_list pos l u (se_hidden s l).

Let sv := mk_svar v (q_local q).
Let name := q_name q.

Lemma fields_at i p : nth_error (su_parts u) i = Some p -> nth_error (fields_of s sv) i = Some (pt_field p name).
Proof. intros E. unfold fields_of. cbn [sv sv_var]. rewrite (vo_name _ _ _ _ V). fold u. now rewrite (map_nth_error _ _ _ E). Qed.
Lemma fields_from i f : nth_error (fields_of s sv) i = Some f -> exists p, nth_error (su_parts u) i = Some p /\ f = pt_field p name.
Proof.
  unfold fields_of. cbn [sv sv_var]. rewrite (vo_name _ _ _ _ V). fold u. rewrite nth_error_map. destruct (nth_error (su_parts u) i) as [p|]; [|discriminate].
  intros E. injection E as <-. eauto.
Qed.
Lemma fields_length : length (fields_of s sv) = length (su_parts u).
Proof. unfold fields_of. apply map_length. Qed.
Lemma parts_some : su_parts u <> [].
Proof. apply F. Qed.
Lemma mems_length : length (se_mem s name h) = length (su_parts u).
Proof. now apply (SZ q h). Qed.

Lemma sane_global p m i : q_local q = None -> nth_error (su_parts u) i = Some p -> nth_error (se_mem s name h) i = Some m -> sane (nf_lay (pt_field p name)).
Proof. intros EL Ep Em. destruct (SZ q h Iq EH) as [_ H]. specialize (H i p m Ep Em). rewrite EL in H. apply H. Qed.
Lemma local_shape l p m i : q_local q = Some l -> nth_error (su_parts u) i = Some p -> nth_error (se_mem s name h) i = Some m ->
  local_field (pt_field p name) (Z.of_nat (length (pt_ids p l))) m.
Proof. intros EL Ep Em. destruct (SZ q h Iq EH) as [_ H]. specialize (H i p m Ep Em). now rewrite EL in H. Qed.

(** What the file holds after a write. *)
Definition put (fr : Z) (file file' : ncfile A) : Prop :=
  recs file <= recs file' /\ fr < recs file' /\
  (forall n at_, (n <> name \/ forall c b y, at_ <> at_of q fr h c b y) -> cells file' n at_ = cells file n at_) /\
  (forall i c b x a, in_shape (q_comp q) c -> 0 <= b < q_nsub q -> has_value s i q h c b x a -> cells file' name (at_of q fr h c b (where_ pos q x)) = a).

Lemma write_entry_global fr : q_local q = None -> accessed k (se_nb s) = Ok fr -> exists file',
  write_ranks (se_nb s) k v h (combine (fields_of s sv) (se_mem s name h)) (se_file s) = Ok file' /\ put fr (se_file s) file'.
Proof.
  intros EL AC. pose proof mems_length as ML.
  assert (RA : forall i f m, nth_error (combine (fields_of s sv) (se_mem s name h)) i = Some (f, m) ->
    exists p, nth_error (su_parts u) i = Some p /\ f = pt_field p name /\ nth_error (se_mem s name h) i = Some m /\ distributed f m /\ registered (q_hist q) name f v /\ nf_dom f = pl_dom P /\ shaped P q f).
  { intros i f m E. apply combine_at in E. destruct E as [E1 E2]. destruct (fields_from i f E1) as (p & Ep & ->). exists p. split; [exact Ep|]. split; [reflexivity|]. split; [exact E2|].
    destruct (SZ q h Iq EH) as [_ H]. specialize (H i p m Ep E2). rewrite EL in H. split; [exact H|]. destruct (vo_parts _ _ _ _ V p (nth_error_In _ _ Ep)) as [S R]. rewrite EL in R. destruct R as [R1 R2]. split; [exact R1|]. split; [exact R2|exact S]. }
  destruct (write_ranks_spec false (q_hist q) name v h (se_nb s) k fr (combine (fields_of s sv) (se_mem s name h)) (se_file s)) as (file' & E & G1 & G2 & O & W).
  - intros f m I. apply In_nth_error in I. destruct I as [i I]. destruct (RA i f m I) as (p & _ & _ & _ & D & R & _). now apply registered_ready.
  - intros [f m] [g n] If Ig. apply In_nth_error in If, Ig. destruct If as [i If], Ig as [j Ig]. destruct (RA i f m If) as (_ & _ & _ & _ & _ & _ & D1 & A1 & A2 & A3). destruct (RA j g n Ig) as (_ & _ & _ & _ & _ & _ & D2 & B1 & B2 & B3).
    cbn [fst]. unfold same_array. rewrite A1, A2, A3, B1, B2, B3, D1, D2. auto.
  - destruct F as (_ & _ & FD & _). specialize (FD q Iq EL). apply pairs_intro. intros i j [f m] [g n] L Ei Ej. cbn [fst].
    destruct (RA i f m Ei) as (p & Ep & -> & _). destruct (RA j g n Ej) as (p' & Ep' & -> & _). exact (pairs_elim _ _ FD i j p p' L Ep Ep').
  - now apply entry_entry.
  - exact AC.
  - exists file'. split; [exact E|]. split; [exact G1|]. split; [apply G2; [reflexivity|]|].
    + apply combine_nonempty; [|rewrite fields_length; exact ML]. pose proof parts_some as N. intros Z0. pose proof fields_length as L. rewrite Z0 in L. destruct (su_parts u); [contradiction|discriminate].
    + split.
      * intros n at_ H. apply O. destruct H as [H|H]; [now left|right]. intros f m c b x I X Q. apply In_nth_error in I. destruct I as [i I]. destruct (RA i f m I) as (p & Ep & Ef & Em & D & _ & _ & S1 & S2 & _).
        unfold target in Q. rewrite (cell_at q) in Q; [|apply D|exact S1|exact S2]. now apply H in Q.
      * intros i c b x a Hc Hb (p & m & Ep & Em & HV). rewrite EL in HV. destruct HV as [OW HV]. unfold where_. rewrite EL.
        assert (Ic : nth_error (combine (fields_of s sv) (se_mem s name h)) i = Some (pt_field p name, m)) by (apply combine_at; split; [now apply fields_at|exact Em]).
        destruct (RA i _ m Ic) as (p' & Ep' & _ & _ & D & _ & _ & S1 & S2 & _). change (q_name q) with name in HV, OW. pose proof D as (Sn & _ & L1 & L2 & _).
        assert (X : indexes (nf_lay (pt_field p name)) c b (shift (nf_loc (pt_field p name)) x)).
        { split; [now rewrite S1|]. split; [now rewrite S2|]. apply owns_shift; [congruence|exact OW]. }
        specialize (W (pt_field p name) m c b _ (nth_error_In _ _ Ic) X). pose proof (holds_inj _ _ _ _ _ _ _ W HV) as Q. unfold target in Q.
        rewrite plus_shift in Q by (destruct OW as [Lx _]; congruence). now rewrite (cell_at q) in Q.
Qed.

Lemma hidden_at l i p hs : q_local q = Some l -> nth_error (su_parts u) i = Some p -> nth_error (se_hidden s l) i = Some hs -> coll_part P u l p /\ numbers P pos l /\ lists pos l p hs.
Proof.
  intros EL Ep Eh. destruct (NU l EL) as [N [_ G]]. split; [|split; [exact N|now apply (G i)]].
  apply fits_part; [exact F|now apply (vo_coll _ _ _ _ V)|now apply nth_error_In in Ep].
Qed.
Lemma spot_at f fr c b o : sane (nf_lay f) -> shaped P q f -> spot (q_hist q) f h fr c b o = at_of q fr h c b [o].
Proof. intros S (S1 & S2 & _). unfold spot. now apply cell_at. Qed.
Lemma local_sane f n (m : list A) : local_field f n m -> sane (nf_lay f).
Proof. intros LF. apply (lf_sane f n (ex_intro _ m LF)). Qed.

Lemma triple_at {B C D} (a : list B) (b : list C) (c : list D) i x y z :
  nth_error (combine (combine a b) c) i = Some (x, y, z) <-> nth_error a i = Some x /\ nth_error b i = Some y /\ nth_error c i = Some z.
Proof. rewrite combine_at, combine_at. tauto. Qed.

Lemma write_entry_local l fr : q_local q = Some l -> accessed k (se_nb s) = Ok fr -> exists file',
  write_local_ranks (se_nb s) k v h (combine (combine (fields_of s sv) (se_hidden s l)) (se_mem s name h)) (se_file s) = Ok file' /\ put fr (se_file s) file'.
Proof.
  intros EL AC. pose proof mems_length as ML. destruct (NU l EL) as [N [HL G]].
  assert (T : 0 < pl_total P l).
  { pose proof parts_some as NE. destruct (su_parts u) as [|p0 r] eqn:EP; [contradiction|].
    apply (cp_total P u l p0). apply fits_part; [exact F|now apply (vo_coll _ _ _ _ V)|rewrite EP; now left]. }
  assert (RA : forall i f px m, nth_error (combine (combine (fields_of s sv) (se_hidden s l)) (se_mem s name h)) i = Some (f, px, m) ->
    exists p, nth_error (su_parts u) i = Some p /\ f = pt_field p name /\ coll_part P u l p /\ lists pos l p px /\
      nth_error (se_mem s name h) i = Some m /\ local_field f (Z.of_nat (length (pt_ids p l))) m /\ registered_local (pl_total P l) (q_hist q) name f v /\ shaped P q f).
  { intros i f px m E. apply triple_at in E. destruct E as (E1 & E2 & E3). destruct (fields_from i f E1) as (p & Ep & ->). exists p. split; [exact Ep|]. split; [reflexivity|].
    destruct (hidden_at l i p px EL Ep E2) as (C1 & _ & C2). split; [exact C1|]. split; [exact C2|]. split; [exact E3|]. split; [now apply (local_shape l p m i)|].
    destruct (vo_parts _ _ _ _ V p (nth_error_In _ _ Ep)) as [S R]. rewrite EL in R. split; [exact R|exact S]. }
  destruct (write_local_ranks_spec (pl_total P l) (q_hist q) name v h (se_nb s) k fr (q_comp q) (q_nsub q) T (vo_comp _ _ _ _ V) (entry_entry q h EH) AC
              (combine (combine (fields_of s sv) (se_hidden s l)) (se_mem s name h)) (se_file s)) as (file' & E & G1 & G2 & O & W).
  - intros f px m I. apply In_nth_error in I. destruct I as [i I]. destruct (RA i f px m I) as (p & Ep & Ef & C1 & C2 & Em & LF & R & S1 & S2 & _).
    split; [exact S1|]. split; [exact S2|]. split; [exact R|]. split; [|split].
    + exists (Z.of_nat (length (pt_ids p l))). split; [exact LF|]. rewrite (part_length P u l p pos px C1 N C2). lia.
    + exact (part_bounds P u l p pos px C1 N C2).
    + exact (part_nodup P u l p pos px C1 N C2).
  - apply pairs_intro. intros i j [[f px] m] [[f' px'] m'] L Ei Ej o Ho Ho'. cbn [fst snd] in Ho, Ho'.
    destruct (RA i f px m Ei) as (p & Ep & _ & C1 & C2 & _). destruct (RA j f' px' m' Ej) as (p' & Ep' & _ & C1' & C2' & _).
    destruct (part_requests P u l p pos px C1 N C2 o Ho) as (x & Ox & Px & Qx). destruct (part_requests P u l p' pos px' C1' N C2' o Ho') as (y & Oy & Py & Qy).
    assert (x = y) by (apply (N x (part_dom _ _ _ _ C1 x Ox)); [now apply (part_dom _ _ _ _ C1')|assumption|assumption|congruence]). subst y.
    destruct F as (_ & _ & _ & _ & _ & _ & _ & _ & FD & _). exact (pairs_elim _ _ FD i j p p' L Ep Ep' x Ox Oy).
  - exists file'. split; [exact E|]. split; [exact G1|].
    assert (PN : exists i p, nth_error (su_parts u) i = Some p /\ pt_ids p l <> []).
    { destruct F as (_ & _ & _ & _ & _ & _ & _ & _ & _ & _ & FC). destruct (FC l (vo_coll _ _ _ _ V l EL)) as (_ & FC1 & _).
      clear - FC1 T. rewrite <- FC1 in T. clear FC1. induction (su_parts u) as [|p r IH]; [cbn in T; lia|]. destruct (pt_ids p l) as [|d ds] eqn:Ed.
      - cbn [map] in T. rewrite Ed in T. cbn [length] in T. change (Z.of_nat 0) with 0 in T. cbn [zsum fold_right] in T; rewrite Z.add_0_l in T. destruct (IH T) as (i & p' & E & N). exists (S i), p'. auto.
      - exists 0%nat, p. split; [reflexivity|]. rewrite Ed. discriminate. }
    split; [|split].
    + destruct PN as (i & p & Ep & NE). destruct (nth_lengths _ (se_hidden s l) i p HL Ep) as [px Eh]. destruct (nth_lengths _ (se_mem s name h) i p ML Ep) as [m Em].
      assert (Ic : nth_error (combine (combine (fields_of s sv) (se_hidden s l)) (se_mem s name h)) i = Some (pt_field p name, px, m)) by (apply triple_at; split; [now apply fields_at|auto]).
      apply (G2 _ _ _ (nth_error_In _ _ Ic)). destruct (RA i _ px m Ic) as (p' & Ep' & _ & C1 & C2 & _). pose proof (eq_trans (eq_sym Ep) Ep') as Q0; injection Q0 as <-.
      pose proof (part_length P u l p pos px C1 N C2) as Q. intros Z0. rewrite Z0 in Q. destruct (pt_ids p l); [contradiction|discriminate].
    + intros n at_ H. apply O. destruct H as [H|H]; [now left|right]. intros f px m c b o I Hc Hb Ho Q. apply In_nth_error in I. destruct I as [i I].
      destruct (RA i f px m I) as (p & Ep & Ef & C1 & C2 & Em & LF & R & S). rewrite (spot_at f fr c b o (local_sane _ _ _ LF) S) in Q. now apply H in Q.
    + intros i c b x a Hc Hb (p & m & Ep & Em & HV). rewrite EL in HV. destruct HV as (j & OW & Ej & HV). unfold where_. rewrite EL. change (q_name q) with name in HV.
      destruct (nth_lengths _ (se_hidden s l) i p HL Ep) as [px Eh].
      assert (Ic : nth_error (combine (combine (fields_of s sv) (se_hidden s l)) (se_mem s name h)) i = Some (pt_field p name, px, m)) by (apply triple_at; split; [now apply fields_at|auto]).
      destruct (RA i _ px m Ic) as (p' & Ep' & _ & C1 & C2 & _ & LF & _ & S). pose proof (eq_trans (eq_sym Ep) Ep') as Q0; injection Q0 as <-.
      specialize (W (pt_field p name) px m c b j (pos l x) (nth_error_In _ _ Ic) Hc Hb (part_request P u l p pos px C1 N C2 j x OW Ej)).
      rewrite (spot_at _ fr c b _ (local_sane _ _ _ LF) S) in W. exact (holds_inj _ _ _ _ _ _ _ W HV).
Qed.

(** A write changes only the file, and succeeds if the frame exists. *)
Lemma place_known : q_local q = None \/ exists l, q_local q = Some l.
Proof. destruct (q_local q); eauto. Qed.
Definition written_file : res (ncfile A) :=
  match q_local q with
  | None => write_ranks (se_nb s) k v h (combine (fields_of s sv) (se_mem s name h)) (se_file s)
  | Some l => write_local_ranks (se_nb s) k v h (combine (combine (fields_of s sv) (se_hidden s l)) (se_mem s name h)) (se_file s)
  end.
Lemma fields_some : fields_of s sv <> [].
Proof. pose proof parts_some as N. intros Z0. pose proof fields_length as L. rewrite Z0 in L. destruct (su_parts u); [contradiction|discriminate]. Qed.
Lemma written_ok fr : accessed k (se_nb s) = Ok fr -> exists file', written_file = Ok file' /\ put fr (se_file s) file'.
Proof.
  intros AC. unfold written_file. destruct place_known as [EL|[l EL]].
  - destruct (write_entry_global fr EL AC) as (file' & E & PT). exists file'. split; [|exact PT]. etransitivity; [|exact E]. now rewrite EL.
  - destruct (write_entry_local l fr EL AC) as (file' & E & PT). exists file'. split; [|exact PT]. etransitivity; [|exact E]. now rewrite EL.
Qed.
Lemma written_bad : accessed k (se_nb s) = Err FileIOError -> written_file = Err FileIOError.
Proof.
  intros AC. unfold written_file. pose proof fields_some as FN. destruct place_known as [EL|[l EL]].
  - transitivity (write_ranks (se_nb s) k v h (combine (fields_of s sv) (se_mem s name h)) (se_file s)); [now rewrite EL|].
    apply write_ranks_bad; [exact AC|]. apply combine_nonempty; [exact FN|rewrite fields_length; apply mems_length].
  - transitivity (write_local_ranks (se_nb s) k v h (combine (combine (fields_of s sv) (se_hidden s l)) (se_mem s name h)) (se_file s)); [now rewrite EL|].
    destruct (NU l EL) as [_ [HL _]]. apply write_local_ranks_bad; [exact AC|].
    apply combine_nonempty; [apply combine_nonempty; [exact FN|now rewrite fields_length]|rewrite combine_length, fields_length, mems_length, HL; lia].
Qed.
Lemma write_entry_unfold : write_entry k sv h s =
  let r := if match se_mode s with Reading => negb (unplaced s sv) | _ => false end then Err FileIOError else written_file in
  match r with Ok f => (with_file s f, Ok tt) | _ => (s, failed r) end.
Proof. unfold write_entry, written_file. cbn [sv sv_var sv_local]. rewrite (vo_name _ _ _ _ V). reflexivity. Qed.
Lemma write_entry_spec : exists file' r, write_entry k sv h s = (with_file s file', r) /\
  ((file' = se_file s /\ r <> Ok tt) \/ (r = Ok tt /\ exists fr, accessed k (se_nb s) = Ok fr /\ put fr (se_file s) file')) /\
  (se_mode s <> Reading -> forall fr, accessed k (se_nb s) = Ok fr -> r = Ok tt).
Proof.
  assert (SW : s = with_file s (se_file s)) by (destruct s; reflexivity). rewrite write_entry_unfold. cbv zeta.
  destruct (accessed_bad k (se_nb s)) as [[fr AC]|AC].
  - destruct (written_ok fr AC) as (file' & E & PT). rewrite E. destruct (match se_mode s with Reading => negb (unplaced s sv) | _ => false end) eqn:EM.
    + exists (se_file s), (Err FileIOError). rewrite <- SW. split; [reflexivity|]. split; [left; split; [reflexivity|discriminate]|]. intros NR. destruct (se_mode s); [discriminate|discriminate|contradiction].
    + exists file', (Ok tt). split; [reflexivity|]. split; [right; split; [reflexivity|eauto]|reflexivity].
  - rewrite (written_bad AC). exists (se_file s), (Err FileIOError). rewrite <- SW. split; [now destruct (match se_mode s with Reading => negb (unplaced s sv) | _ => false end)|]. split; [left; split; [reflexivity|discriminate]|]. intros _ fr E. congruence.
Qed.

(** Reading *)
Definition read_mems : res (list (list A)) :=
  match q_local q with
  | None => mapm (fun x => read_global (se_nb s) k v h (fst x) (se_file s) (snd x)) (combine (fields_of s sv) (se_mem s name h))
  | Some l => mapm (fun x => read_local (se_nb s) k v h (fst (fst x)) (snd (fst x)) (se_file s) (snd x)) (combine (combine (fields_of s sv) (se_hidden s l)) (se_mem s name h))
  end.
Definition put_mem (ms : list (list A)) : string -> Z -> list (list A) :=
  fun n e => if String.eqb n name && (e =? h) then ms else se_mem s n e.
Lemma read_entry_unfold : read_entry k sv h s = match read_mems with Ok ms => (with_mem s (put_mem ms), Ok tt) | _ => (s, failed read_mems) end.
Proof. unfold read_entry, read_mems, put_mem. cbn [sv sv_var sv_local]. rewrite (vo_name _ _ _ _ V). reflexivity. Qed.
Lemma read_mems_len ms : read_mems = Ok ms -> length ms = length (se_mem s name h) /\ forall i m, nth_error (se_mem s name h) i = Some m -> exists m', nth_error ms i = Some m' /\ length m' = length m.
Proof.
  unfold read_mems. pose proof mems_length as ML. destruct place_known as [EL|[l EL]].
  - intros E. assert (E' : mapm (fun x => read_global (se_nb s) k v h (fst x) (se_file s) (snd x)) (combine (fields_of s sv) (se_mem s name h)) = Ok ms) by (etransitivity; [|exact E]; now rewrite EL).
    clear E. apply mapm_at in E'. destruct E' as [L H]. rewrite combine_length, fields_length, ML, Nat.min_id in L. split; [congruence|]. intros i m Em.
    destruct (nth_lengths _ (su_parts u) i m (eq_sym ML) Em) as [p Ep]. destruct (H i (pt_field p name, m)) as (m' & E1 & E2).
    + apply combine_at. split; [now apply fields_at|exact Em].
    + exists m'. split; [exact E1|]. now apply read_global_len in E2.
  - intros E. assert (E' : mapm (fun x => read_local (se_nb s) k v h (fst (fst x)) (snd (fst x)) (se_file s) (snd x)) (combine (combine (fields_of s sv) (se_hidden s l)) (se_mem s name h)) = Ok ms) by (etransitivity; [|exact E]; now rewrite EL).
    clear E. destruct (NU l EL) as [_ [HL _]]. apply mapm_at in E'. destruct E' as [L H]. rewrite !combine_length, fields_length, HL, ML, !Nat.min_id in L. split; [congruence|]. intros i m Em.
    destruct (nth_lengths _ (su_parts u) i m (eq_sym ML) Em) as [p Ep]. destruct (nth_lengths _ (se_hidden s l) i p HL Ep) as [px Eh]. destruct (H i (pt_field p name, px, m)) as (m' & E1 & E2).
    + apply triple_at. split; [now apply fields_at|auto].
    + exists m'. split; [exact E1|]. now apply read_local_len in E2.
Qed.
Definition lengths_kept (mem mem' : string -> Z -> list (list A)) : Prop :=
  forall n e, length (mem' n e) = length (mem n e) /\ forall i m, nth_error (mem n e) i = Some m -> exists m', nth_error (mem' n e) i = Some m' /\ length m' = length m.
Lemma lengths_refl mem : lengths_kept mem mem.
Proof. intros n e. split; [reflexivity|]. eauto. Qed.
Lemma read_entry_any : exists mem' r, read_entry k sv h s = (with_mem s mem', r) /\ lengths_kept (se_mem s) mem' /\ (forall n e, n <> name \/ e <> h -> mem' n e = se_mem s n e).
Proof.
  assert (SW : s = with_mem s (se_mem s)) by (destruct s; reflexivity). rewrite read_entry_unfold. destruct read_mems as [ms| |] eqn:E.
  - exists (put_mem ms), (Ok tt). split; [reflexivity|]. unfold put_mem. split.
    + intros n e. destruct (String.eqb_spec n name) as [->|]; cbn [andb]; [|apply lengths_refl]. destruct (Z.eqb_spec e h) as [->|]; [|apply lengths_refl]. now apply read_mems_len.
    + intros n e H. destruct (String.eqb_spec n name) as [->|]; cbn [andb]; [|reflexivity]. destruct (Z.eqb_spec e h) as [->|]; [|reflexivity]. destruct H; contradiction.
  - eexists (se_mem s), _. rewrite <- SW. split; [reflexivity|]. split; [apply lengths_refl|reflexivity].
  - eexists (se_mem s), _. rewrite <- SW. split; [reflexivity|]. split; [apply lengths_refl|reflexivity].
Qed.
Lemma read_entry_ok fr : accessed k (se_nb s) = Ok fr -> fr < recs (se_file s) -> exists mem',
  read_entry k sv h s = (with_mem s mem', Ok tt) /\ lengths_kept (se_mem s) mem' /\ (forall n e, n <> name \/ e <> h -> mem' n e = se_mem s n e) /\
  forall i c b x, in_shape (q_comp q) c -> 0 <= b < q_nsub q -> has_pixel s i q x -> has_value (with_mem s mem') i q h c b x (cells (se_file s) name (at_of q fr h c b (where_ pos q x))).
Proof.
  intros AC FR. pose proof mems_length as ML.
  assert (X : exists ms, read_mems = Ok ms /\ forall i c b x, in_shape (q_comp q) c -> 0 <= b < q_nsub q -> has_pixel s i q x -> has_value (with_mem s (put_mem ms)) i q h c b x (cells (se_file s) name (at_of q fr h c b (where_ pos q x)))).
  { destruct place_known as [EL|[l EL]].
    - assert (RM : read_mems = mapm (fun x => read_global (se_nb s) k v h (fst x) (se_file s) (snd x)) (combine (fields_of s sv) (se_mem s name h))) by (unfold read_mems; now rewrite EL).
      rewrite RM. clear RM. assert (RA : forall i p m, nth_error (su_parts u) i = Some p -> nth_error (se_mem s name h) i = Some m -> exists m', read_global (se_nb s) k v h (pt_field p name) (se_file s) m = Ok m' /\
         forall c b x, in_shape (q_comp q) c -> 0 <= b < q_nsub q -> owns (pt_field p name) x -> holds (nf_lay (pt_field p name)) m' c b (shift (nf_loc (pt_field p name)) x) (cells (se_file s) name (at_of q fr h c b x))).
      { intros i p m Ep Em. destruct (SZ q h Iq EH) as [_ H]. specialize (H i p m Ep Em). rewrite EL in H. change (q_name q) with name in H. destruct (vo_parts _ _ _ _ V p (nth_error_In _ _ Ep)) as [(S1 & S2 & _) R]. rewrite EL in R.
        change (q_name q) with name in R, S1, S2. destruct R as [R1 R2]. destruct (registered_ready _ _ _ _ _ R1 H) as (R & HH & N1 & _). destruct (accessed_inv _ _ _ AC) as [HF F0].
        destruct (read_global_spec false (q_hist q) name _ v R HH N1 h (entry_entry q h EH) (se_nb s) k fr m (se_file s) H HF F0 (or_intror FR)) as (m' & E & _ & VR & _).
        exists m'. split; [exact E|]. intros c b x Hc Hb OW. pose proof H as (Sn & _ & L1 & L2 & _).
        assert (XI : indexes (nf_lay (pt_field p name)) c b (shift (nf_loc (pt_field p name)) x)).
        { split; [now rewrite S1|]. split; [now rewrite S2|]. apply owns_shift; [congruence|exact OW]. }
        specialize (VR c b _ XI). unfold target in VR. rewrite plus_shift in VR by (destruct OW as [Lx _]; congruence). now rewrite (cell_at q) in VR. }
      destruct (mapm_ok (fun x => read_global (se_nb s) k v h (fst x) (se_file s) (snd x)) (combine (fields_of s sv) (se_mem s name h))) as [ms Ems].
      { intros [f m] I. apply In_nth_error in I. destruct I as [i I]. apply combine_at in I. destruct I as [I1 I2]. destruct (fields_from i f I1) as (p & Ep & ->). destruct (RA i p m Ep I2) as (m' & E & _). eauto. }
      exists ms. split; [exact Ems|]. intros i c b x Hc Hb (p & Ep & HO). rewrite EL in HO. destruct (nth_lengths _ (se_mem s name h) i p ML Ep) as [m Em].
      apply mapm_at in Ems. destruct Ems as [_ Ems]. destruct (Ems i (pt_field p name, m)) as (m' & E1 & E2); [apply combine_at; split; [now apply fields_at|exact Em]|].
      exists p, m'. split; [exact Ep|]. split; [cbn [with_mem se_mem]; unfold put_mem; now rewrite String.eqb_refl, Z.eqb_refl|]. rewrite EL. cbv zeta. split; [exact HO|].
      destruct (RA i p m Ep Em) as (m'' & E & H). cbn [fst snd] in E2. rewrite E in E2. apply Ok_inj in E2. subst m''. unfold where_. rewrite EL. now apply H.
    - assert (RM : read_mems = mapm (fun x => read_local (se_nb s) k v h (fst (fst x)) (snd (fst x)) (se_file s) (snd x)) (combine (combine (fields_of s sv) (se_hidden s l)) (se_mem s name h))) by (unfold read_mems; now rewrite EL).
      rewrite RM. clear RM. destruct (NU l EL) as [N [HL G]].
      assert (RA : forall i p px m, nth_error (su_parts u) i = Some p -> nth_error (se_hidden s l) i = Some px -> nth_error (se_mem s name h) i = Some m -> exists m', read_local (se_nb s) k v h (pt_field p name) px (se_file s) m = Ok m' /\
         forall c b x j, in_shape (q_comp q) c -> 0 <= b < q_nsub q -> owns (pt_sub p) x -> nth_error (pt_ids p l) j = Some (pixel_id (pt_sub p) x) -> holds (nf_lay (pt_field p name)) m' c b [Z.of_nat j] (cells (se_file s) name (at_of q fr h c b [pos l x]))).
      { intros i p px m Ep Eh Em. destruct (hidden_at l i p px EL Ep Eh) as (C1 & _ & C2). pose proof (local_shape l p m i EL Ep Em) as LF. destruct (vo_parts _ _ _ _ V p (nth_error_In _ _ Ep)) as [S R]. rewrite EL in R. pose proof S as (S1 & S2 & _).
        change (q_name q) with name in R, S, S1, S2.
        destruct (read_local_spec (pl_total P l) (q_hist q) name (pt_field p name) v (Z.of_nat (length (pt_ids p l))) R (ex_intro _ m LF) (cp_total _ _ _ _ C1) (eq_ind_r (fun z => Z.of_nat (length z) <= 2 ^ 31) (vo_comp _ _ _ _ V) S1) h (entry_entry q h EH) (se_nb s) k fr px m (se_file s) AC (fun _ => FR) LF) as (m' & E & _ & VR).
        - rewrite (part_length P u l p pos px C1 N C2). lia.
        - exact (part_bounds P u l p pos px C1 N C2).
        - exists m'. split; [exact E|]. intros c b x j Hc Hb OW Ej. specialize (VR c b j (pos l x)). rewrite S1, S2 in VR. specialize (VR Hc Hb (part_request P u l p pos px C1 N C2 j x OW Ej)).
          now rewrite (spot_at _ fr c b _ (local_sane _ _ _ LF) S) in VR. }
      destruct (mapm_ok (fun x => read_local (se_nb s) k v h (fst (fst x)) (snd (fst x)) (se_file s) (snd x)) (combine (combine (fields_of s sv) (se_hidden s l)) (se_mem s name h))) as [ms Ems].
      { intros [[f px] m] I. apply In_nth_error in I. destruct I as [i I]. apply triple_at in I. destruct I as (I1 & I2 & I3). destruct (fields_from i f I1) as (p & Ep & ->). destruct (RA i p px m Ep I2 I3) as (m' & E & _). eauto. }
      exists ms. split; [exact Ems|]. intros i c b x Hc Hb (p & Ep & HO). rewrite EL in HO. destruct HO as [OW IN]. apply In_nth_error in IN. destruct IN as [j Ej].
      destruct (nth_lengths _ (se_mem s name h) i p ML Ep) as [m Em]. destruct (nth_lengths _ (se_hidden s l) i p HL Ep) as [px Eh].
      apply mapm_at in Ems. destruct Ems as [_ Ems]. destruct (Ems i (pt_field p name, px, m)) as (m' & E1 & E2); [apply triple_at; split; [now apply fields_at|auto]|].
      exists p, m'. split; [exact Ep|]. split; [cbn [with_mem se_mem]; unfold put_mem; now rewrite String.eqb_refl, Z.eqb_refl|]. rewrite EL. cbv zeta. exists j. split; [exact OW|]. split; [exact Ej|].
      destruct (RA i p px m Ep Eh Em) as (m'' & E & H). cbn [fst snd] in E2. rewrite E in E2. apply Ok_inj in E2. subst m''. unfold where_. rewrite EL. now apply (H c b x j). }
  destruct X as (ms & Ems & HV). exists (put_mem ms). destruct read_entry_any as (mem' & r & E & LK & OT). rewrite read_entry_unfold, Ems in *. injection E as E1 E2.
  subst mem'. auto.
Qed.
End Entries.
