(** Distributed fields: write with one decomposition, read with another. *)
From Coq Require Import String Ascii.
From Verif Require Import Base CIntModel GridModel GridSpec GridProofs StridedModel StridedProofs LayoutModel LayoutSpec LayoutProofs LayoutProofs2 CommModel FrameModel RegistryModel.
From Verif Require Import NetCDFModel NetCDFSpec NetCDFProofs NetCDFProofs2 NetCDFProofs3 NetCDFProofs4 NetCDFProofs5.
Local Open Scope Z_scope.
Local Open Scope list_scope.

Lemma accessed_inv k nb fr : accessed k nb = Ok fr -> handle_frame k nb = Ok fr /\ 0 <= fr.
Proof.
  unfold accessed. destruct (handle_frame k nb) as [x|e|]; cbn [bind]; [|discriminate ..].
  destruct (Z.ltb_spec x 0); [discriminate|]. intros E. apply Ok_inj in E. subst x. split; [reflexivity|lia].
Qed.

Lemma app_inj_len {B} (a a' b b' : list B) : length a = length a' -> a ++ b = a' ++ b' -> a = a' /\ b = b'.
Proof.
  revert a'. induction a as [|x a IH]; intros [|y a'] L E; cbn in L; try lia; [now split|].
  cbn in E. injection E as -> E. destruct (IH a' ltac:(lia) E) as [-> ->]. now split.
Qed.
Lemma cell_inj hidden hist f f' fr h c q x fr' h' c' q' x' : length c = length c' -> single f = single f' ->
  cell hidden hist f fr h c q x = cell hidden hist f' fr' h' c' q' x' ->
  (hidden = false -> fr = fr') /\ (hist <> None -> h = h') /\ c = c' /\ (single f = false -> q = q') /\ x = x'.
Proof.
  intros Lc S E. rewrite !cell_header in E. apply app_inj_len in E; [|apply header_length]. destruct E as [E1 E].
  apply app_inj_len in E; [|exact Lc]. destruct E as [E2 E].
  apply app_inj_len in E; [|unfold sub_part; rewrite <- S; now destruct (single f)]. destruct E as [E3 E4].
  split; [|split; [|split; [|split]]]; try assumption.
  - intros ->. unfold header in E1. cbn in E1. now injection E1.
  - intros N. unfold header in E1. destruct hist; [|contradiction]. destruct hidden; cbn in E1; injection E1; auto.
  - intros F. unfold sub_part in E3. rewrite F, <- S, F in E3. now injection E3.
Qed.

Lemma same_single f g : sane (nf_lay f) -> sane (nf_lay g) -> same_array f g -> single (nf_lay f) = single (nf_lay g).
Proof. intros (A & _) (B & _) (E1 & E2 & _). unfold single. rewrite A, B, E1, E2. reflexivity. Qed.
Lemma same_variable hidden hist name f g v w : sane (nf_lay f) -> sane (nf_lay g) -> same_array f g ->
  registered_as hidden hist name f v -> registered_as hidden hist name g w -> v = w.
Proof.
  intros S1 S2 E (-> & _) (-> & _). rewrite !subpt_dims_eq. rewrite (same_single f g S1 S2 E).
  destruct E as (E1 & E2 & E3 & E4). unfold subpt_dim. rewrite E1, E2, E3, E4. reflexivity.
Qed.

(** A field ready to be transferred. *)
Definition ready {A} (hidden : bool) (hist : option Z) (name : string) (v : ncvar) (f : nfield) (m : list A) : Prop :=
  registered_as hidden hist name f v /\ (hidden = true -> single (nf_lay f) = true /\ hist = None) /\
  (l_nbc (nf_lay f) = 1 -> l_nsub (nf_lay f) = 1) /\ distributed f m.

Lemma registered_ready {A} hist name f v (m : list A) : registered hist name f v -> distributed f m -> ready false hist name v f m.
Proof.
  intros (seen & s & E) D. apply register_global_inv in E. destruct E as [R C]. pose proof D as (Sn & _ & L1 & L2 & _).
  split; [exact R|]. split; [discriminate|]. split; [|exact D]. now apply (check_sub_points hist name f v).
Qed.
Lemma registered_hidden {A} name f v (m : list A) seen s : register_global seen true None name f = (s, Ok v) -> single (nf_lay f) = true ->
  distributed f m -> ready true None name v f m.
Proof.
  intros E S D. apply register_global_inv in E. destruct E as [R _]. split; [exact R|]. split; [intros _; split; [exact S|reflexivity]|]. split; [|exact D].
  intros _. unfold single in S. apply andb_true_iff in S. now apply Z.eqb_eq.
Qed.

Section Ranks.
Context {A : Type}.
Variables (hidden : bool) (hist : option Z) (name : string) (v : ncvar).

Lemma write_ranks_spec h nb k fr (ranks : list (nfield * list A)) : forall file,
  (forall f m, In (f, m) ranks -> ready hidden hist name v f m) ->
  (forall a b, In a ranks -> In b ranks -> same_array (fst a) (fst b)) ->
  decomposition ranks -> entry hist h -> accessed k nb = Ok fr ->
  exists file', write_ranks nb k v h ranks file = Ok file' /\ recs file <= recs file' /\
    (hidden = false -> ranks <> [] -> fr < recs file') /\
    (forall n at_, (n <> name \/ forall f m c q x, In (f, m) ranks -> indexes (nf_lay f) c q x -> at_ <> target hidden hist f h fr c q x) ->
       cells file' n at_ = cells file n at_) /\
    (forall f m c q x, In (f, m) ranks -> indexes (nf_lay f) c q x ->
       holds (nf_lay f) m c q x (cells file' name (target hidden hist f h fr c q x))).
Proof.
  induction ranks as [|[f m] ranks IH]; intros file RD SA DC EN AC.
  - exists file. split; [reflexivity|]. split; [lia|]. split; [easy|]. split; [easy|]. intros f m c q x [].
  - destruct (accessed_inv _ _ _ AC) as [HF F].
    destruct (RD f m (or_introl eq_refl)) as (R & HH & N1 & D).
    destruct (write_global_spec hidden hist name f v R HH N1 h EN nb k fr m file D HF F) as (file1 & E1 & G1 & G2 & O1 & V1).
    unfold decomposition in DC. inversion DC as [|? ? DF DC']; subst.
    destruct (IH file1) as (file2 & E2 & G3 & G4 & O2 & V2); [intros; apply RD; now right|intros; apply SA; now right|exact DC'|exact EN|exact AC|].
    exists file2. cbn [write_ranks]. rewrite E1. cbn [bind]. split; [exact E2|]. split; [lia|]. split; [intros HF0 _; specialize (G2 HF0); lia|]. split.
    + intros n at_ H. rewrite O2; [rewrite O1; [reflexivity|]|].
      * destruct H as [H|H]; [now left|right]. intros c q x I. apply (H f m); [now left|exact I].
      * destruct H as [H|H]; [now left|right]. intros f' m' c q x I. apply (H f' m'). now right.
    + intros f' m' c q x [E|I] X.
      * injection E as <- <-. rewrite O2; [now apply V1|]. right. intros f' m' c' q' x' I' X' E.
        destruct (RD f' m' (or_intror I')) as (_ & _ & _ & D'). pose proof D as (S1 & _ & L1 & L2 & _). pose proof D' as (S2 & _ & L1' & L2' & _).
        assert (SS : same_array f f') by (apply (SA (f, m) (f', m')); [now left|now right]).
        unfold target in E. apply cell_inj in E.
        -- destruct E as (_ & _ & _ & _ & E). rewrite Forall_forall in DF. specialize (DF (f', m') I'). cbn [fst] in DF.
           apply (DF (plus (nf_loc f) x)); [apply owns_plus; [congruence|apply X]|]. rewrite E. apply owns_plus; [congruence|apply X'].
        -- destruct X as (X & _), X' as (X' & _). apply in_shape_length in X, X'. destruct SS as (SS & _). congruence.
        -- now apply same_single.
      * now apply (V2 f' m').
Qed.
End Ranks.

Section Round.
Context {A : Type}.

Lemma later_spec v hist name f (m : list A) fr h (file file2 : ncfile A) : ready false hist name v f m ->
  later v fr h file file2 -> recs file <= recs file2 /\
  forall c q x, indexes (nf_lay f) c q x -> cells file2 name (target false hist f h fr c q x) = cells file name (target false hist f h fr c q x).
Proof.
  intros RD L. induction L as [|file file1 file2 name' hist' f' v' m' nb' k' fr' h' L [IH1 IH2] D' R' EN AC O W]; [split; [lia|easy]|].
  destruct (registered_ready _ _ _ _ _ R' D') as (R1 & HH & N1 & _). destruct (accessed_inv _ _ _ AC) as [HF F].
  destruct (write_global_spec false hist' name' f' v' R1 HH N1 h' EN nb' k' fr' m' file1 D' HF F) as (f2 & E & G & _ & OO & _).
  rewrite W in E. apply Ok_inj in E. subst f2. split; [lia|]. intros c q x I. rewrite <- IH2 by exact I. apply OO.
  pose proof RD as (R & _). rewrite (v_name_eq _ _ _ _ _ R) in O.
  destruct O as [O|[O|(-> & NH & O)]]; [left; congruence|right|right].
  - intros c' q' x' I' E. unfold target in E. rewrite !cell_header in E. unfold header in E. cbn in E. injection E as E _. congruence.
  - intros c' q' x' I' E. unfold target in E. rewrite !cell_header in E. unfold header in E.
    assert (hist' = hist) by (destruct R as (Ev & _), R1 as (Ev1 & _); congruence). subst hist'.
    destruct hist; [|contradiction]. cbn in E. injection E as _ E _. congruence.
Qed.

Lemma roundtrip hist name v vr (writers : list (nfield * list A)) reader mem nb k fr h file :
  writers <> [] ->
  (forall f m, In (f, m) writers -> distributed f m /\ registered hist name f v /\ same_array f reader) ->
  decomposition writers -> distributed reader mem -> registered hist name reader vr -> entry hist h -> accessed k nb = Ok fr ->
  exists file1, write_ranks nb k v h writers file = Ok file1 /\
    forall file2 nb' k', later v fr h file1 file2 -> accessed k' nb' = Ok fr ->
    (forall f m c q x, In (f, m) writers -> in_shape (l_comp (nf_lay f)) c -> 0 <= q < l_nsub (nf_lay f) -> owns f x ->
       holds (nf_lay f) m c q (shift (nf_loc f) x) (cells file2 name (cell false hist (nf_lay f) fr h c q x))) /\
    exists mem', read_global nb' k' vr h reader file2 mem = Ok mem' /\ length mem' = length mem /\
    forall f m c q x, In (f, m) writers -> in_shape (l_comp (nf_lay f)) c -> 0 <= q < l_nsub (nf_lay f) -> owns f x -> owns reader x ->
      exists a, holds (nf_lay f) m c q (shift (nf_loc f) x) a /\ holds (nf_lay reader) mem' c q (shift (nf_loc reader) x) a.
Proof.
  intros NE WR DC DR RR EN AC.
  assert (RD : forall f m, In (f, m) writers -> ready false hist name v f m).
  { intros f m I. destruct (WR f m I) as (D & R & _). now apply registered_ready. }
  assert (SA : forall a b, In a writers -> In b writers -> same_array (fst a) (fst b)).
  { intros [f m] [f' m'] I I'. cbn [fst]. destruct (WR f m I) as (_ & _ & (A1 & A2 & A3 & A4)), (WR f' m' I') as (_ & _ & (B1 & B2 & B3 & B4)).
    repeat split; congruence. }
  destruct (write_ranks_spec false hist name v h nb k fr writers file RD SA DC EN AC) as (file1 & E1 & _ & G & _ & V).
  exists file1. split; [exact E1|]. intros file2 nb' k' LT AC'. specialize (G eq_refl NE).
  assert (CT : forall f m c q x, In (f, m) writers -> in_shape (l_comp (nf_lay f)) c -> 0 <= q < l_nsub (nf_lay f) -> owns f x ->
       indexes (nf_lay f) c q (shift (nf_loc f) x) /\ holds (nf_lay f) m c q (shift (nf_loc f) x) (cells file2 name (cell false hist (nf_lay f) fr h c q x))).
  { intros f m c q x I Hc Hq Ho. destruct (WR f m I) as (D & _ & _). pose proof D as (_ & _ & L1 & L2 & _).
    assert (X : indexes (nf_lay f) c q (shift (nf_loc f) x)) by (split; [exact Hc|split; [exact Hq|apply owns_shift; [congruence|exact Ho]]]).
    split; [exact X|]. destruct (later_spec v hist name f m fr h file1 file2 (RD f m I) LT) as [_ LC].
    specialize (LC c q _ X). unfold target in LC. rewrite plus_shift in LC by (destruct Ho; congruence). rewrite LC.
    specialize (V f m c q _ I X). unfold target in V. rewrite plus_shift in V by (destruct Ho; congruence). exact V. }
  split; [intros; now apply CT|].
  destruct (registered_ready _ _ _ _ _ RR DR) as (R & HH & N1 & _). destruct (accessed_inv _ _ _ AC') as [HF F].
  assert (LT2 : fr < recs file2).
  { destruct writers as [|[f m] w]; [contradiction|]. destruct (later_spec v hist name f m fr h file1 file2 (RD f m (or_introl eq_refl)) LT). lia. }
  destruct (read_global_spec false hist name reader vr R HH N1 h EN nb' k' fr mem file2 DR HF F (or_intror LT2)) as (mem' & E & LM & VR & _).
  exists mem'. split; [exact E|]. split; [exact LM|]. intros f m c q x I Hc Hq Ho Hr. destruct (CT f m c q x I Hc Hq Ho) as [_ CV].
  eexists. split; [exact CV|]. destruct (WR f m I) as (D & _ & SM). pose proof DR as (SR & _ & L1 & L2 & _). pose proof D as (SF & _).
  assert (X : indexes (nf_lay reader) c q (shift (nf_loc reader) x)).
  { destruct SM as (M1 & M2 & _). split; [now rewrite <- M1|]. split; [lia|]. apply owns_shift; [congruence|exact Hr]. }
  specialize (VR c q _ X). unfold target in VR. rewrite plus_shift in VR by (destruct Hr; congruence).
  replace (cell false hist (nf_lay f) fr h c q x) with (cell false hist (nf_lay reader) fr h c q x); [exact VR|].
  unfold cell. now rewrite (same_single f reader SF SR SM).
Qed.

(** ** State fields *)
Lemma ranks_later v fr h hist name nb k fr' h' (ranks : list (nfield * list A)) : forall file0 file file',
  later v fr h file0 file ->
  (forall f m, In (f, m) ranks -> distributed f m /\ registered hist name f v) -> entry hist h' -> hist <> None -> h' <> h ->
  accessed k nb = Ok fr' -> write_ranks nb k v h' ranks file = Ok file' -> later v fr h file0 file'.
Proof.
  induction ranks as [|[f m] ranks IH]; intros file0 file file' L RD EN NH NE AC W; cbn [write_ranks] in W.
  - apply Ok_inj in W. now subst.
  - apply bind_ok in W. destruct W as (f1 & W1 & W). destruct (RD f m (or_introl eq_refl)) as [D R].
    apply (IH file0 f1 file'); try assumption; [|intros; apply RD; now right].
    eapply later_write; [exact L|exact D|exact R|exact EN|exact AC| |exact W1]. right; right. auto.
Qed.
Lemma later_trans v fr h (a b c : ncfile A) : later v fr h a b -> later v fr h b c -> later v fr h a c.
Proof.
  intros L1 L2. revert a L1. induction L2 as [|file file1 file2 name' hist' f' v' m' nb' k' fr' h' L IH D R EN AC O W]; intros a L1; [assumption|].
  eapply later_write; [now apply IH|exact D|exact R|exact EN|exact AC|exact O|exact W].
Qed.

Definition column (h : Z) (ranks : list (nfield * list (list A))) : list (nfield * list A) :=
  map (fun r => (fst r, nth (Z.to_nat h) (snd r) [])) ranks.
Lemma column_in h ranks f m : In (f, m) (column h ranks) <-> exists ms, In (f, ms) ranks /\ m = nth (Z.to_nat h) ms [].
Proof.
  unfold column. rewrite in_map_iff. split.
  - intros ([f' ms] & E & I). cbn in E. injection E as <- <-. eauto.
  - intros (ms & I & ->). exists (f, ms). split; [reflexivity|exact I].
Qed.
Lemma column_decomposition h ranks : decomposition ranks -> decomposition (column h ranks).
Proof.
  unfold decomposition. intros D. induction D as [|a l F D IH]; [constructor|]. cbn [column map]. constructor; [|exact IH].
  rewrite Forall_forall in *. intros y Hy. apply in_map_iff in Hy. destruct Hy as (b & <- & Hb). cbn [fst]. now apply F.
Qed.

(** Every entry of the history is in the file after the write of all entries. *)
Lemma write_state_spec hist name v nb k fr (ranks : list (nfield * list (list A))) : forall n h0 file,
  (forall f ms, In (f, ms) ranks -> registered hist name f v /\ forall h, h0 <= h < h0 + Z.of_nat n -> distributed f (nth (Z.to_nat h) ms [])) ->
  (forall a b, In a ranks -> In b ranks -> same_array (fst a) (fst b)) ->
  decomposition ranks -> (forall h, h0 <= h < h0 + Z.of_nat n -> entry hist h) -> hist <> None -> accessed k nb = Ok fr ->
  exists file', write_state nb k v h0 n ranks file = Ok file' /\
    (forall h, h < h0 -> later v fr h file file') /\
    (forall h, h0 <= h < h0 + Z.of_nat n -> exists f0 f1, write_ranks nb k v h (column h ranks) f0 = Ok f1 /\ later v fr h f1 file').
Proof.
  induction n as [|n IH]; intros h0 file RD SA DC EN NH AC.
  - exists file. split; [reflexivity|]. split; [intros; constructor|]. intros h Hh. lia.
  - assert (RDY : forall f m, In (f, m) (column h0 ranks) -> distributed f m /\ registered hist name f v).
    { intros f m I. apply column_in in I. destruct I as (ms & I & ->). destruct (RD f ms I) as [R D]. split; [apply D; lia|exact R]. }
    assert (SAC : forall a b, In a (column h0 ranks) -> In b (column h0 ranks) -> same_array (fst a) (fst b)).
    { intros [f m] [f' m'] I I'. apply column_in in I, I'. destruct I as (ms & I & _), I' as (ms' & I' & _).
      apply (SA (f, ms) (f', ms')); assumption. }
    destruct (write_ranks_spec false hist name v h0 nb k fr (column h0 ranks) file) as (file1 & E1 & _); try assumption.
    + intros f m I. destruct (RDY f m I). now apply registered_ready.
    + now apply column_decomposition.
    + apply EN. lia.
    + destruct (IH (h0 + 1) file1) as (file2 & E2 & L2 & X2); try assumption.
      * intros f ms I. destruct (RD f ms I) as [R D]. split; [exact R|]. intros h Hh. apply D. lia.
      * intros h Hh. apply EN. lia.
      * exists file2. cbn [write_state]. change (map _ ranks) with (column h0 ranks). rewrite E1. cbn [bind]. split; [exact E2|]. split.
        -- intros h Hh. eapply later_trans; [|apply L2; lia]. eapply (ranks_later v fr h hist name nb k fr h0 (column h0 ranks) file); try eassumption; [constructor| |lia].
           apply EN. lia.
        -- intros h Hh. destruct (Z.eq_dec h h0) as [->|NE].
           ++ exists file, file1. split; [exact E1|]. apply L2. lia.
           ++ apply X2. lia.
Qed.

Lemma state_roundtrip n name v vr (writers : list (nfield * list (list A))) reader mems nb k fr file :
  writers <> [] ->
  (forall f ms, In (f, ms) writers -> registered (Some n) name f v /\ same_array f reader /\
     forall h, 0 <= h < n -> distributed f (nth (Z.to_nat h) ms [])) ->
  decomposition writers -> Z.of_nat (length mems) = n -> (forall m, In m mems -> distributed reader m) ->
  registered (Some n) name reader vr -> accessed k nb = Ok fr ->
  exists file1, write_state nb k v 0 (Z.to_nat n) writers file = Ok file1 /\
    forall file2 nb' k', (forall h, 0 <= h < n -> later v fr h file1 file2) -> accessed k' nb' = Ok fr ->
    exists mems', read_state nb' k' vr 0 reader file2 mems = Ok mems' /\ length mems' = length mems /\
    forall f ms h c q x, In (f, ms) writers -> 0 <= h < n ->
      in_shape (l_comp (nf_lay f)) c -> 0 <= q < l_nsub (nf_lay f) -> owns f x -> owns reader x ->
      exists a, holds (nf_lay f) (nth (Z.to_nat h) ms []) c q (shift (nf_loc f) x) a /\
                holds (nf_lay reader) (nth (Z.to_nat h) mems' []) c q (shift (nf_loc reader) x) a.
Proof.
  intros NE WR DC LM DR RR AC.
  assert (SA : forall a b, In a writers -> In b writers -> same_array (fst a) (fst b)).
  { intros [f m] [f' m'] I I'. cbn [fst]. destruct (WR f m I) as (_ & (A1 & A2 & A3 & A4) & _), (WR f' m' I') as (_ & (B1 & B2 & B3 & B4) & _).
    repeat split; congruence. }
  destruct (write_state_spec (Some n) name v nb k fr writers (Z.to_nat n) 0 file) as (file1 & E1 & _ & X); try assumption.
  - intros f ms I. destruct (WR f ms I) as (R & _ & D). split; [exact R|]. intros h Hh. apply D. lia.
  - intros h Hh m Em. injection Em as <-. lia.
  - discriminate.
  - exists file1. split; [exact E1|]. intros file2 nb' k' LT AC'.
    assert (ONE : forall h m, 0 <= h < n -> distributed reader m ->
      exists m', read_global nb' k' vr h reader file2 m = Ok m' /\
      forall f ms c q x, In (f, ms) writers -> in_shape (l_comp (nf_lay f)) c -> 0 <= q < l_nsub (nf_lay f) -> owns f x -> owns reader x ->
      exists a, holds (nf_lay f) (nth (Z.to_nat h) ms []) c q (shift (nf_loc f) x) a /\ holds (nf_lay reader) m' c q (shift (nf_loc reader) x) a).
    { intros h m Hh D. destruct (X h ltac:(lia)) as (f0 & f1 & W & L).
      destruct (roundtrip (Some n) name v vr (column h writers) reader m nb k fr h f0) as (f1' & W' & RT); try assumption.
      - destruct writers; [contradiction|discriminate].
      - intros f mm I. apply column_in in I. destruct I as (ms & I & ->). destruct (WR f ms I) as (R & S & Di). split; [now apply Di|]. now split.
      - now apply column_decomposition.
      - intros p Ep. injection Ep as <-. lia.
      - rewrite W in W'. apply Ok_inj in W'. subst f1'.
        destruct (RT file2 nb' k') as (_ & m' & RM & _ & V); [eapply later_trans; [exact L|now apply LT]|exact AC'|].
        exists m'. split; [exact RM|]. intros f ms c q x I. apply V. apply column_in. eauto. }
    assert (ALL : forall ms0 h0, 0 <= h0 -> h0 + Z.of_nat (length ms0) <= n -> (forall m, In m ms0 -> distributed reader m) ->
      exists ms', read_state nb' k' vr h0 reader file2 ms0 = Ok ms' /\ length ms' = length ms0 /\
      forall i f ms c q x, (i < length ms0)%nat -> In (f, ms) writers -> in_shape (l_comp (nf_lay f)) c -> 0 <= q < l_nsub (nf_lay f) -> owns f x -> owns reader x ->
      exists a, holds (nf_lay f) (nth (Z.to_nat (h0 + Z.of_nat i)) ms []) c q (shift (nf_loc f) x) a /\ holds (nf_lay reader) (nth i ms' []) c q (shift (nf_loc reader) x) a).
    { induction ms0 as [|m0 ms0 IH]; intros h0 H0 HL D0.
      - exists []. split; [reflexivity|]. split; [reflexivity|]. intros i; cbn; lia.
      - cbn [length] in HL. destruct (ONE h0 m0 ltac:(lia) (D0 m0 (or_introl eq_refl))) as (m' & Em & Vm).
        destruct (IH (h0 + 1)) as (ms' & Es & Ls & Vs); [lia|lia|intros; apply D0; now right|].
        exists (m' :: ms'). cbn [read_state]. rewrite Em. cbn [bind]. rewrite Es. cbn [bind]. split; [reflexivity|]. split; [cbn; congruence|].
        intros [|i] f ms c q x Hi I; cbn [nth].
        + cbn [Z.of_nat]. rewrite Z.add_0_r. now apply Vm.
        + replace (h0 + Z.of_nat (S i)) with (h0 + 1 + Z.of_nat i) by lia. apply Vs; [cbn in Hi; lia|exact I]. }
    destruct (ALL mems 0) as (ms' & Es & Ls & Vs); [lia|lia|exact DR|]. exists ms'. split; [exact Es|]. split; [exact Ls|].
    intros f ms h c q x I Hh Hc Hq Ho Hr. destruct (Vs (Z.to_nat h) f ms c q x) as (a & A1 & A2); try assumption; [lia|].
    exists a. rewrite Z2Nat.id in A1 by lia. rewrite Z.add_0_l in A1. split; assumption.
Qed.
End Round.
