(** Functions of matrices by their eigenvalues. *)
From Coq Require Import ZArith Ring.
From Verif Require Import Base RingModel RingProofs TensorModel TensorSpec TensorProofs TensorProofs2.
Local Open Scope list_scope.

Section Tens.
Context {R : Type} (o : ops R) (L : lawful o).
Definition tlaws3 : ring_theory (zero o) (one o) (add o) (mul o) (sub o) (opp o) eq := L.
Add Ring t_ring3 : tlaws3.
Local Notation matrix := (nat -> nat -> R).
Implicit Types A B C T V W X Y : nat -> nat -> R.
Implicit Types v : nat -> R.

Definition mv (n : nat) (A : matrix) (v : nat -> R) (i : nat) : R := sum1 o n (fun k => mul o (A i k) (v k)).
Lemma mv_ext n A v w i : (forall k, (k < n)%nat -> v k = w k) -> mv n A v i = mv n A w i.
Proof. intros H. unfold mv, sum1. apply (below_ext o). intros k Hk. now rewrite H. Qed.
Lemma mv_mm n A B v i : mv n (mm o n A B) v i = mv n A (mv n B v) i.
Proof. exact (mm_assoc o L n A B (fun k _ => v k) i 0%nat). Qed.
Lemma mv_scale n A a v i : mv n A (fun k => mul o a (v k)) i = mul o a (mv n A v i).
Proof. unfold mv, sum1. rewrite <- (below_scale o L). apply (below_ext o). intros k _. ring. Qed.
Lemma mv_id n v i : (i < n)%nat -> mv n (ident o) v i = v i.
Proof. intros Hi. exact (mm_id_l o L n 1 (fun k _ => v k) i 0%nat Hi Nat.lt_0_1). Qed.
Lemma mv_madd n A B v i : mv n (madd o A B) v i = add o (mv n A v i) (mv n B v i).
Proof. unfold mv, sum1, madd. rewrite <- (below_add o L). apply (below_ext o). intros k _. ring. Qed.
Lemma mv_mscale n a A v i : mv n (mscale o a A) v i = mul o a (mv n A v i).
Proof. unfold mv, sum1, mscale. rewrite <- (below_scale o L). apply (below_ext o). intros k _. ring. Qed.
Lemma mv_msub n A B v i : mv n (msub o A B) v i = sub o (mv n A v i) (mv n B v i).
Proof.
  transitivity (mv n (madd o A (mscale o (opp o (one o)) B)) v i); [|rewrite mv_madd, mv_mscale; ring].
  unfold mv, sum1, msub, madd, mscale. apply (below_ext o). intros k _. ring.
Qed.

Lemma sub_zero (a b : R) : sub o a b = zero o -> a = b.
Proof. intros H. transitivity (add o (sub o a b) b); [ring|rewrite H; ring]. Qed.

Section Log.
Context (inv log : R -> option R).
Context (inv_spec : forall a s, inv a = Some s -> mul o s a = one o).

Lemma factor_mv n eigs T i j F x v : eigenpair o n T x v -> proj_factor o inv eigs T i j = Some F ->
  exists s, inv (sub o (eigs i) (eigs j)) = Some s /\ forall r, (r < n)%nat -> mv n F v r = mul o (mul o s (sub o x (eigs j))) (v r).
Proof.
  intros E. unfold proj_factor. destruct (inv (sub o (eigs i) (eigs j))) as [s|]; [|discriminate]. intros H. injection H as <-. exists s. split; [reflexivity|].
  intros r Hr. rewrite mv_mscale, mv_msub, mv_mscale, mv_id by exact Hr. unfold mv at 1. rewrite (E r Hr). ring.
Qed.
Lemma proj_mv n eigs T i x v : eigenpair o n T x v -> forall j X, proj o inv n eigs T i j = Some X ->
  exists c, (forall r, (r < n)%nat -> mv n X v r = mul o c (v r)) /\ (x = eigs i -> c = one o) /\ (forall m, (m <= j)%nat -> m <> i -> x = eigs m -> c = zero o).
Proof.
  intros E.
  assert (FM : forall j F, proj_factor o inv eigs T i j = Some F -> exists c, (forall r, (r < n)%nat -> mv n F v r = mul o c (v r)) /\ (x = eigs i -> c = one o) /\ (x = eigs j -> c = zero o)).
  { intros j F HF. destruct (factor_mv n eigs T i j F x v E HF) as (s & Hs & H). exists (mul o s (sub o x (eigs j))). split; [exact H|]. split.
    - intros ->. now apply inv_spec.
    - intros ->. ring. }
  induction j as [|j IH]; intros X; cbn [proj].
  - destruct (Nat.eqb_spec i 0) as [->|Ne].
    + intros HX. injection HX as <-. exists (one o). split; [intros r Hr; rewrite mv_id by exact Hr; ring|]. split; [reflexivity|]. intros m Hm Hne. exfalso. lia.
    + intros HX. destruct (FM _ _ HX) as (c & H1 & H2 & H3). exists c. split; [exact H1|]. split; [exact H2|]. intros m Hm Hne Ex. replace m with 0%nat in Ex by lia. auto.
  - destruct (Nat.eqb_spec i (S j)) as [->|Ne].
    + intros HX. destruct (IH X HX) as (c & H1 & H2 & H3). exists c. split; [exact H1|]. split; [exact H2|]. intros m Hm Hne. apply H3; lia.
    + destruct ((i =? 0)%nat && (j =? 0)%nat) eqn:B.
      * apply andb_prop in B. destruct B as (B1 & B2). apply Nat.eqb_eq in B1, B2. subst. intros HX. destruct (FM _ _ HX) as (c & H1 & H2 & H3). exists c. split; [exact H1|]. split; [exact H2|].
        intros m Hm Hne Ex. replace m with 1%nat in Ex by lia. auto.
      * destruct (proj_factor o inv eigs T i (S j)) as [F|] eqn:EF; [|discriminate]. cbn [mprod]. destruct (proj o inv n eigs T i j) as [Y|] eqn:EY; [|discriminate]. intros HX. injection HX as <-.
        destruct (FM _ _ EF) as (c & H1 & H2 & H3). destruct (IH Y eq_refl) as (d & G1 & G2 & G3). exists (mul o c d). split; [|split].
        -- intros r Hr. rewrite mv_mm. rewrite (mv_ext n F _ (fun k => mul o d (v k))) by exact G1. rewrite mv_scale, H1 by exact Hr. ring.
        -- intros Ex. rewrite H2, G2 by exact Ex. ring.
        -- intros m Hm Hne Ex. destruct (Nat.eq_dec m (S j)) as [->|Nm]; [rewrite (H3 Ex); ring|]. rewrite (G3 m) by (assumption || lia). ring.
Qed.
Lemma summand_mv n eigs T m x v a : (m < n)%nat -> x = eigs m -> log x = Some a -> eigenpair o n T x v -> forall i X, summand o inv log n eigs T i = Some X ->
  forall r, (r < n)%nat -> mv n X v r = if (m <=? i)%nat then mul o a (v r) else zero o.
Proof.
  intros Hm -> Ha E.
  assert (TM : forall i X, term o inv log n eigs T i = Some X -> forall r, (r < n)%nat -> mv n X v r = if (i =? m)%nat then mul o a (v r) else zero o).
  { intros i X. unfold term, P. destruct (log (eigs i)) as [b|] eqn:Eb; [|discriminate]. destruct (proj o inv n eigs T i (n - 1)) as [Y|] eqn:EY; [|discriminate]. intros HX. injection HX as <-. intros r Hr.
    destruct (proj_mv n eigs T i (eigs m) v E (n - 1)%nat Y EY) as (c & H1 & H2 & H3). rewrite mv_mscale, H1 by exact Hr. destruct (Nat.eqb_spec i m) as [->|Ne].
    - rewrite H2 by reflexivity. replace b with a by congruence. ring.
    - rewrite (H3 m) by (reflexivity || lia || congruence). ring. }
  induction i as [|i IH]; intros X; cbn [summand].
  - intros HX r Hr. rewrite (TM 0%nat X HX r Hr). destruct m; reflexivity.
  - destruct (term o inv log n eigs T (S i)) as [Y|] eqn:EY; [|discriminate]. destruct (summand o inv log n eigs T i) as [Z|] eqn:EZ; [|discriminate]. intros HX. injection HX as <-. intros r Hr.
    rewrite mv_madd, (TM (S i) Y EY r Hr), (IH Z eq_refl r Hr). destruct (Nat.eqb_spec (S i) m) as [<-|Ne].
    + rewrite Nat.leb_refl. replace (S i <=? i)%nat with false by (symmetry; apply Nat.leb_gt; lia). ring.
    + destruct (Nat.leb_spec m i); destruct (Nat.leb_spec m (S i)); try lia; ring.
Qed.
Lemma logm_mv n eigs T X m v a : (m < n)%nat -> log (eigs m) = Some a -> eigenpair o n T (eigs m) v -> logm o inv log n eigs T = Some X -> eigenpair o n X a v.
Proof.
  intros Hm Ha E HX r Hr. pose proof (summand_mv n eigs T m (eigs m) v a Hm eq_refl Ha E (n - 1)%nat X HX r Hr) as Q.
  rewrite (proj2 (Nat.leb_le m (n - 1))) in Q by lia. exact Q.
Qed.

End Log.

(** The logarithm has a value. *)
Section Total.
Context (inv log : R -> option R).
Context (inv_total : forall a, a <> zero o -> exists s, inv a = Some s).
Lemma proj_some n eigs T i : (forall a b, (a < n)%nat -> (b < n)%nat -> a <> b -> eigs a <> eigs b) -> (i < n)%nat -> forall j, (j < n)%nat -> exists X, proj o inv n eigs T i j = Some X.
Proof.
  intros D Hi.
  assert (FS : forall j, (j < n)%nat -> j <> i -> exists F, proj_factor o inv eigs T i j = Some F).
  { intros j Hj Ne. unfold proj_factor. destruct (inv_total (sub o (eigs i) (eigs j))) as (s & ->); [|eauto]. intros Z. apply sub_zero in Z. exact (D i j Hi Hj (not_eq_sym Ne) Z). }
  induction j as [|j IH]; intros Hj; cbn [proj].
  - destruct (Nat.eqb_spec i 0) as [->|Ne]; [eauto|]. apply FS; [exact Hj|congruence].
  - destruct (Nat.eqb_spec i (S j)) as [->|Ne]; [apply IH; lia|]. destruct ((i =? 0)%nat && (j =? 0)%nat) eqn:B.
    + apply andb_prop in B. destruct B as (B1 & B2). apply Nat.eqb_eq in B1, B2. subst. apply FS; [exact Hj|discriminate].
    + destruct (FS (S j) Hj (not_eq_sym Ne)) as (F & ->). destruct IH as (Y & ->); [lia|]. cbn [mprod]. eauto.
Qed.
Lemma logm_some n eigs T : (0 < n)%nat -> (forall a b, (a < n)%nat -> (b < n)%nat -> a <> b -> eigs a <> eigs b) -> (forall a, (a < n)%nat -> exists l, log (eigs a) = Some l) ->
  exists X, logm o inv log n eigs T = Some X.
Proof.
  intros Hn D HL. unfold logm. assert (TS : forall i, (i < n)%nat -> exists X, term o inv log n eigs T i = Some X).
  { intros i Hi. unfold term, P. destruct (HL i Hi) as (l & ->). destruct (proj_some n eigs T i D Hi (n - 1)%nat) as (X & ->); [lia|eauto]. }
  assert (Q : forall i, (i < n)%nat -> exists X, summand o inv log n eigs T i = Some X).
  { induction i as [|i IH]; intros Hi; cbn [summand]; [now apply TS|]. destruct (TS (S i) Hi) as (X & ->). destruct IH as (Y & ->); [lia|eauto]. }
  apply Q. lia.
Qed.
End Total.

(** Equal eigenvalues. *)
Section Equal.
Context (inv log : R -> option R).
Lemma proj_none n eigs T i m : inv (zero o) = None -> (i < n)%nat -> (m < n)%nat -> m <> i -> eigs m = eigs i -> forall j, (m <= j)%nat -> (j < n)%nat -> proj o inv n eigs T i j = None.
Proof.
  intros H0 Hi Hm Ne Em.
  assert (FN : proj_factor o inv eigs T i m = None) by (unfold proj_factor; rewrite Em; replace (sub o (eigs i) (eigs i)) with (zero o) by ring; now rewrite H0).
  induction j as [|j IH]; intros Hj Hn; cbn [proj].
  - replace m with 0%nat in FN by lia. destruct (Nat.eqb_spec i 0); [exfalso; lia|exact FN].
  - destruct (Nat.eqb_spec i (S j)) as [->|Nj]; [apply IH; lia|]. destruct (Nat.eq_dec m (S j)) as [->|Nm].
    + destruct ((i =? 0)%nat && (j =? 0)%nat) eqn:B; [|now rewrite FN]. apply andb_prop in B. destruct B as (B1 & B2). apply Nat.eqb_eq in B1, B2. subst. exact FN.
    + destruct ((i =? 0)%nat && (j =? 0)%nat) eqn:B; [apply andb_prop in B; destruct B as (B1 & B2); apply Nat.eqb_eq in B1, B2; exfalso; lia|].
      rewrite IH by lia. now destruct (proj_factor o inv eigs T i (S j)).
Qed.
Lemma logm_none n eigs T i m : inv (zero o) = None -> (i < n)%nat -> (m < n)%nat -> m <> i -> eigs m = eigs i -> logm o inv log n eigs T = None.
Proof.
  intros H0 Hi Hm Ne Em. assert (TN : term o inv log n eigs T i = None).
  { unfold term, P. rewrite (proj_none n eigs T i m) by (assumption || lia). now destruct (log (eigs i)). }
  unfold logm. assert (Q : forall j, (i <= j)%nat -> summand o inv log n eigs T j = None).
  { induction j as [|j IH]; intros Hj; cbn [summand]; [replace i with 0%nat in TN by lia; exact TN|]. destruct (Nat.eq_dec i (S j)) as [<-|Nj]; [now rewrite TN|]. rewrite IH by lia. now destruct (term o inv log n eigs T (S j)). }
  apply Q. lia.
Qed.
End Equal.

(** A matrix is determined by its values on the columns of an invertible one. *)
Lemma by_columns n A V W (d : nat -> R) : same n n (mm o n V W) (ident o) -> (forall m, (m < n)%nat -> eigenpair o n A (d m) (fun r => V r m)) ->
  same n n A (fun i j => sum1 o n (fun m => mul o (d m) (mul o (V i m) (W m j)))).
Proof.
  intros H E i j Hi Hj. transitivity (mm o n A (mm o n V W) i j).
  - transitivity (mm o n A (ident o) i j); [symmetry; now apply (mm_id_r o L n n)|]. unfold mm at 1 2. apply (below_ext o). intros k Hk. f_equal. symmetry. now apply H.
  - rewrite <- (mm_assoc o L). unfold mm at 1, sum1. apply (below_ext o). intros m Hm. rewrite (E m Hm i Hi : mm o n A V i m = _). ring.
Qed.

(** Sums over the eigenvectors. *)
Lemma spectral_fold (fn : R -> option R) (eigs : nat -> R) V l : forall X Y, fold_left (fun acc i => match acc, fn (eigs i) with Some r, Some a => Some (madd o r (mscale o a (fun x y => mul o (V x i) (V y i)))) | _, _ => None end) l (Some X) = Some Y ->
  exists d, (forall m, In m l -> fn (eigs m) = Some (d m)) /\ forall i j, Y i j = add o (X i j) (sum_list o (fun m => mul o (d m) (mul o (V i m) (V j m))) l).
Proof.
  assert (N : forall l Y, fold_left (fun acc i => match acc, fn (eigs i) with Some r, Some a => Some (madd o r (mscale o a (fun x y => mul o (V x i) (V y i)))) | _, _ => None end) l None = Some Y -> False) by (clear; induction l as [|m l IH]; intros Y; cbn [fold_left]; [discriminate|apply IH]).
  induction l as [|m l IH]; intros X Y; cbn [fold_left].
  - intros H. injection H as <-. exists (fun _ => zero o). split; [contradiction|]. intros i j. cbn. ring.
  - destruct (fn (eigs m)) as [a|] eqn:Ea; [|intros H; now apply N in H]. intros H. destruct (IH _ _ H) as (d & D1 & D2).
    exists (fun k => match fn (eigs k) with Some b => b | None => zero o end). split.
    + intros k [<-|I]; [now rewrite Ea|]. now rewrite (D1 k I).
    + intros i j. rewrite D2, (sum_cons o). rewrite Ea. rewrite (sum_ext o (fun k => mul o (match fn (eigs k) with Some b => b | None => zero o end) (mul o (V i k) (V j k))) (fun k => mul o (d k) (mul o (V i k) (V j k)))) by (intros k I; now rewrite (D1 k I)).
      unfold madd, mscale. ring.
Qed.
Lemma spectral_value fn n eigs V X : spectral_sum o fn n eigs V = Some X ->
  exists d, (forall m, (m < n)%nat -> fn (eigs m) = Some (d m)) /\ forall i j, X i j = sum1 o n (fun m => mul o (d m) (mul o (V i m) (V j m))).
Proof.
  unfold spectral_sum. intros H. destruct (spectral_fold fn eigs V (seq 0 n) _ _ H) as (d & D1 & D2). exists d. split; [intros m Hm; apply D1, in_seq; lia|]. intros i j. rewrite D2. unfold sum1, sum_below. ring.
Qed.
Lemma spectral_some fn n eigs V : (forall m, (m < n)%nat -> exists d, fn (eigs m) = Some d) -> exists X, spectral_sum o fn n eigs V = Some X.
Proof.
  intros H. unfold spectral_sum. assert (Q : forall l X, (forall m, In m l -> (m < n)%nat) -> exists Y, fold_left (fun acc i => match acc, fn (eigs i) with Some r, Some a => Some (madd o r (mscale o a (fun x y => mul o (V x i) (V y i)))) | _, _ => None end) l (Some X) = Some Y).
  { induction l as [|m l IH]; intros X Hl; cbn [fold_left]; [eauto|]. destruct (H m) as (d & ->); [apply Hl; now left|]. apply IH. intros k I. apply Hl. now right. }
  apply Q. intros m I. apply in_seq in I. lia.
Qed.
(** On a vector with given products with the columns. *)
Lemma spectral_mv n (d : nat -> R) V v i : mv n (fun i j => sum1 o n (fun m => mul o (d m) (mul o (V i m) (V j m)))) v i = sum1 o n (fun m => mul o (V i m) (mul o (d m) (sum1 o n (fun k => mul o (V k m) (v k))))).
Proof.
  unfold mv, sum1. transitivity (sum_below o n (fun k => sum_below o n (fun m => mul o (mul o (d m) (mul o (V i m) (V k m))) (v k)))).
  - apply (below_ext o). intros k _. now rewrite (below_scale_r o L).
  - rewrite (below_swap o L). apply (below_ext o). intros m _. rewrite <- !(below_scale o L). apply (below_ext o). intros k _. ring.
Qed.
Lemma spectral_eigen fn n eigs V X m a : orthonormal o n V -> spectral_sum o fn n eigs V = Some X -> (m < n)%nat -> fn (eigs m) = Some a -> eigenpair o n X a (fun r => V r m).
Proof.
  intros O H Hm Ha i Hi. destruct (spectral_value fn n eigs V X H) as (d & D1 & D2).
  transitivity (mv n (fun i j => sum1 o n (fun m => mul o (d m) (mul o (V i m) (V j m)))) (fun r => V r m) i); [unfold mv, sum1; apply (below_ext o); intros k _; now rewrite D2|].
  rewrite spectral_mv. unfold sum1 at 1. rewrite (below_single o L n _ m Hm).
  - rewrite (O m m Hm Hm). unfold delta. rewrite Nat.eqb_refl. rewrite (D1 m Hm) in Ha. injection Ha as ->. ring.
  - intros k Hk Ne. rewrite (O k m Hk Hm). unfold delta. rewrite (proj2 (Nat.eqb_neq k m) Ne). ring.
Qed.

(** The result does not depend on the decomposition. *)
Lemma spectral_eigen_any fn n eigs V T X x v a :
  (forall a b : R, mul o a b = zero o -> a = zero o \/ b = zero o) ->
  orthonormal o n V -> orthonormal o n (tr V) -> (forall m, (m < n)%nat -> eigenpair o n T (eigs m) (fun r => V r m)) ->
  spectral_sum o fn n eigs V = Some X -> eigenpair o n T x v -> fn x = Some a -> eigenpair o n X a v.
Proof.
  intros ID O O' ET H Ev Ha i Hi. destruct (spectral_value fn n eigs V X H) as (d & D1 & D2).
  set (c := fun m => sum1 o n (fun k => mul o (V k m) (v k))).
  (* v is the combination of the columns with coefficients c *)
  assert (Cv : forall k, (k < n)%nat -> v k = sum1 o n (fun m => mul o (V k m) (c m))).
  { intros k Hk. transitivity (mm o n (ident o) (fun k (_ : nat) => v k) k 0%nat); [symmetry; apply (mm_id_l o L n 1); lia|].
    transitivity (mm o n (mm o n V (tr V)) (fun k (_ : nat) => v k) k 0%nat).
    - unfold mm at 1 2. apply (below_ext o). intros j Hj. f_equal. symmetry. exact (O' k j Hk Hj).
    - rewrite (mm_assoc o L). reflexivity. }
  (* T in terms of V *)
  assert (TV : same n n T (fun i j => sum1 o n (fun m => mul o (eigs m) (mul o (V i m) (V j m))))).
  { apply (by_columns n T V (tr V) eigs); [|exact ET]. intros p q Hp Hq. exact (O' p q Hp Hq). }
  assert (Cm : forall m, (m < n)%nat -> mul o (sub o x (eigs m)) (c m) = zero o).
  { intros m Hm.
    assert (Q : sum1 o n (fun k => mul o (V k m) (mv n T v k)) = mul o (eigs m) (c m)).
    { transitivity (sum1 o n (fun k => mul o (V k m) (mv n (fun i j => sum1 o n (fun m => mul o (eigs m) (mul o (V i m) (V j m)))) v k))).
      { unfold sum1 at 1 2. apply (below_ext o). intros k Hk. f_equal. unfold mv, sum1 at 1 2. apply (below_ext o). intros j Hj. f_equal. now apply TV. }
      transitivity (sum1 o n (fun k => mul o (V k m) (sum1 o n (fun p => mul o (V k p) (mul o (eigs p) (c p)))))).
      { unfold sum1 at 1 2. apply (below_ext o). intros k Hk. f_equal. apply spectral_mv. }
      transitivity (sum_below o n (fun p => mul o (delta o m p) (mul o (eigs p) (c p)))).
      { unfold sum1. transitivity (sum_below o n (fun k => sum_below o n (fun p => mul o (mul o (V k m) (V k p)) (mul o (eigs p) (c p))))).
        - apply (below_ext o). intros k _. rewrite <- (below_scale o L). apply (below_ext o). intros p _. ring.
        - rewrite (below_swap o L). apply (below_ext o). intros p Hp. rewrite (below_scale_r o L). f_equal. exact (O m p Hm Hp). }
      rewrite (below_ext o n _ (fun p => if (m =? p)%nat then mul o (eigs p) (c p) else zero o)) by (intros; apply (delta_if o L)). now apply (below_pick o L n m (fun p => mul o (eigs p) (c p))). }
    assert (Q' : sum1 o n (fun k => mul o (V k m) (mv n T v k)) = mul o x (c m)).
    { unfold c, sum1. rewrite <- (below_scale o L). apply (below_ext o). intros k Hk. unfold mv. rewrite (Ev k Hk). ring. }
    transitivity (sub o (mul o x (c m)) (mul o (eigs m) (c m))); [ring|]. rewrite <- Q, <- Q'. ring. }
  transitivity (mv n (fun i j => sum1 o n (fun m => mul o (d m) (mul o (V i m) (V j m)))) v i); [unfold mv, sum1; apply (below_ext o); intros k _; now rewrite D2|].
  rewrite spectral_mv. fold (c). rewrite (Cv i Hi). unfold sum1 at 1 3. rewrite <- (below_scale o L). apply (below_ext o). intros m Hm. fold (c m).
  destruct (ID _ _ (Cm m Hm)) as [Z|Z]; [|rewrite Z; ring]. apply sub_zero in Z. rewrite Z in Ha. rewrite (D1 m Hm) in Ha. injection Ha as ->. ring.
Qed.
End Tens.
