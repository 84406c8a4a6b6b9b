(** Action of the special tensors, contractions, changes of axes. *)
From Coq Require Import ZArith Ring.
From Verif Require Import Base RingModel RingProofs TensorModel TensorSpec TensorProofs.
Local Open Scope list_scope.

Lemma index_eqb dim i j i' j' : (i < dim)%nat -> (i' < dim)%nat -> (i + j * dim =? i' + j' * dim)%nat = (i =? i')%nat && (j =? j')%nat.
Proof.
  intros Hi Hi'. destruct (Nat.eqb_spec (i + j * dim) (i' + j' * dim)) as [E|E].
  - destruct (pair_unique dim i j i' j' Hi Hi' E) as (-> & ->). now rewrite !Nat.eqb_refl.
  - destruct (Nat.eqb_spec i i'); [|reflexivity]. destruct (Nat.eqb_spec j j'); [subst; contradiction|reflexivity].
Qed.

Section Tens.
Context {R : Type} (o : ops R) (L : lawful o).
Definition tlaws2 : ring_theory (zero o) (one o) (add o) (mul o) (sub o) (opp o) eq := L.
Add Ring t_ring2 : tlaws2.
Local Notation matrix := (nat -> nat -> R).
Implicit Types A B C E F G T t : nat -> nat -> R.

Lemma sum2_pick n a b (f : nat -> nat -> R) : (a < n)%nat -> (b < n)%nat -> sum2 o n (fun i j => if (a =? i)%nat && (b =? j)%nat then f i j else zero o) = f a b.
Proof.
  intros Ha Hb. unfold sum2, sum1. rewrite (below_single o L n _ a Ha).
  - rewrite Nat.eqb_refl. cbn [andb]. now apply (below_pick o L n b (f a)).
  - intros i _ Ne. apply (below_zero o L). intros j _. destruct (Nat.eqb_spec a i); [congruence|reflexivity].
Qed.
Lemma sum2_ext n (f g : nat -> nat -> R) : (forall i j, (i < n)%nat -> (j < n)%nat -> f i j = g i j) -> sum2 o n f = sum2 o n g.
Proof. intros H. unfold sum2, sum1. apply (below_ext o). intros i Hi. apply (below_ext o). intros j Hj. now apply H. Qed.
Lemma sum2_scale n a (f : nat -> nat -> R) : sum2 o n (fun i j => mul o a (f i j)) = mul o a (sum2 o n f).
Proof. unfold sum2, sum1. rewrite <- (below_scale o L). apply (below_ext o). intros i _. apply (below_scale o L). Qed.
Lemma sum2_add n (f g : nat -> nat -> R) : sum2 o n (fun i j => add o (f i j) (g i j)) = add o (sum2 o n f) (sum2 o n g).
Proof. unfold sum2, sum1. rewrite <- (below_add o L). apply (below_ext o). intros i _. apply (below_add o L). Qed.
Lemma sum2_swap n (f : nat -> nat -> R) : sum2 o n f = sum2 o n (fun i j => f j i).
Proof. unfold sum2, sum1. apply (below_swap o L). Qed.
Lemma sum2_exchange n m (f : nat -> nat -> nat -> nat -> R) : sum2 o n (fun i j => sum2 o m (f i j)) = sum2 o m (fun k l => sum2 o n (fun i j => f i j k l)).
Proof.
  unfold sum2, sum1. transitivity (sum_below o n (fun i => sum_below o m (fun k => sum_below o n (fun j => sum_below o m (f i j k))))).
  { apply (below_ext o). intros i _. apply (below_swap o L). }
  rewrite (below_swap o L). apply (below_ext o). intros k _.
  transitivity (sum_below o n (fun i => sum_below o m (fun l => sum_below o n (fun j => f i j k l)))).
  { apply (below_ext o). intros i _. apply (below_swap o L). }
  apply (below_swap o L).
Qed.

(** The special tensors. *)
Lemma delta_if a b (x : R) : mul o (delta o a b) x = if (a =? b)%nat then x else zero o.
Proof. unfold delta. destruct (a =? b)%nat; ring. Qed.
Lemma ident_delta a b : ident o a b = delta o a b.
Proof. reflexivity. Qed.

Lemma Iiden_value dim junk i j k l : (i < dim)%nat -> (j < dim)%nat -> (k < dim)%nat -> (l < dim)%nat -> get dim (Iiden o dim junk) i j k l = mul o (delta o i k) (delta o j l).
Proof. intros. unfold Iiden. now rewrite (under_value o). Qed.
Lemma Itrns_value dim junk i j k l : (i < dim)%nat -> (j < dim)%nat -> (k < dim)%nat -> (l < dim)%nat -> get dim (Itrns o dim junk) i j k l = mul o (delta o i l) (delta o j k).
Proof. intros. unfold Itrns. now rewrite (over_value o). Qed.
Lemma Itrac_value dim junk i j k l : (i < dim)%nat -> (j < dim)%nat -> (k < dim)%nat -> (l < dim)%nat -> get dim (Itrac o dim junk) i j k l = mul o (delta o i j) (delta o k l).
Proof. intros. unfold Itrac. now rewrite (outer_value o). Qed.
Lemma Isymm_value dim half junk i j k l : (i < dim)%nat -> (j < dim)%nat -> (k < dim)%nat -> (l < dim)%nat ->
  get dim (Isymm o dim half junk) i j k l = mul o half (add o (mul o (delta o i k) (delta o j l)) (mul o (delta o i l) (delta o j k))).
Proof.
  intros. pose proof (Iiden_value dim junk i j k l H H0 H1 H2) as X. pose proof (Itrns_value dim junk i j k l H H0 H1 H2) as Y. rewrite <- X, <- Y. unfold Isymm, Iiden, Itrns, mscale, madd. now rewrite !get_eq.
Qed.

Lemma Iiden_action dim junk B i j : (i < dim)%nat -> (j < dim)%nat -> tensmult4 o dim (Iiden o dim junk) B i j = B i j.
Proof.
  intros Hi Hj. rewrite (tensmult_value o L) by assumption. rewrite (sum2_ext dim _ (fun k l => if (i =? k)%nat && (j =? l)%nat then B k l else zero o)); [now apply (sum2_pick dim i j (fun k l => B k l))|].
  intros k l Hk Hl. rewrite Iiden_value by assumption. unfold delta. destruct (i =? k)%nat, (j =? l)%nat; cbn [andb]; ring.
Qed.
Lemma Itrns_action dim junk B i j : (i < dim)%nat -> (j < dim)%nat -> tensmult4 o dim (Itrns o dim junk) B i j = B j i.
Proof.
  intros Hi Hj. rewrite (tensmult_value o L) by assumption. rewrite (sum2_ext dim _ (fun k l => if (j =? k)%nat && (i =? l)%nat then B k l else zero o)); [now apply (sum2_pick dim j i (fun k l => B k l))|].
  intros k l Hk Hl. rewrite Itrns_value by assumption. unfold delta. destruct (i =? l)%nat, (j =? k)%nat; cbn [andb]; ring.
Qed.
Lemma Itrac_action dim junk B i j : (i < dim)%nat -> (j < dim)%nat -> tensmult4 o dim (Itrac o dim junk) B i j = mul o (delta o i j) (sum1 o dim (fun k => B k k)).
Proof.
  intros Hi Hj. rewrite (tensmult_value o L) by assumption. rewrite (sum2_ext dim _ (fun k l => mul o (delta o i j) (mul o (delta o k l) (B k l)))) by (intros k l Hk Hl; rewrite Itrac_value by assumption; ring).
  rewrite sum2_scale. f_equal. unfold sum2, sum1. apply (below_ext o). intros k Hk. rewrite (below_ext o dim _ (fun l => if (k =? l)%nat then B k l else zero o)) by (intros; apply delta_if).
  now apply (below_pick o L dim k (fun l => B k l)).
Qed.
Lemma tensmult_linear dim (a b : R) T t B i j : (i < dim)%nat -> (j < dim)%nat ->
  tensmult4 o dim (fun r c => add o (mul o a (T r c)) (mul o b (t r c))) B i j = add o (mul o a (tensmult4 o dim T B i j)) (mul o b (tensmult4 o dim t B i j)).
Proof.
  intros Hi Hj. rewrite !(tensmult_value o L) by assumption. rewrite <- !sum2_scale, <- sum2_add. apply sum2_ext. intros k l _ _. rewrite !get_eq. ring.
Qed.
Lemma tensmult_ext dim T t B C i j : same (dim * dim) (dim * dim) T t -> same dim dim B C -> (i < dim)%nat -> (j < dim)%nat -> tensmult4 o dim T B i j = tensmult4 o dim t C i j.
Proof. intros HT HB Hi Hj. rewrite !(tensmult_value o L) by assumption. apply sum2_ext. intros k l Hk Hl. rewrite (get_same dim T t i j k l HT) by assumption. now rewrite HB. Qed.
Lemma Isymm_action dim half junk B i j : (i < dim)%nat -> (j < dim)%nat -> tensmult4 o dim (Isymm o dim half junk) B i j = mul o half (add o (B i j) (B j i)).
Proof.
  intros Hi Hj. rewrite (tensmult_ext dim _ (fun r c => add o (mul o half (Iiden o dim junk r c)) (mul o half (Itrns o dim junk r c))) B B); [|intros r c _ _; unfold Isymm, mscale, madd, Iiden, Itrns; ring|apply same_refl|exact Hi|exact Hj].
  rewrite tensmult_linear, Iiden_action, Itrns_action by assumption. ring.
Qed.
Lemma Iasymm_action dim half third junk B i j : (i < dim)%nat -> (j < dim)%nat ->
  tensmult4 o dim (Iasymm o dim half third junk) B i j = sub o (mul o half (add o (B i j) (B j i))) (mul o third (mul o (delta o i j) (sum1 o dim (fun k => B k k)))).
Proof.
  intros Hi Hj. rewrite (tensmult_ext dim _ (fun r c => add o (mul o (one o) (Isymm o dim half junk r c)) (mul o (opp o third) (Itrac o dim junk r c))) B B); [|intros r c _ _; unfold Iasymm, msub, mscale; ring|apply same_refl|exact Hi|exact Hj].
  rewrite tensmult_linear, Isymm_action, Itrac_action by assumption. ring.
Qed.

(** Contractions. *)
Definition quints (n : nat) : list (quad * nat) := list_prod (quads n) (seq 0 n).
Lemma loop5_flat {S} n (body : S -> nat -> nat -> nat -> nat -> nat -> S) s :
  fold_left (fun r a => fold_left (fun r b => fold_left (fun r c => fold_left (fun r d => fold_left (fun r e => body r a b c d e) (seq 0 n) r) (seq 0 n) r) (seq 0 n) r) (seq 0 n) r) (seq 0 n) s =
  fold_left (fun r x => body r (qi (fst x)) (qj (fst x)) (qk (fst x)) (ql (fst x)) (snd x)) (quints n) s.
Proof.
  transitivity (loop4 n (fun r a b c d => fold_left (fun r e => body r a b c d e) (seq 0 n) r) s); [reflexivity|]. rewrite loop4_flat.
  unfold quints. now rewrite (fold_nested (fun r x e => body r (qi x) (qj x) (qk x) (ql x) e)).
Qed.
Lemma sum_quints n (f : nat -> nat -> nat -> nat -> nat -> R) :
  sum_list o (fun x => f (qi (fst x)) (qj (fst x)) (qk (fst x)) (ql (fst x)) (snd x)) (quints n) = sum4 o n (fun a b c d => sum1 o n (f a b c d)).
Proof.
  unfold quints. rewrite (sum_prod o L (fun x e => f (qi x) (qj x) (qk x) (ql x) e)). exact (sum_quads o L n (fun a b c d => sum_list o (f a b c d) (seq 0 n))).
Qed.
Lemma dot24_value dim A T i j k l : (i < dim)%nat -> (j < dim)%nat -> (k < dim)%nat -> (l < dim)%nat ->
  get dim (dot24 o dim A T) i j k l = sum1 o dim (fun a => mul o (A i a) (get dim T a j k l)).
Proof.
  intros Hi Hj Hk Hl. rewrite get_eq. unfold dot24.
  rewrite (loop5_flat dim (fun r i a j k l => put dim r i j k l (add o (get dim r i j k l) (mul o (A i a) (get dim T a j k l))))).
  rewrite (fold_madd o L (fun x : quad * nat => t4_index dim 1 (dim * dim) (qi (fst x)) (qk (fst x))) (fun x => t4_index dim 1 (dim * dim) (ql (fst x)) (snd x)) (fun x => mul o (A (qi (fst x)) (qj (fst x))) (get dim T (qj (fst x)) (qk (fst x)) (ql (fst x)) (snd x)))).
  rewrite (Radd_0_l L).
  rewrite (sum_quints dim (fun i' a' j' k' l' => if (i + j * dim =? t4_index dim 1 (dim * dim) i' j')%nat && (k + l * dim =? t4_index dim 1 (dim * dim) k' l')%nat then mul o (A i' a') (get dim T a' j' k' l') else zero o)).
  unfold sum4. transitivity (sum_below o dim (fun i' => if (i =? i')%nat then sum_below o dim (fun a => mul o (A i' a) (get dim T a j k l)) else zero o)); [|now apply (below_pick o L dim i (fun i' => sum_below o dim (fun a => mul o (A i' a) (get dim T a j k l))))].
  unfold sum2, sum1. apply (below_ext o). intros i' Hi'. destruct (Nat.eqb_spec i i') as [<-|Ne].
  - apply (below_ext o). intros a _. rewrite (below_single o L dim _ j Hj).
    + rewrite (below_single o L dim _ k Hk).
      * rewrite (below_single o L dim _ l Hl); [rewrite !t4_index_eq, !Nat.eqb_refl; reflexivity|]. intros l' Hl' Ne. rewrite !t4_index_eq, !index_eqb by assumption. rewrite (proj2 (Nat.eqb_neq l l')) by congruence. now rewrite !andb_false_r.
      * intros k' Hk' Ne. apply (below_zero o L). intros l' Hl'. rewrite !t4_index_eq, !index_eqb by assumption. rewrite (proj2 (Nat.eqb_neq k k')) by congruence. now rewrite andb_false_l, andb_false_r.
    + intros j' Hj' Ne. apply (below_zero o L). intros k' Hk'. apply (below_zero o L). intros l' Hl'. rewrite !t4_index_eq, !index_eqb by assumption. rewrite (proj2 (Nat.eqb_neq j j')) by congruence. now rewrite !andb_false_r, andb_false_l.
  - apply (below_zero o L). intros a _. apply (below_zero o L). intros j' Hj'. apply (below_zero o L). intros k' Hk'. apply (below_zero o L). intros l' Hl'.
    rewrite !t4_index_eq, !index_eqb by assumption. rewrite (proj2 (Nat.eqb_neq i i')) by congruence. reflexivity.
Qed.
Lemma dot42_value dim T B i j k l : (i < dim)%nat -> (j < dim)%nat -> (k < dim)%nat -> (l < dim)%nat ->
  get dim (dot42 o dim T B) i j k l = sum1 o dim (fun a => mul o (get dim T i j k a) (B a l)).
Proof.
  intros Hi Hj Hk Hl. rewrite get_eq. unfold dot42.
  rewrite (loop5_flat dim (fun r i j k a l => put dim r i j k l (add o (get dim r i j k l) (mul o (get dim T i j k a) (B a l))))).
  rewrite (fold_madd o L (fun x : quad * nat => t4_index dim 1 (dim * dim) (qi (fst x)) (qj (fst x))) (fun x => t4_index dim 1 (dim * dim) (qk (fst x)) (snd x)) (fun x => mul o (get dim T (qi (fst x)) (qj (fst x)) (qk (fst x)) (ql (fst x))) (B (ql (fst x)) (snd x)))).
  rewrite (Radd_0_l L).
  rewrite (sum_quints dim (fun i' j' k' a' l' => if (i + j * dim =? t4_index dim 1 (dim * dim) i' j')%nat && (k + l * dim =? t4_index dim 1 (dim * dim) k' l')%nat then mul o (get dim T i' j' k' a') (B a' l') else zero o)).
  unfold sum4, sum2, sum1. rewrite (below_single o L dim _ i Hi).
  - rewrite (below_single o L dim _ j Hj).
    + rewrite (below_single o L dim _ k Hk).
      * apply (below_ext o). intros a _. rewrite (below_single o L dim _ l Hl); [rewrite !t4_index_eq, !Nat.eqb_refl; reflexivity|]. intros l' Hl' Ne. rewrite !t4_index_eq, !index_eqb by assumption. rewrite (proj2 (Nat.eqb_neq l l')) by congruence. now rewrite !andb_false_r.
      * intros k' Hk' Ne. apply (below_zero o L). intros a _. apply (below_zero o L). intros l' Hl'. rewrite !t4_index_eq, !index_eqb by assumption. rewrite (proj2 (Nat.eqb_neq k k')) by congruence. now rewrite andb_false_l, andb_false_r.
    + intros j' Hj' Ne. apply (below_zero o L). intros k' Hk'. apply (below_zero o L). intros a _. apply (below_zero o L). intros l' Hl'. rewrite !t4_index_eq, !index_eqb by assumption. rewrite (proj2 (Nat.eqb_neq j j')) by congruence. now rewrite !andb_false_r, andb_false_l.
  - intros i' Hi' Ne. apply (below_zero o L). intros j' Hj'. apply (below_zero o L). intros k' Hk'. apply (below_zero o L). intros a _. apply (below_zero o L). intros l' Hl'. rewrite !t4_index_eq, !index_eqb by assumption. rewrite (proj2 (Nat.eqb_neq i i')) by congruence. reflexivity.
Qed.
Lemma ddot44_value dim S T i j k l : get dim (ddot44 o dim S T) i j k l = sum2 o dim (fun a b => mul o (get dim S i j a b) (get dim T a b k l)).
Proof. apply (mm_value o L). Qed.
Lemma ddot22_value dim A B : ddot22 o dim A B = sum2 o dim (fun i j => mul o (A i j) (B i j)).
Proof. reflexivity. Qed.
Lemma ddot44_assoc dim S T U : same (dim * dim) (dim * dim) (ddot44 o dim (ddot44 o dim S T) U) (ddot44 o dim S (ddot44 o dim T U)).
Proof. apply (mm_assoc_same o L). Qed.
Lemma ddot_tensmult dim S T B : same dim dim (tensmult4 o dim (ddot44 o dim S T) B) (tensmult4 o dim S (tensmult4 o dim T B)).
Proof.
  intros i j Hi Hj. rewrite !(tensmult_value o L) by assumption.
  transitivity (sum2 o dim (fun k l => sum2 o dim (fun a b => mul o (get dim S i j a b) (mul o (get dim T a b k l) (B k l))))).
  - apply sum2_ext. intros k l Hk Hl. rewrite ddot44_value. transitivity (mul o (B k l) (sum2 o dim (fun a b => mul o (get dim S i j a b) (get dim T a b k l)))); [ring|]. rewrite <- sum2_scale. apply sum2_ext. intros a b _ _. ring.
  - rewrite sum2_exchange. apply sum2_ext. intros a b Ha Hb. rewrite sum2_scale. f_equal. now rewrite (tensmult_value o L).
Qed.

(** Changes of axes. *)
Definition sand (n : nat) (P Q : matrix) (t : matrix) : matrix := mm o n (mm o n P t) Q.
Lemma sand_ext n r c P P' Q Q' t t' : same r n P P' -> same n c Q Q' -> same n n t t' -> same r c (sand n P Q t) (sand n P' Q' t').
Proof. intros HP HQ Ht. unfold sand. apply (mm_ext o); [|exact HQ]. apply (mm_ext o); assumption. Qed.
Lemma sand_sand n r c P Q P' Q' t : same r c (sand n P' Q' (sand n P Q t)) (sand n (mm o n P' P) (mm o n Q Q') t).
Proof.
  assert (CL : forall A B C i j, (forall i j, A i j = B i j) -> mm o n A C i j = mm o n B C i j) by (intros A B C i j H; unfold mm; apply (below_ext o); intros k _; now rewrite H).
  assert (CR : forall A B C i j, (forall i j, A i j = B i j) -> mm o n C A i j = mm o n C B i j) by (intros A B C i j H; unfold mm; apply (below_ext o); intros k _; now rewrite H).
  intros i j _ _. unfold sand. rewrite (mm_assoc o L). rewrite (CR _ (mm o n (mm o n P t) (mm o n Q Q'))) by (intros; apply (mm_assoc o L)).
  rewrite <- (mm_assoc o L). apply CL. intros. symmetry. apply (mm_assoc o L).
Qed.
Lemma sand_id n t : same n n (sand n (ident o) (ident o) t) t.
Proof. unfold sand. eapply (same_trans n n); [apply (mm_id_r o L)|apply (mm_id_l o L)]. Qed.

Lemma push2_sand n t F : push2 o n t F = sand n F (tr F) t.
Proof. reflexivity. Qed.
Lemma push4_sand n junk t F : push4 o n junk t F = sand (n * n) (outer_under o n junk F F) (outer_under o n junk (tr F) (tr F)) t.
Proof. reflexivity. Qed.
Lemma tr_same n m A B : same n m A B -> same m n (tr A) (tr B).
Proof. intros H i j Hi Hj. now apply H. Qed.
Lemma tr_mm_same n A B : same n n (mm o n (tr B) (tr A)) (tr (mm o n A B)).
Proof. intros i j _ _. symmetry. apply (tr_mm o L). Qed.

Lemma push1_push n c t F G : same n c (push1 o n (push1 o n t F) G) (push1 o n t (mm o n G F)).
Proof. intros i j _ _. symmetry. apply (mm_assoc o L). Qed.
Lemma push2_push n t F G : same n n (push2 o n (push2 o n t F) G) (push2 o n t (mm o n G F)).
Proof. rewrite !push2_sand. eapply same_trans; [apply sand_sand|]. apply sand_ext; [apply same_refl|apply tr_mm_same|apply same_refl]. Qed.
Lemma push4_push n j1 j2 j3 t F G : same (n * n) (n * n) (push4 o n j2 (push4 o n j1 t F) G) (push4 o n j3 t (mm o n G F)).
Proof.
  rewrite !push4_sand. eapply same_trans; [apply sand_sand|]. apply sand_ext; [apply (under_mm o L)| |apply same_refl].
  eapply same_trans; [apply (under_mm o L n _ _ j3)|]. apply (under_ext o); apply tr_mm_same.
Qed.
Lemma push1_ext n c t t' F F' : same n n F F' -> same n c t t' -> same n c (push1 o n t F) (push1 o n t' F').
Proof. apply (mm_ext o). Qed.
Lemma push2_ext n t t' F F' : same n n F F' -> same n n t t' -> same n n (push2 o n t F) (push2 o n t' F').
Proof. intros HF Ht. rewrite !push2_sand. apply sand_ext; [exact HF|now apply tr_same|exact Ht]. Qed.
Lemma push4_ext n j1 j2 t t' F F' : same n n F F' -> same (n * n) (n * n) t t' -> same (n * n) (n * n) (push4 o n j1 t F) (push4 o n j2 t' F').
Proof. intros HF Ht. rewrite !push4_sand. apply sand_ext; [now apply (under_ext o)|apply (under_ext o); now apply tr_same|exact Ht]. Qed.
Lemma tr_ident n : same n n (tr (ident o)) (ident o).
Proof. intros i j _ _. unfold tr, ident. now rewrite Nat.eqb_sym. Qed.
Lemma push1_id n c t : same n c (push1 o n t (ident o)) t.
Proof. apply (mm_id_l o L). Qed.
Lemma push2_id n t : same n n (push2 o n t (ident o)) t.
Proof. rewrite push2_sand. eapply same_trans; [|apply sand_id]. apply sand_ext; [apply same_refl|apply tr_ident|apply same_refl]. Qed.
Lemma push4_id n junk t : same (n * n) (n * n) (push4 o n junk t (ident o)) t.
Proof.
  rewrite push4_sand. eapply same_trans; [|apply sand_id]. apply sand_ext; [apply (under_ident o L)| |apply same_refl].
  eapply same_trans; [apply (under_ext o n _ junk); apply tr_ident|apply (under_ident o L)].
Qed.
Lemma inverse_mm n F G : inverse_of o n F G -> same n n (mm o n G F) (ident o) /\ same n n (mm o n F G) (ident o).
Proof. intros H. split; intros i j Hi Hj; destruct (H i j Hi Hj) as (X & Y); [exact X|exact Y]. Qed.

Lemma push1_round n c t F G : same n n (mm o n G F) (ident o) -> same n c (push1 o n (push1 o n t F) G) t.
Proof. intros H. eapply same_trans; [apply push1_push|]. eapply same_trans; [apply push1_ext; [exact H|apply same_refl]|apply push1_id]. Qed.
Lemma push2_round n t F G : same n n (mm o n G F) (ident o) -> same n n (push2 o n (push2 o n t F) G) t.
Proof. intros H. eapply same_trans; [apply push2_push|]. eapply same_trans; [apply push2_ext; [exact H|apply same_refl]|apply push2_id]. Qed.
Lemma push4_round n j1 j2 t F G : same n n (mm o n G F) (ident o) -> same (n * n) (n * n) (push4 o n j2 (push4 o n j1 t F) G) t.
Proof. intros H. eapply same_trans; [apply (push4_push n j1 j2 j1)|]. eapply same_trans; [apply (push4_ext n j1 j1); [exact H|apply same_refl]|apply push4_id]. Qed.

(** Index formulas. *)
Lemma push2_value n t F i j : push2 o n t F i j = sum2 o n (fun a b => mul o (mul o (F i a) (F j b)) (t a b)).
Proof.
  unfold push2. transitivity (sum_below o n (fun b => sum_below o n (fun a => mul o (mul o (F i a) (F j b)) (t a b)))).
  - unfold mm at 1. apply (below_ext o). intros b _. unfold mm, tr. rewrite <- (below_scale_r o L). apply (below_ext o). intros a _. ring.
  - apply (below_swap o L).
Qed.
Lemma push4_value n junk t F i j k l : (i < n)%nat -> (j < n)%nat -> (k < n)%nat -> (l < n)%nat ->
  get n (push4 o n junk t F) i j k l = sum4 o n (fun a b c d => mul o (mul o (mul o (F i a) (F j b)) (mul o (F k c) (F l d))) (get n t a b c d)).
Proof.
  intros Hi Hj Hk Hl. unfold push4. rewrite (mm_value o L).
  transitivity (sum2 o n (fun c d => sum2 o n (fun a b => mul o (mul o (mul o (F i a) (F j b)) (mul o (F k c) (F l d))) (get n t a b c d)))).
  - apply sum2_ext. intros c d Hc Hd. rewrite (mm_value o L), (under_value o) by assumption. unfold tr.
    transitivity (mul o (mul o (F k c) (F l d)) (sum2 o n (fun a b => mul o (get n (outer_under o n junk F F) i j a b) (get n t a b c d)))); [ring|].
    rewrite <- sum2_scale. apply sum2_ext. intros a b Ha Hb. rewrite (under_value o) by assumption. ring.
  - unfold sum4. apply sum2_exchange.
Qed.
End Tens.
