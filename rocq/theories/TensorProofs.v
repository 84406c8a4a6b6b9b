(** Fourth-rank tensors stored as matrices. *)
From Coq Require Import ZArith Ring.
From Verif Require Import Base RingModel RingProofs TensorModel TensorSpec.
Local Open Scope list_scope.

Lemma t4_index_eq dim i j : t4_index dim 1 (dim * dim) i j = (i + j * dim)%nat.
Proof.
  unfold t4_index, my_stride. cbn [Nat.eqb]. rewrite Nat.mul_1_r. f_equal. f_equal.
  destruct (Nat.eqb_spec (dim * dim) 1) as [E|E]; [destruct (Nat.eq_mul_1 dim dim) as (X & _); destruct (X E) as (-> & _); reflexivity|].
  destruct dim as [|d]; [reflexivity|]. apply Nat.div_mul. lia.
Qed.
Lemma pair_unique dim i j i' j' : (i < dim)%nat -> (i' < dim)%nat -> (i + j * dim = i' + j' * dim)%nat -> i = i' /\ j = j'.
Proof.
  intros H H' E. assert (E' : (dim * j + i = dim * j' + i')%nat) by (rewrite !(Nat.mul_comm dim); lia). destruct (Nat.div_mod_unique dim j j' i i' H H' E'). auto.
Qed.
Lemma pair_bound dim i j : (i < dim)%nat -> (j < dim)%nat -> (i + j * dim < dim * dim)%nat.
Proof. intros Hi Hj. assert (S j * dim <= dim * dim)%nat by (apply Nat.mul_le_mono_r; lia). lia. Qed.
Lemma pair_split dim r : (r < dim * dim)%nat -> exists i j, (i < dim)%nat /\ (j < dim)%nat /\ r = (i + j * dim)%nat.
Proof.
  intros H. assert (dim <> 0%nat) by (destruct dim; cbn in H; lia). exists (r mod dim)%nat, (r / dim)%nat. split; [now apply Nat.mod_upper_bound|].
  split; [apply Nat.div_lt_upper_bound; lia|]. pose proof (Nat.div_mod r dim). lia.
Qed.

Lemma fold_nested {A B S} (f : S -> A -> B -> S) m l : forall s,
  fold_left (fun s x => fold_left (fun s y => f s x y) m s) l s = fold_left (fun s p => f s (fst p) (snd p)) (list_prod l m) s.
Proof.
  assert (M : forall x s, fold_left (fun s p => f s (fst p) (snd p)) (map (fun y => (x, y)) m) s = fold_left (fun s y => f s x y) m s) by (intros x; induction m as [|y m IH]; intros s; [reflexivity|]; cbn; apply IH).
  induction l as [|x l IH]; intros s; [reflexivity|]. cbn [list_prod fold_left]. now rewrite fold_left_app, M, IH.
Qed.
Definition quad := ((nat * nat * nat) * nat)%type.
Definition quads (n : nat) : list quad := list_prod (list_prod (list_prod (seq 0 n) (seq 0 n)) (seq 0 n)) (seq 0 n).
Definition qi (x : quad) := fst (fst (fst x)).
Definition qj (x : quad) := snd (fst (fst x)).
Definition qk (x : quad) := snd (fst x).
Definition ql (x : quad) := snd x.
Lemma loop4_flat {S} n (body : S -> nat -> nat -> nat -> nat -> S) s : loop4 n body s = fold_left (fun s x => body s (qi x) (qj x) (qk x) (ql x)) (quads n) s.
Proof.
  unfold loop4. rewrite (fold_nested (fun s i j => fold_left (fun s k => fold_left (fun s l => body s i j k l) (seq 0 n) s) (seq 0 n) s)).
  rewrite (fold_nested (fun s ij k => fold_left (fun s l => body s (fst ij) (snd ij) k l) (seq 0 n) s)).
  rewrite (fold_nested (fun s ijk l => body s (fst (fst ijk)) (snd (fst ijk)) (snd ijk) l)). reflexivity.
Qed.
Lemma quads_in n i j k l : (i < n)%nat -> (j < n)%nat -> (k < n)%nat -> (l < n)%nat -> In (i, j, k, l) (quads n).
Proof. intros. unfold quads. repeat (apply in_prod); apply in_seq; lia. Qed.
Lemma quads_bound n x : In x (quads n) -> (qi x < n /\ qj x < n /\ qk x < n /\ ql x < n)%nat.
Proof.
  destruct x as [[[i j] k] l]. unfold quads. intros I. apply in_prod_iff in I. destruct I as (I & Il). apply in_prod_iff in I. destruct I as (I & Ik). apply in_prod_iff in I. destruct I as (Ii & Ij).
  apply in_seq in Ii, Ij, Ik, Il. cbn. lia.
Qed.

Section Tens.
Context {R : Type} (o : ops R) (L : lawful o).
Definition tlaws : ring_theory (zero o) (one o) (add o) (mul o) (sub o) (opp o) eq := L.
Add Ring t_ring : tlaws.
Local Notation matrix := (nat -> nat -> R).

Lemma get_eq dim (t : matrix) i j k l : get dim t i j k l = t (i + j * dim)%nat (k + l * dim)%nat.
Proof. unfold get, get_at. now rewrite !t4_index_eq. Qed.

Lemma fold_mset {A} (r c : A -> nat) (v : A -> R) l : forall t x0,
  In x0 l -> (forall x y, In x l -> In y l -> r x = r y -> c x = c y -> x = y) ->
  fold_left (fun t x => mset t (r x) (c x) (v x)) l t (r x0) (c x0) = v x0.
Proof.
  assert (Keep : forall l t a b, (forall x, In x l -> ~ (r x = a /\ c x = b)) -> fold_left (fun t x => mset t (r x) (c x) (v x)) l t a b = t a b).
  { clear. induction l as [|x l IH]; intros t a b H; [reflexivity|]. cbn [fold_left]. rewrite IH by (intros; apply H; now right). unfold mset.
    destruct (Nat.eqb_spec a (r x)); [|reflexivity]. destruct (Nat.eqb_spec b (c x)); [|reflexivity]. exfalso. apply (H x); [now left|auto]. }
  assert (Set1 : forall l t x0, In x0 l -> (forall x, In x l -> r x = r x0 -> c x = c x0 -> v x = v x0) -> fold_left (fun t x => mset t (r x) (c x) (v x)) l t (r x0) (c x0) = v x0).
  { clear - Keep. induction l as [|x l IH]; intros t x0 I H; [contradiction|]. cbn [fold_left].
    destruct (in_dec Nat.eq_dec 0%nat (map (fun y => if (r y =? r x0)%nat && (c y =? c x0)%nat then 0%nat else 1%nat) l)) as [J|J].
    - apply in_map_iff in J. destruct J as (y & Ey & Iy). destruct (Nat.eqb_spec (r y) (r x0)) as [E1|]; [|discriminate]. destruct (Nat.eqb_spec (c y) (c x0)) as [E2|]; [|discriminate].
      rewrite <- E1, <- E2. rewrite IH; [apply H; [now right|exact E1|exact E2]|exact Iy|]. intros z Iz Z1 Z2. rewrite (H y), (H z); auto; [now right|congruence|congruence|now right].
    - rewrite Keep.
      + destruct I as [->|I]; [unfold mset; now rewrite !Nat.eqb_refl|]. exfalso. apply J. apply in_map_iff. exists x0. now rewrite !Nat.eqb_refl.
      + intros y Iy (E1 & E2). apply J. apply in_map_iff. exists y. rewrite E1, E2, !Nat.eqb_refl. auto. }
  intros t x0 I Inj. apply Set1; [exact I|]. intros x Ix E1 E2. now rewrite (Inj x x0 Ix I E1 E2).
Qed.
Lemma fold_madd {A} (r c : A -> nat) (v : A -> R) l : forall t a b,
  fold_left (fun t x => mset t (r x) (c x) (add o (t (r x) (c x)) (v x))) l t a b =
  add o (t a b) (sum_list o (fun x => if (a =? r x)%nat && (b =? c x)%nat then v x else zero o) l).
Proof.
  induction l as [|x l IH]; intros t a b; [cbn; ring|]. cbn [fold_left]. rewrite IH, sum_cons. unfold mset at 1. destruct (Nat.eqb_spec a (r x)) as [->|]; destruct (Nat.eqb_spec b (c x)) as [->|]; cbn [andb]; ring.
Qed.

(** Filling all components. *)
Lemma loop4_put dim (F : nat -> nat -> nat -> nat -> R) junk i j k l : (i < dim)%nat -> (j < dim)%nat -> (k < dim)%nat -> (l < dim)%nat ->
  get dim (loop4 dim (fun t i j k l => put dim t i j k l (F i j k l)) junk) i j k l = F i j k l.
Proof.
  intros Hi Hj Hk Hl. rewrite loop4_flat, get_eq. unfold put.
  set (r := fun x : quad => t4_index dim 1 (dim * dim) (qi x) (qj x)). set (c := fun x : quad => t4_index dim 1 (dim * dim) (qk x) (ql x)).
  replace (i + j * dim)%nat with (r (i, j, k, l)) by (unfold r; rewrite t4_index_eq; reflexivity). replace (k + l * dim)%nat with (c (i, j, k, l)) by (unfold c; rewrite t4_index_eq; reflexivity).
  rewrite (fold_mset r c (fun x => F (qi x) (qj x) (qk x) (ql x))); [reflexivity|now apply quads_in|].
  intros [[[a b] u] v] [[[a' b'] u'] v'] Ix Iy E1 E2. apply quads_bound in Ix, Iy. unfold r, c in E1, E2. rewrite !t4_index_eq in E1, E2. unfold qi, qj, qk, ql in *. cbn [fst snd] in *.
  destruct (pair_unique dim a b a' b') as (-> & ->); try tauto. destruct (pair_unique dim u v u' v') as (-> & ->); tauto.
Qed.

Lemma outer_value dim junk A B i j k l : (i < dim)%nat -> (j < dim)%nat -> (k < dim)%nat -> (l < dim)%nat -> get dim (outer o dim junk A B) i j k l = mul o (A i j) (B k l).
Proof. intros. unfold outer. now rewrite (loop4_put dim (fun i j k l => mul o (A i j) (B k l))). Qed.
Lemma under_value dim junk A B i j k l : (i < dim)%nat -> (j < dim)%nat -> (k < dim)%nat -> (l < dim)%nat -> get dim (outer_under o dim junk A B) i j k l = mul o (A i k) (B j l).
Proof. intros. unfold outer_under. now rewrite (loop4_put dim (fun i j k l => mul o (A i k) (B j l))). Qed.
Lemma over_value dim junk A B i j k l : (i < dim)%nat -> (j < dim)%nat -> (k < dim)%nat -> (l < dim)%nat -> get dim (outer_over o dim junk A B) i j k l = mul o (A i l) (B j k).
Proof. intros. unfold outer_over. now rewrite (loop4_put dim (fun i j k l => mul o (A i l) (B j k))). Qed.

(** Sums over index tuples with fixed members. *)
Lemma sum_quads n (f : nat -> nat -> nat -> nat -> R) : sum_list o (fun x => f (qi x) (qj x) (qk x) (ql x)) (quads n) = sum4 o n f.
Proof.
  unfold quads, sum4, sum2, sum1, sum_below. rewrite (sum_prod o L (fun ijk l => f (fst (fst ijk)) (snd (fst ijk)) (snd ijk) l)).
  rewrite (sum_prod o L (fun ij k => sum_list o (f (fst ij) (snd ij) k) (seq 0 n))).
  rewrite (sum_prod o L (fun i j => sum_list o (fun k => sum_list o (f i j k) (seq 0 n)) (seq 0 n))). reflexivity.
Qed.
Lemma below_pick n a (f : nat -> R) : (a < n)%nat -> sum_below o n (fun i => if (a =? i)%nat then f i else zero o) = f a.
Proof. intros H. rewrite (below_single o L n _ a H); [now rewrite Nat.eqb_refl|]. intros i _ Ne. destruct (Nat.eqb_spec a i); [congruence|reflexivity]. Qed.
Lemma below_if n (b : bool) (f : nat -> R) : sum_below o n (fun i => if b then f i else zero o) = if b then sum_below o n f else zero o.
Proof. destruct b; [reflexivity|]. now apply (below_zero o L). Qed.

Lemma tensmult_value dim A B i j : (i < dim)%nat -> (j < dim)%nat -> tensmult4 o dim A B i j = sum2 o dim (fun k l => mul o (get dim A i j k l) (B k l)).
Proof.
  intros Hi Hj. unfold tensmult4. rewrite loop4_flat.
  rewrite (fold_madd qi qj (fun x => mul o (get dim A (qi x) (qj x) (qk x) (ql x)) (B (qk x) (ql x)))).
  rewrite (sum_quads dim (fun a b c d => if (i =? a)%nat && (j =? b)%nat then mul o (get dim A a b c d) (B c d) else zero o)). rewrite (Radd_0_l L).
  unfold sum4, sum2, sum1. transitivity (sum_below o dim (fun a => if (i =? a)%nat then sum_below o dim (fun b => if (j =? b)%nat then sum_below o dim (fun k => sum_below o dim (fun l => mul o (get dim A a b k l) (B k l))) else zero o) else zero o)).
  - apply (below_ext o). intros a _. rewrite <- below_if. apply (below_ext o). intros b _. destruct (i =? a)%nat; cbn [andb].
    + rewrite <- below_if. apply (below_ext o). intros k _. apply below_if.
    + apply (below_zero o L). intros k _. now apply (below_zero o L).
  - rewrite below_pick by exact Hi. now rewrite below_pick by exact Hj.
Qed.

(** Products of matrices that represent fourth-rank tensors. *)
Lemma mm_value dim A B i j k l : get dim (mm o (dim * dim) A B) i j k l = sum2 o dim (fun a b => mul o (get dim A i j a b) (get dim B a b k l)).
Proof.
  rewrite get_eq. unfold mm. rewrite (below_mul o L). unfold sum2, sum1. rewrite (below_swap o L). apply (below_ext o). intros a _. apply (below_ext o). intros b _. now rewrite !get_eq.
Qed.
Lemma same_get dim (A B : matrix) : (forall i j k l, (i < dim)%nat -> (j < dim)%nat -> (k < dim)%nat -> (l < dim)%nat -> get dim A i j k l = get dim B i j k l) -> same (dim * dim) (dim * dim) A B.
Proof.
  intros H r c Hr Hc. destruct (pair_split dim r Hr) as (i & j & Hi & Hj & ->), (pair_split dim c Hc) as (k & l & Hk & Hl & ->). specialize (H i j k l Hi Hj Hk Hl). now rewrite !get_eq in H.
Qed.
Lemma get_same dim (A B : matrix) i j k l : same (dim * dim) (dim * dim) A B -> (i < dim)%nat -> (j < dim)%nat -> (k < dim)%nat -> (l < dim)%nat -> get dim A i j k l = get dim B i j k l.
Proof. intros H Hi Hj Hk Hl. rewrite !get_eq. apply H; now apply pair_bound. Qed.

(** Matrix algebra. *)
Lemma mm_assoc n A B C i j : mm o n (mm o n A B) C i j = mm o n A (mm o n B C) i j.
Proof.
  unfold mm. transitivity (sum_below o n (fun k => sum_below o n (fun m => mul o (mul o (A i m) (B m k)) (C k j)))).
  - apply (below_ext o). intros k _. now rewrite <- (below_scale_r o L).
  - rewrite (below_swap o L). apply (below_ext o). intros m _. rewrite <- (below_scale o L). apply (below_ext o). intros k _. ring.
Qed.
Lemma mm_ext n r c A A' B B' : same r n A A' -> same n c B B' -> same r c (mm o n A B) (mm o n A' B').
Proof. intros HA HB i j Hi Hj. unfold mm. apply (below_ext o). intros k Hk. now rewrite HA, HB. Qed.
Lemma mm_id_l n c A : same n c (mm o n (ident o) A) A.
Proof.
  intros i j Hi _. unfold mm, ident. rewrite (below_single o L n _ i Hi); [rewrite Nat.eqb_refl; ring|]. intros k _ Ne. destruct (Nat.eqb_spec i k); [congruence|ring].
Qed.
Lemma mm_id_r n r A : same r n (mm o n A (ident o)) A.
Proof.
  intros i j _ Hj. unfold mm, ident. rewrite (below_single o L n _ j Hj); [rewrite Nat.eqb_refl; ring|]. intros k _ Ne. destruct (Nat.eqb_spec k j); [congruence|ring].
Qed.
Lemma same_refl n m A : same (R := R) n m A A.
Proof. intros i j _ _. reflexivity. Qed.
Lemma same_sym n m A B : same (R := R) n m A B -> same n m B A.
Proof. intros H i j Hi Hj. symmetry. now apply H. Qed.
Lemma same_trans n m A B C : same (R := R) n m A B -> same n m B C -> same n m A C.
Proof. intros H K i j Hi Hj. rewrite H by assumption. now apply K. Qed.
Lemma mm_assoc_same n r c A B C : same r c (mm o n (mm o n A B) C) (mm o n A (mm o n B C)).
Proof. intros i j _ _. apply mm_assoc. Qed.
Lemma tr_mm n A B i j : tr (mm o n A B) i j = mm o n (tr B) (tr A) i j.
Proof. unfold tr, mm. apply (below_ext o). intros k _. ring. Qed.

Lemma under_mm dim junk junk' junk'' A B C E :
  same (dim * dim) (dim * dim) (mm o (dim * dim) (outer_under o dim junk A B) (outer_under o dim junk' C E)) (outer_under o dim junk'' (mm o dim A C) (mm o dim B E)).
Proof.
  apply same_get. intros i j k l Hi Hj Hk Hl. rewrite mm_value, under_value by assumption. unfold mm, sum2, sum1.
  rewrite <- (below_scale_r o L). apply (below_ext o). intros a Ha. rewrite <- (below_scale o L). apply (below_ext o). intros b Hb. rewrite !under_value by assumption. ring.
Qed.
Lemma under_ext dim junk junk' A A' B B' : same dim dim A A' -> same dim dim B B' -> same (dim * dim) (dim * dim) (outer_under o dim junk A B) (outer_under o dim junk' A' B').
Proof. intros HA HB. apply same_get. intros i j k l Hi Hj Hk Hl. rewrite !under_value by assumption. now rewrite HA, HB. Qed.
Lemma under_ident dim junk : same (dim * dim) (dim * dim) (outer_under o dim junk (ident o) (ident o)) (ident o).
Proof.
  apply same_get. intros i j k l Hi Hj Hk Hl. rewrite under_value, get_eq by assumption. unfold ident.
  destruct (Nat.eqb_spec (i + j * dim) (k + l * dim)) as [E|E].
  - destruct (pair_unique dim i j k l Hi Hk E) as (-> & ->). rewrite !Nat.eqb_refl. ring.
  - destruct (Nat.eqb_spec i k); [|ring]. destruct (Nat.eqb_spec j l); [subst; contradiction|ring].
Qed.
End Tens.
