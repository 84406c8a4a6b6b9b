(** Finite sums in a commutative ring. *)
From Coq Require Import ZArith Ring InitialRing Setoid Permutation.
From Verif Require Import Base RingModel.
Local Open Scope list_scope.

Lemma zops_lawful : lawful zops.
Proof. exact InitialRing.Zth. Qed.

Section Sums.
Context {R : Type} (o : ops R) (L : lawful o).
Definition laws : ring_theory (zero o) (one o) (add o) (mul o) (sub o) (opp o) eq := L.
Add Ring o_ring : laws.
Local Notation "0" := (zero o).
Local Notation "1" := (one o).
Local Notation "x + y" := (add o x y).
Local Notation "x * y" := (mul o x y).
Local Notation "x - y" := (sub o x y).
Local Notation "- x" := (opp o x).

Lemma sum_nil {A} (f : A -> R) : sum_list o f [] = 0.
Proof. reflexivity. Qed.
Lemma sum_cons {A} (f : A -> R) x l : sum_list o f (x :: l) = f x + sum_list o f l.
Proof. reflexivity. Qed.
Lemma sum_app {A} (f : A -> R) l m : sum_list o f (l ++ m) = sum_list o f l + sum_list o f m.
Proof. induction l as [|x l IH]; cbn [app]; rewrite ?sum_cons, ?sum_nil; [ring|rewrite IH; ring]. Qed.
Lemma sum_ext {A} (f g : A -> R) l : (forall x, In x l -> f x = g x) -> sum_list o f l = sum_list o g l.
Proof. intros H. induction l as [|x l IH]; [reflexivity|]. rewrite !sum_cons, H, IH; [reflexivity|intros; apply H; now right|now left]. Qed.
Lemma sum_zero {A} (f : A -> R) l : (forall x, In x l -> f x = 0) -> sum_list o f l = 0.
Proof. intros H. induction l as [|x l IH]; [reflexivity|]. rewrite sum_cons, H, IH; [ring|intros; apply H; now right|now left]. Qed.
Lemma sum_add {A} (f g : A -> R) l : sum_list o (fun x => f x + g x) l = sum_list o f l + sum_list o g l.
Proof. induction l as [|x l IH]; rewrite ?sum_nil, ?sum_cons; [ring|rewrite IH; ring]. Qed.
Lemma sum_scale {A} (f : A -> R) a l : sum_list o (fun x => a * f x) l = a * sum_list o f l.
Proof. induction l as [|x l IH]; rewrite ?sum_nil, ?sum_cons; [ring|rewrite IH; ring]. Qed.
Lemma sum_scale_r {A} (f : A -> R) a l : sum_list o (fun x => f x * a) l = sum_list o f l * a.
Proof. induction l as [|x l IH]; rewrite ?sum_nil, ?sum_cons; [ring|rewrite IH; ring]. Qed.
Lemma sum_opp {A} (f : A -> R) l : sum_list o (fun x => - f x) l = - sum_list o f l.
Proof. induction l as [|x l IH]; rewrite ?sum_nil, ?sum_cons; [ring|rewrite IH; ring]. Qed.
Lemma sum_swap {A B} (f : A -> B -> R) l m : sum_list o (fun x => sum_list o (f x) m) l = sum_list o (fun y => sum_list o (fun x => f x y) l) m.
Proof.
  induction l as [|x l IH]; [rewrite sum_nil; symmetry; now apply sum_zero|]. rewrite sum_cons, IH, <- sum_add. reflexivity.
Qed.
Lemma sum_map {A B} (f : B -> R) (g : A -> B) l : sum_list o f (map g l) = sum_list o (fun x => f (g x)) l.
Proof. induction l as [|x l IH]; [reflexivity|]. cbn [map]. now rewrite !sum_cons, IH. Qed.
Lemma sum_perm {A} (f : A -> R) l m : Permutation l m -> sum_list o f l = sum_list o f m.
Proof. induction 1; rewrite ?sum_cons; [reflexivity|now rewrite IHPermutation|ring|congruence]. Qed.
(** A sum with one term that may differ from zero. *)
Lemma sum_single {A} (f : A -> R) l a : NoDup l -> In a l -> (forall x, In x l -> x <> a -> f x = 0) -> sum_list o f l = f a.
Proof.
  intros N I H. induction l as [|x l IH]; [contradiction|]. inversion N as [|? ? Nx Nl]; subst. rewrite sum_cons. destruct I as [->|I].
  - rewrite sum_zero; [ring|]. intros y Iy. apply H; [now right|]. intros ->. contradiction.
  - rewrite (H x), IH; [ring|exact Nl|exact I|intros; apply H; [now right|assumption]|now left|]. intros ->. contradiction.
Qed.
Lemma sum_prod {A B} (f : A -> B -> R) l m : sum_list o (fun p => f (fst p) (snd p)) (list_prod l m) = sum_list o (fun x => sum_list o (f x) m) l.
Proof. induction l as [|x l IH]; [reflexivity|]. cbn [list_prod]. rewrite sum_app, IH, sum_cons, sum_map. reflexivity. Qed.

Lemma below_ext n f g : (forall i, (i < n)%nat -> f i = g i) -> sum_below o n f = sum_below o n g.
Proof. intros H. apply sum_ext. intros i I. apply H. apply in_seq in I. lia. Qed.
Lemma below_zero n f : (forall i, (i < n)%nat -> f i = 0) -> sum_below o n f = 0.
Proof. intros H. apply sum_zero. intros i I. apply H. apply in_seq in I. lia. Qed.
Lemma below_single n f a : (a < n)%nat -> (forall i, (i < n)%nat -> i <> a -> f i = 0) -> sum_below o n f = f a.
Proof. intros B H. apply sum_single; [apply seq_NoDup|apply in_seq; lia|]. intros i I. apply in_seq in I. apply H. lia. Qed.
Lemma below_add n f g : sum_below o n (fun i => f i + g i) = sum_below o n f + sum_below o n g.
Proof. apply sum_add. Qed.
Lemma below_scale n f a : sum_below o n (fun i => a * f i) = a * sum_below o n f.
Proof. apply sum_scale. Qed.
Lemma below_scale_r n f a : sum_below o n (fun i => f i * a) = sum_below o n f * a.
Proof. apply sum_scale_r. Qed.
Lemma below_swap n m f : sum_below o n (fun i => sum_below o m (f i)) = sum_below o m (fun j => sum_below o n (fun i => f i j)).
Proof. apply sum_swap. Qed.
Lemma below_S n f : sum_below o (S n) f = sum_below o n f + f n.
Proof. unfold sum_below. rewrite seq_S, sum_app, sum_cons, sum_nil. cbn [Nat.add]. ring. Qed.
Lemma below_split n m f : sum_below o (n + m) f = sum_below o n f + sum_below o m (fun i => f (n + i)%nat).
Proof. induction m as [|m IH]; [rewrite Nat.add_0_r; unfold sum_below at 3; cbn; ring|]. rewrite Nat.add_succ_r, !below_S, IH. ring. Qed.
(** A sum over a product of ranges, in the order of [i + j * n]. *)
Lemma below_mul n m f : sum_below o (n * m) f = sum_below o m (fun j => sum_below o n (fun i => f (i + j * n)%nat)).
Proof.
  induction m as [|m IH]; [rewrite Nat.mul_0_r; reflexivity|]. rewrite Nat.mul_succ_r, below_split, below_S, IH. f_equal. apply below_ext. intros i _. f_equal. lia.
Qed.
Lemma sum_nth {A} (d : A) (f : A -> R) l : sum_list o f l = sum_below o (length l) (fun i => f (nth i l d)).
Proof.
  unfold sum_below. rewrite <- sum_map with (f := f) (g := fun i => nth i l d). f_equal. clear. induction l as [|x l IH]; [reflexivity|]. cbn [length seq map nth]. f_equal. rewrite <- seq_shift, map_map. exact IH.
Qed.
End Sums.
