(** Runs of the gradient operator as sums of block updates. *)
From Coq Require Import ZArith Ring Permutation.
From Verif Require Import Base GridModel GridSpec RingModel RingProofs GradModel GradSpec.
Local Open Scope list_scope.

Lemma nth_map_seq {A} (f : nat -> A) n i d : (i < n)%nat -> nth i (map f (seq 0 n)) d = f i.
Proof. intros H. rewrite (nth_indep _ d (f 0%nat)) by now rewrite map_length, seq_length. now rewrite map_nth, seq_nth by exact H. Qed.

Section Updates.
Context {R : Type} (o : ops R) (L : lawful o).
Definition laws2 : ring_theory (zero o) (one o) (add o) (mul o) (sub o) (opp o) eq := L.
Add Ring o_ring2 : laws2.

Lemma blk_add_length mem pos len f : length (blk_add o mem pos len f) = length mem.
Proof. unfold blk_add. now rewrite map_length, seq_length. Qed.
Lemma blk_add_nth mem pos len f i : (i < length mem)%nat ->
  nth i (blk_add o mem pos len f) (zero o) = add o (nth i mem (zero o)) (if (pos <=? i)%nat && (i <? pos + len)%nat then f (i - pos)%nat else zero o).
Proof.
  intros H. unfold blk_add. set (F := fun i => _). rewrite (nth_indep _ (zero o) (F 0%nat)) by now rewrite map_length, seq_length.
  rewrite map_nth, seq_nth by exact H. unfold F. cbn [Nat.add]. destruct (_ && _); [reflexivity|]. now rewrite (Radd_comm L), (Radd_0_l L).
Qed.

Definition updates (len : nat) (ups : list (nat * (nat -> R))) (mem : list R) : list R := fold_left (fun m u => blk_add o m (fst u) len (snd u)) ups mem.
Lemma updates_length len ups : forall mem, length (updates len ups mem) = length mem.
Proof. induction ups as [|u ups IH]; intros mem; [reflexivity|]. unfold updates in *. cbn [fold_left]. now rewrite IH, blk_add_length. Qed.
Lemma updates_nth len ups i : forall mem, (i < length mem)%nat ->
  nth i (updates len ups mem) (zero o) =
  add o (nth i mem (zero o)) (sum_list o (fun u => if (fst u <=? i)%nat && (i <? fst u + len)%nat then snd u (i - fst u)%nat else zero o) ups).
Proof.
  induction ups as [|u ups IH]; intros mem H; [unfold updates; cbn [fold_left]; rewrite sum_nil; ring|].
  unfold updates in *. cbn [fold_left]. rewrite IH by now rewrite blk_add_length. rewrite blk_add_nth by exact H. rewrite sum_cons. ring.
Qed.
Lemma sum_guard n pos len f : (pos + len <= n)%nat ->
  sum_below o n (fun i => if (pos <=? i)%nat && (i <? pos + len)%nat then f i else zero o) = sum_below o len (fun k => f (pos + k)%nat).
Proof.
  intros H. replace n with (pos + (len + (n - pos - len)))%nat by lia. rewrite !(below_split o L).
  rewrite (below_zero o L pos) by (intros i Hi; destruct (Nat.leb_spec pos i); [lia|reflexivity]).
  rewrite (below_zero o L (n - pos - len)).
  - rewrite (below_ext o len _ (fun k => f (pos + k)%nat)); [ring|]. intros i Hi. destruct (Nat.leb_spec pos (pos + i)); [|lia]. destruct (Nat.ltb_spec (pos + i) (pos + len)); [reflexivity|lia].
  - intros i Hi. destruct (Nat.ltb_spec (pos + (len + i)) (pos + len)); [lia|]. now rewrite andb_false_r.
Qed.
Lemma dot_updates len ups w mem : (forall u, In u ups -> fst u + len <= length mem)%nat ->
  dot_product o (updates len ups mem) w =
  add o (dot_product o mem w) (sum_list o (fun u => sum_below o len (fun k => mul o (snd u k) (nth (fst u + k) w (zero o)))) ups).
Proof.
  intros H. unfold dot_product. rewrite updates_length.
  rewrite (below_ext o _ _ (fun i => add o (mul o (nth i mem (zero o)) (nth i w (zero o)))
    (sum_list o (fun u => if (fst u <=? i)%nat && (i <? fst u + len)%nat then mul o (snd u (i - fst u)%nat) (nth i w (zero o)) else zero o) ups))).
  - rewrite (below_add o L). f_equal. unfold sum_below at 1. rewrite (sum_swap o L). apply (sum_ext o). intros u Hu.
    pose proof (sum_guard (length mem) (fst u) len (fun i => mul o (snd u (i - fst u)%nat) (nth i w (zero o))) (H u Hu)) as X. unfold sum_below in X at 1. rewrite X.
    apply (below_ext o). intros k _. now replace (fst u + k - fst u)%nat with k by lia.
  - intros i Hi. rewrite updates_nth by exact Hi. transitivity (add o (mul o (nth i mem (zero o)) (nth i w (zero o))) (mul o (sum_list o (fun u => if (fst u <=? i)%nat && (i <? fst u + len)%nat then snd u (i - fst u)%nat else zero o) ups) (nth i w (zero o)))); [ring|].
    f_equal. rewrite <- (sum_scale_r o L). apply (sum_ext o). intros u _. destruct (_ && _); [reflexivity|ring].
Qed.
End Updates.

Lemma loop_nested {A B S} (f : A -> S -> B -> res S) m l : forall s,
  loop (fun s x => loop (f x) s m) s l = loop (fun s xy => f (fst xy) s (snd xy)) s (list_prod l m).
Proof.
  assert (App : forall (F : S -> A * B -> res S) a b s, loop F s (a ++ b) = let! s' := loop F s a in loop F s' b).
  { induction a as [|x a IH]; intros b s; [reflexivity|]. cbn [app loop]. destruct (F s x); cbn [bind]; auto. }
  assert (Map : forall x s, loop (fun s xy => f (fst xy) s (snd xy)) s (map (fun y => (x, y)) m) = loop (f x) s m).
  { intros x. induction m as [|y m' IH]; intros s; [reflexivity|]. cbn [map loop fst snd]. destruct (f x s y); cbn [bind]; auto. }
  induction l as [|x l IH]; intros s; [reflexivity|]. cbn [list_prod loop]. rewrite App, Map. destruct (loop (f x) s m); cbn [bind]; auto.
Qed.

Section Loops.
Context {R A : Type} (o : ops R).
Definition shape_of (f : gfield R) := (fd_global f, fd_colmajor f, fd_comps f, fd_pts f, length (fd_mem f)).
Lemma with_mem_shape (f : gfield R) m : length m = length (fd_mem f) -> shape_of (with_mem f m) = shape_of f.
Proof. unfold shape_of. cbn. now intros ->. Qed.
Lemma with_mem_id (f : gfield R) : with_mem f (fd_mem f) = f.
Proof. now destruct f. Qed.

Variables (body : gfield R -> A -> res (gfield R)) (ok : A -> res unit) (pos : A -> nat) (len : nat) (f : A -> nat -> R).
Lemma loop_ok s0 l :
  (forall s x, shape_of s = shape_of s0 -> body s x = let! _ := ok x in Ok (with_mem s (blk_add o (fd_mem s) (pos x) len (f x)))) ->
  (forall s', loop body s0 l = Ok s' ->
     (forall x, In x l -> ok x = Ok tt) /\ s' = with_mem s0 (updates o len (map (fun x => (pos x, f x)) l) (fd_mem s0))) /\
  ((forall x, In x l -> ok x = Ok tt) -> loop body s0 l = Ok (with_mem s0 (updates o len (map (fun x => (pos x, f x)) l) (fd_mem s0)))).
Proof.
  intros B. assert (G : forall s, shape_of s = shape_of s0 ->
    (forall s', loop body s l = Ok s' ->
     (forall x, In x l -> ok x = Ok tt) /\ s' = with_mem s (updates o len (map (fun x => (pos x, f x)) l) (fd_mem s))) /\
    ((forall x, In x l -> ok x = Ok tt) -> loop body s l = Ok (with_mem s (updates o len (map (fun x => (pos x, f x)) l) (fd_mem s))))).
  { induction l as [|x l IH]; intros s Hs.
    - split; [intros s' E; cbn in E; injection E as <-; split; [contradiction|]|intros _; cbn [loop map]]; unfold updates; cbn [map fold_left]; now rewrite with_mem_id.
    - set (s1 := with_mem s (blk_add o (fd_mem s) (pos x) len (f x))).
      assert (H1 : shape_of s1 = shape_of s0) by (unfold s1; rewrite with_mem_shape; [exact Hs|apply blk_add_length]).
      destruct (IH s1 H1) as (I1 & I2).
      assert (E1 : with_mem s1 (updates o len (map (fun x => (pos x, f x)) l) (fd_mem s1)) = with_mem s (updates o len (map (fun x => (pos x, f x)) (x :: l)) (fd_mem s))) by reflexivity.
      split.
      + intros s' E. cbn [loop] in E. rewrite (B s x Hs) in E. destruct (ok x) as [[]| |] eqn:Ox; cbn [bind] in E; try discriminate.
        destruct (I1 s' E) as (J1 & J2). split; [intros y [<-|Iy]; auto|]. now rewrite J2, E1.
      + intros H. cbn [loop]. rewrite (B s x Hs), (H x) by now left. cbn [bind]. fold s1. rewrite I2; [now rewrite E1|]. intros y Iy. apply H. now right. }
  exact (G s0 eq_refl).
Qed.
End Loops.
