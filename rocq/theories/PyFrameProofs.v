From Coq Require Import String.
From Verif Require Import Base FrameModel FrameProofs PyCommModel PyArgModel PyArgProofs PyFrameModel PyFrameSpec.
Local Open Scope Z_scope.
Local Open Scope list_scope.

Lemma nth_upd_eq {A} (l : list A) : forall i v x, nth_error l i = Some x -> nth_error (upd l i v) i = Some v.
Proof. induction l as [|a l IH]; intros [|i] v x E; try discriminate; [reflexivity|]. cbn in *. eauto. Qed.
Lemma nth_upd_ne {A} (l : list A) : forall i j v, i <> j -> nth_error (upd l i v) j = nth_error l j.
Proof. induction l as [|a l IH]; intros [|i] [|j] v N; try reflexivity; try lia. cbn. apply IH. lia. Qed.

Lemma frame_at_in nb k : 0 <= k < nb -> frame_at nb k = Ok k.
Proof. intros H. unfold frame_at. destruct (Z.ltb_spec k 0); [lia|]. cbn [andb]. destruct (Z.ltb_spec nb k); [lia|reflexivity]. Qed.

Lemma pfstep_nb s o : p_nb (fst (pfstep s o)) = p_nb s + Z.of_nat (if appending o then 1 else 0).
Proof.
  destruct o; cbn [pfstep fst p_nb appending]; try lia.
  - destruct (nth_error (p_iters s) i); [|cbn; lia]. destruct (iter_next _ _). cbn. lia.
  - destruct (nth_error (p_revs s) i); [|cbn; lia]. destruct (rev_next _ _). cbn. lia.
Qed.
Lemma pfrun_nb h : forall s, p_nb (fst (pfrun s h)) = p_nb s + Z.of_nat (count appending h).
Proof.
  induction h as [|o h IH]; intros s; cbn [pfrun]; [cbn; lia|]. pose proof (pfstep_nb s o) as E. destruct (pfstep s o) as [s1 x]. specialize (IH s1).
  destruct (pfrun s1 h) as [s2 l]. cbn [fst] in *. unfold count in *. cbn [filter]. destruct (appending o); cbn [length]; lia.
Qed.

(** An iterator over [n] frames after [j] calls *)
Definition state_after (n : Z) (j : nat) : frame_iter :=
  if (j =? 0)%nat then mk_iter 0 n true else if Z.of_nat j <=? n then mk_iter (Z.of_nat j - 1) n false else mk_iter n n true.
Lemma iter_step nb n j : 0 <= n <= nb -> iter_next nb (state_after n j) = (state_after n (S j), forwards n j).
Proof.
  intros H. unfold state_after, forwards, iter_next. replace (S j =? 0)%nat with false by reflexivity. destruct (Nat.eqb_spec j 0) as [->|Nj]; cbn [it_at it_end it_idle].
  - change (Z.of_nat 0) with 0. change (Z.of_nat 1) with 1. destruct (Z.eqb_spec 0 n); destruct (Z.ltb_spec 0 n); destruct (Z.leb_spec 1 n); try lia.
    + now subst.
    + now rewrite frame_at_in by lia.
  - destruct (Z.leb_spec (Z.of_nat j) n); cbn [it_at it_end it_idle].
    + replace (Z.of_nat j - 1 + 1) with (Z.of_nat j) by lia. destruct (Z.eqb_spec (Z.of_nat j) n); destruct (Z.ltb_spec (Z.of_nat j) n); destruct (Z.leb_spec (Z.of_nat (S j)) n); try lia.
      * now rewrite e.
      * rewrite frame_at_in by lia. cbn [frame_out]. now replace (Z.of_nat (S j) - 1) with (Z.of_nat j) by lia.
    + rewrite Z.eqb_refl. destruct (Z.ltb_spec (Z.of_nat j) n); destruct (Z.leb_spec (Z.of_nat (S j)) n); try lia. reflexivity.
Qed.
Lemma iter_run n i h : forall s j, 0 <= n <= p_nb s -> nth_error (p_iters s) i = Some (state_after n j) ->
  results (next_of i) h (snd (pfrun s h)) = map (forwards n) (seq j (count (next_of i) h)).
Proof.
  induction h as [|o h IH]; intros s j H E; [reflexivity|].
  pose proof (pfstep_nb s o) as Nb. unfold count. cbn [pfrun filter].
  destruct (next_of i o) eqn:F.
  - destruct o; try discriminate. cbn [next_of] in F. apply Nat.eqb_eq in F. subst i0. cbn [pfstep] in *. rewrite E in *. rewrite iter_step in * by exact H.
    specialize (IH (mk_pyfile (p_nb s) (upd (p_iters s) i (state_after n (S j))) (p_revs s)) (S j)). destruct (pfrun _ h) as [s2 l]. cbn [snd results length seq map].
    cbn [next_of]. rewrite Nat.eqb_refl. apply (f_equal (cons _)). apply IH; [exact H|]. cbn [p_iters]. exact (nth_upd_eq _ _ _ _ E).
  - destruct (pfstep s o) as [s1 x] eqn:St. cbn [fst] in Nb. specialize (IH s1 j). destruct (pfrun s1 h) as [s2 l]. cbn [snd results]. rewrite F. apply IH; [lia|].
    destruct o; cbn [pfstep] in St; try (inversion St; subst; cbn [p_iters]; exact E).
    + inversion St; subst; cbn [p_iters]. rewrite nth_error_app1; [exact E|]. apply nth_error_Some. congruence.
    + cbn [next_of] in F. apply Nat.eqb_neq in F. destruct (nth_error (p_iters s) i0); [|inversion St; subst; exact E]. destruct (iter_next _ _). inversion St; subst. cbn [p_iters].
      rewrite nth_upd_ne by congruence. exact E.
    + destruct (nth_error (p_revs s) i0); [|inversion St; subst; exact E]. destruct (rev_next _ _). inversion St; subst. exact E.
Qed.

Definition left_after (n : Z) (j : nat) : Z := Z.max (-1) (n - 1 - Z.of_nat j).
Lemma rev_step nb n j : 0 <= n <= nb -> rev_next nb (left_after n j) = (left_after n (S j), backwards n j).
Proof.
  intros H. unfold left_after, backwards, rev_next. destruct (Z.ltb_spec (Z.of_nat j) n).
  - replace (Z.max (-1) (n - 1 - Z.of_nat j)) with (n - 1 - Z.of_nat j) by lia. destruct (Z.ltb_spec (n - 1 - Z.of_nat j) 0); [lia|].
    rewrite frame_at_in by lia. now replace (Z.max (-1) (n - 1 - Z.of_nat (S j))) with (n - 1 - Z.of_nat j - 1) by lia.
  - replace (Z.max (-1) (n - 1 - Z.of_nat j)) with (-1) by lia. now replace (Z.max (-1) (n - 1 - Z.of_nat (S j))) with (-1) by lia.
Qed.
Lemma rev_run n i h : forall s j, 0 <= n <= p_nb s -> nth_error (p_revs s) i = Some (left_after n j) ->
  results (previous_of i) h (snd (pfrun s h)) = map (backwards n) (seq j (count (previous_of i) h)).
Proof.
  induction h as [|o h IH]; intros s j H E; [reflexivity|].
  pose proof (pfstep_nb s o) as Nb. unfold count. cbn [pfrun filter].
  destruct (previous_of i o) eqn:F.
  - destruct o; try discriminate. cbn [previous_of] in F. apply Nat.eqb_eq in F. subst i0. cbn [pfstep] in *. rewrite E in *. rewrite rev_step in * by exact H.
    specialize (IH (mk_pyfile (p_nb s) (p_iters s) (upd (p_revs s) i (left_after n (S j)))) (S j)). destruct (pfrun _ h) as [s2 l]. cbn [snd results length seq map].
    cbn [previous_of]. rewrite Nat.eqb_refl. apply (f_equal (cons _)). apply IH; [exact H|]. cbn [p_revs]. exact (nth_upd_eq _ _ _ _ E).
  - destruct (pfstep s o) as [s1 x] eqn:St. cbn [fst] in Nb. specialize (IH s1 j). destruct (pfrun s1 h) as [s2 l]. cbn [snd results]. rewrite F. apply IH; [lia|].
    destruct o; cbn [pfstep] in St; try (inversion St; subst; cbn [p_revs]; exact E).
    + destruct (nth_error (p_iters s) i0); [|inversion St; subst; exact E]. destruct (iter_next _ _). inversion St; subst. exact E.
    + inversion St; subst; cbn [p_revs]. rewrite nth_error_app1; [exact E|]. apply nth_error_Some. congruence.
    + cbn [previous_of] in F. apply Nat.eqb_neq in F. destruct (nth_error (p_revs s) i0); [|inversion St; subst; exact E]. destruct (rev_next _ _). inversion St; subst. cbn [p_revs].
      rewrite nth_upd_ne by congruence. exact E.
Qed.

Lemma iterate s i s1 h : 0 <= p_nb s -> pfstep s PIter = (s1, OIter i) ->
  results (next_of i) h (snd (pfrun s1 h)) = map (forwards (p_nb s)) (seq 0 (count (next_of i) h)).
Proof.
  intros H E. cbn [pfstep] in E. inversion E; subst. apply iter_run; cbn [p_nb p_iters]; [lia|]. rewrite nth_error_app2 by lia. rewrite Nat.sub_diag. reflexivity.
Qed.
Lemma iterate_reversed s i s1 h : 0 <= p_nb s -> pfstep s PReversed = (s1, OIter i) ->
  results (previous_of i) h (snd (pfrun s1 h)) = map (backwards (p_nb s)) (seq 0 (count (previous_of i) h)).
Proof.
  intros H E. cbn [pfstep] in E. inversion E; subst. apply rev_run; cbn [p_nb p_revs]; [lia|]. rewrite nth_error_app2 by lia. rewrite Nat.sub_diag.
  unfold left_after. apply (f_equal Some). cbn. lia.
Qed.
Lemma index_int n : - 2 ^ 63 <= n < 2 ^ 63 -> index_argument (ANum (NInt n)) = Some n.
Proof. intros H. unfold index_argument, overloads, first_fit, load_index. rewrite load64_int; [reflexivity|exact H]. Qed.
Lemma load_strings_all l : load_strings (map Some l) = Some l.
Proof. induction l as [|s l IH]; [reflexivity|]. cbn [map load_strings]. now rewrite IH. Qed.
Lemma load_strings_not l : In None l -> load_strings l = None.
Proof. induction l as [|[s|] l IH]; intros I; try contradiction; cbn [load_strings]; [|reflexivity]. destruct I as [?|I]; [discriminate|]. now rewrite IH. Qed.
