(** Proofs about attributes and modes of files: variables and their values. *)
From Coq Require Import String.
From Verif Require Import Base AttModel AttSpec LayoutProofs AttProofs AttProofs2 AttProofs3 AttProofs4 AttProofs5.
Local Open Scope Z_scope.
Local Open Scope list_scope.

Definition vnames (c : content) : list string := map v_name (c_vars c).
(** How the file may change: [d] tells whether values may be written. *)
Definition lgrow (d : bool) (m : omode) (l l' : lib) : Prop :=
  l_rw l' = l_rw l /\ (l_rw l = false -> l_def l = false -> l' = l) /\ (writes m = false -> c_vars (l_c l') = c_vars (l_c l)) /\
  (exists ns, vnames (l_c l') = vnames (l_c l) ++ ns) /\ (if d then exists e, c_data (l_c l') = c_data (l_c l) ++ e else c_data (l_c l') = c_data (l_c l)) /\
  (sound (l_c l) -> sound (l_c l')).
Definition ids_ok (s : st) : Prop :=
  forall l w i, s_lib s = Some l -> In w (s_vars (s_o s)) -> w_id w = Some i -> nth_error (vnames (l_c l)) i = Some (w_name w).
Definition grows (d : bool) (s s' : st) : Prop :=
  s_disk s' = s_disk s /\ s_mode (s_o s') = s_mode (s_o s) /\
  match s_lib s, s_lib s' with Some l, Some l' => lgrow d (s_mode (s_o s)) l l' | None, None => True | _, _ => False end /\
  (exists ns, map w_name (s_vars (s_o s')) = map w_name (s_vars (s_o s)) ++ ns) /\ (ids_ok s -> ids_ok s').

Lemma lgrow_refl d m l : lgrow d m l l.
Proof.
  split; [reflexivity|]. split; [auto|]. split; [auto|]. split; [exists []; now rewrite app_nil_r|]. split; [|auto].
  destruct d; [exists []; now rewrite app_nil_r|reflexivity].
Qed.
Lemma lgrow_trans d m a b c : lgrow d m a b -> lgrow d m b c -> lgrow d m a c.
Proof.
  intros (A1 & A2 & A3 & (n1 & A4) & A5 & A6) (B1 & B2 & B3 & (n2 & B4) & B5 & B6). split; [congruence|].
  split; [intros R D; specialize (A2 R D); subst b; auto|]. split; [intros W; rewrite B3, A3; auto|]. split; [exists (n1 ++ n2); rewrite B4, A4, app_assoc; reflexivity|]. split; [|auto].
  destruct d; [|congruence]. destruct A5 as (e1 & A5), B5 as (e2 & B5). exists (e1 ++ e2). rewrite B5, A5, app_assoc. reflexivity.
Qed.
Lemma grows_refl d s : grows d s s.
Proof.
  split; [reflexivity|]. split; [reflexivity|]. split; [destruct (s_lib s); auto using lgrow_refl|]. split; [exists []; now rewrite app_nil_r|auto].
Qed.
Lemma grows_trans d a b c : grows d a b -> grows d b c -> grows d a c.
Proof.
  intros (A1 & A2 & A3 & (n1 & A4) & A5) (B1 & B2 & B3 & (n2 & B4) & B5). split; [congruence|]. split; [congruence|].
  split; [|split; [exists (n1 ++ n2); rewrite B4, A4, app_assoc; reflexivity|auto]]. rewrite A2 in B3.
  destruct (s_lib a), (s_lib b), (s_lib c); try tauto. eapply lgrow_trans; eassumption.
Qed.
Lemma lgrow_weak m l l' : lgrow false m l l' -> lgrow true m l l'.
Proof. intros (A1 & A2 & A3 & A4 & A5 & A6). split; [exact A1|]. split; [exact A2|]. split; [exact A3|]. split; [exact A4|]. split; [exists []; now rewrite app_nil_r|exact A6]. Qed.
Lemma grows_weak s s' : grows false s s' -> grows true s s'.
Proof. intros (A1 & A2 & A3 & A4 & A5). split; [exact A1|]. split; [exact A2|]. split; [|auto]. destruct (s_lib s), (s_lib s'); auto using lgrow_weak. Qed.

(** Functions that keep to this, in the modes [c]. *)
Definition G {A} (c : omode -> bool) (d : bool) (m : M A) : Prop := forall s, c (s_mode (s_o s)) = true -> grows d s (fst (m s)).
Lemma G_ret {A} c d (a : A) : G c d (ret a). Proof. intros s _. apply grows_refl. Qed.
Lemma G_throw {A} c d : G c d (@throw A). Proof. intros s _. apply grows_refl. Qed.
Lemma G_lift {A} c d (r : res A) : G c d (lift r). Proof. intros s _. apply grows_refl. Qed.
Lemma G_obj c d : G c d obj. Proof. intros s _. apply grows_refl. Qed.
Lemma G_inquire {A} c d (g : content -> A) : G c d (inquire g).
Proof. intros s _. unfold inquire. destruct (s_lib s); apply grows_refl. Qed.
Lemma G_bind {A B} c d (m : M A) (k : A -> M B) : G c d m -> (forall a, G c d (k a)) -> G c d (mbind m k).
Proof.
  intros Hm Hk s C. unfold mbind. specialize (Hm s C). destruct (m s) as [s1 [a|e|]]; cbn [fst] in *; auto.
  eapply grows_trans; [exact Hm|apply Hk]. destruct Hm as (_ & Mo & _). congruence.
Qed.
Lemma G_each {A} c d (f : A -> M unit) l : (forall a, G c d (f a)) -> G c d (each f l).
Proof. intros H. induction l as [|a r IH]; cbn [each]; [apply G_ret|]. apply G_bind; auto. Qed.
Lemma G_weak {A} (c : omode -> bool) (m : M A) : G c false m -> G c true m.
Proof. intros H s C. apply grows_weak, H, C. Qed.
Lemma G_sub {A} (c c' : omode -> bool) d (m : M A) : G c d m -> (forall x, c' x = true -> c x = true) -> G c' d m.
Proof. intros H X s C. apply H, X, C. Qed.
Lemma G_upd c d g : (forall o, s_mode (g o) = s_mode o) -> (forall o, s_vars (g o) = s_vars o) -> G c d (upd_obj g).
Proof.
  intros Hm Hv s _. unfold upd_obj. cbn [fst]. split; [reflexivity|]. split; [apply Hm|]. split; [pj; destruct (s_lib s); auto using lgrow_refl|].
  split; [exists []; pj; now rewrite Hv, app_nil_r|]. intros H l w i. pj. rewrite Hv. apply H.
Qed.
Lemma nth_prefix {A} (l l' : list A) i a : nth_error l i = Some a -> nth_error (l ++ l') i = Some a.
Proof. intros H. rewrite nth_error_app1; [exact H|]. apply nth_error_Some. congruence. Qed.
Lemma grows_lib d s l l' : s_lib s = Some l -> lgrow d (s_mode (s_o s)) l l' -> grows d s (mk_st (s_o s) (Some l') (s_disk s)).
Proof.
  intros L H. split; [reflexivity|]. split; [reflexivity|]. pj. rewrite L. split; [exact H|]. split; [exists []; now rewrite app_nil_r|].
  destruct H as (_ & _ & _ & (ns & N) & _). intros X l0 w i E Hw Hi. injection E as <-. rewrite N. apply nth_prefix. exact (X l w i L Hw Hi).
Qed.
Lemma G_call c d f : (forall m l l', c m = true -> f l = inr l' -> lgrow d m l l') -> G c d (call f).
Proof.
  intros H s C. unfold call. destruct (s_lib s) as [l|] eqn:L; [|apply grows_refl]. destruct (f l) as [e|l'] eqn:F; cbn [fst]; [apply grows_refl|].
  apply (grows_lib d s l l' L). exact (H _ _ _ C F).
Qed.
Lemma G_check c d f : (forall m l l', c m = true -> f l = inr l' -> lgrow d m l l') -> G c d (check f).
Proof. intros H. unfold check. apply G_bind; [apply G_call; exact H|]. intros [e|]; [apply G_throw|apply G_ret]. Qed.

(** The library *)
Lemma put_gatt_grow d m b l l' : lib_put_gatt b l = inr l' -> lgrow d m l l'.
Proof.
  unfold lib_put_gatt. destruct (put_att _ _ _) as [e|x] eqn:E; [discriminate|]. intros X. injection X as <-. destruct (lgrow_refl d m l) as (A1 & A2 & A3 & A4 & A5 & A6).
  split; [reflexivity|]. split; [|split; [auto|split; [exact A4|split; [exact A5|auto]]]]. intros R. unfold put_att in E. rewrite R in E. discriminate.
Qed.
Lemma rename_grow d m a b l l' : lib_rename_gatt a b l = inr l' -> lgrow d m l l'.
Proof.
  unfold lib_rename_gatt. destruct (rename_att _ _ _ _) as [e|x] eqn:E; [discriminate|]. intros X. injection X as <-. destruct (lgrow_refl d m l) as (A1 & A2 & A3 & A4 & A5 & A6).
  split; [reflexivity|]. split; [|split; [auto|split; [exact A4|split; [exact A5|auto]]]]. intros R. unfold rename_att in E. rewrite R in E. discriminate.
Qed.
Lemma redef_grow d m l l' : lib_redef l = inr l' -> lgrow d m l l'.
Proof.
  unfold lib_redef. destruct (l_rw l) eqn:R; cbn [negb]; [|discriminate]. destruct (l_def l); [discriminate|]. intros X. injection X as <-.
  destruct (lgrow_refl d m l) as (A1 & A2 & A3 & A4 & A5 & A6). split; [pj; congruence|]. split; [congruence|]. auto.
Qed.
Lemma enddef_grow d m l l' : lib_enddef l = inr l' -> lgrow d m l l'.
Proof.
  unfold lib_enddef. destruct (l_def l) eqn:D; [|discriminate]. intros X. injection X as <-.
  destruct (lgrow_refl d m l) as (A1 & A2 & A3 & A4 & A5 & A6). split; [reflexivity|]. split; [congruence|]. auto.
Qed.
Lemma get_var_grow d m i l l' : lib_get_var i l = inr l' -> lgrow d m l l'.
Proof.
  unfold lib_get_var. destruct (l_def l); [discriminate|]. destruct i as [i|]; [|discriminate]. destruct (_ <? _)%nat; [|discriminate]. intros X. injection X as <-. apply lgrow_refl.
Qed.
Lemma put_var_grow m i f x l l' : lib_put_var i f x l = inr l' -> lgrow true m l l'.
Proof.
  unfold lib_put_var. destruct (l_rw l) eqn:R; cbn [negb]; [|discriminate]. destruct (l_def l); [discriminate|]. destruct i as [i|]; [|discriminate].
  destruct (Nat.ltb_spec i (List.length (c_vars (l_c l)))) as [Hi|]; [|discriminate]. intros X. injection X as <-. unfold lgrow. rewrite R. pj. split; [reflexivity|]. split; [congruence|]. split; [auto|].
  split; [exists []; unfold vnames; pj; now rewrite app_nil_r|]. split; [eexists; reflexivity|]. intros [N F]. split; [exact N|]. pj. apply Forall_app. split; [exact F|]. constructor; [exact Hi|constructor].
Qed.
Lemma put_vatt_grow d m id b l l' : writes m = true -> lib_put_vatt id b l = inr l' -> lgrow d m l l'.
Proof.
  intros W. unfold lib_put_vatt. destruct (nth_error (c_vars (l_c l)) id) as [v|] eqn:E; [|discriminate]. destruct (put_att _ _ _) as [e|x] eqn:P; [discriminate|].
  intros X. injection X as <-.
  assert (N : map v_name (upd (c_vars (l_c l)) id (mk_var (v_name v) x)) = map v_name (c_vars (l_c l))) by (rewrite map_upd; apply upd_id; rewrite nth_error_map, E; reflexivity).
  destruct (lgrow_refl d m l) as (A1 & A2 & A3 & A4 & A5 & A6).
  split; [reflexivity|]. split; [intros R; unfold put_att in P; rewrite R in P; discriminate|]. split; [congruence|]. split; [exists []; unfold vnames; pj; rewrite N, app_nil_r; reflexivity|].
  split; [exact A5|]. intros [S1 S2]. unfold sound. pj. rewrite N. split; [exact S1|].
  rewrite <- (map_length v_name), N, map_length. exact S2.
Qed.
Lemma def_var_grow d m n l l' : writes m = true -> lib_def_var n l = inr l' ->
  lgrow d m l l' /\ vnames (l_c l') = vnames (l_c l) ++ [n].
Proof.
  intros W. unfold lib_def_var. destruct (l_rw l) eqn:R; cbn [negb]; [|discriminate]. destruct (negb (l_def l)); [discriminate|]. destruct (negb (legal_name n)); [discriminate|].
  destruct (existsb _ _) eqn:E; [discriminate|]. intros X. injection X as <-. unfold lgrow, vnames. pj. rewrite R, !map_app. split; [|reflexivity].
  split; [reflexivity|]. split; [congruence|]. split; [congruence|]. split; [eexists; reflexivity|]. split; [destruct d; [exists []; now rewrite app_nil_r|reflexivity]|].
  intros [S1 S2]. unfold sound. pj. rewrite map_app, app_length. cbn [map v_name List.length]. split.
  - assert (Hn : ~ In n (map v_name (c_vars (l_c l)))).
    { intros X. apply in_map_iff in X. destruct X as (v & Hv & Hi). assert (Y : existsb (fun v => String.eqb (v_name v) n) (c_vars (l_c l)) = true) by (apply existsb_exists; exists v; split; [exact Hi|now apply String.eqb_eq]). congruence. }
    clear - S1 Hn. induction (map v_name (c_vars (l_c l))) as [|a r IH]; cbn in *; [constructor; auto; constructor|]. inversion S1; subst. constructor; [|apply IH; tauto].
    rewrite in_app_iff. cbn. intros [X|[X|[]]]; [tauto|]. subst. tauto.
  - eapply Forall_impl; [|exact S2]. cbn. intros e He. lia.
Qed.
