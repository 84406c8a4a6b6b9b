(** Processes that run the same program with different clocks make the same calls. *)
From Coq Require Import String.
From Verif Require Import Base AttModel AttSpec HeadModel HeadSpec HeadProofs.
Local Open Scope Z_scope.
Local Open Scope list_scope.

Section Twins.
(** The names of attributes whose values may differ. *)
Variable free : string -> Prop.

Definition like_val (n : string) (v v' : bytes) : Prop := List.length v = List.length v' /\ (free n \/ v = v').
Definition like_matt (m m' : matt) : Prop :=
  m_name m = m_name m' /\ m_type m = m_type m' /\ m_n m = m_n m' /\ m_init m = m_init m' /\ m_written m = m_written m' /\
  like_val (m_name m) (m_val m) (m_val m').
Definition like_att (a a' : att) : Prop :=
  a_name a = a_name a' /\ a_type a = a_type a' /\ like_val (a_name a) (a_val a) (a_val a').
Definition like_session (o o' : session) : Prop :=
  s_mode o = s_mode o' /\ s_flag o = s_flag o' /\ s_changed o = s_changed o' /\ s_gdef o = s_gdef o' /\
  Forall2 like_matt (s_atts o) (s_atts o') /\ s_vars o = s_vars o'.
Definition like_content (c c' : content) : Prop :=
  Forall2 like_att (c_gatts c) (c_gatts c') /\ c_vars c = c_vars c' /\ c_data c = c_data c'.
Definition like_lib (l l' : lib) : Prop := l_rw l = l_rw l' /\ l_def l = l_def l' /\ like_content (l_c l) (l_c l').
Definition like_head (h h' : option lib) : Prop :=
  match h, h' with Some l, Some l' => like_lib l l' | None, None => True | _, _ => False end.
Definition like (x x' : proc) : Prop := like_session (p_obj x) (p_obj x') /\ like_head (p_lib x) (p_lib x').

Inductive twin : prog -> prog -> Prop :=
| twin_fin x x' outs : like_session (p_obj x) (p_obj x') -> twin (Fin x outs) (Fin x' outs)
| twin_call c c' h h' k k' :
    same_call c c' ->
    (forall d, twin (k (fst (answer d c h)) (snd (answer d c h))) (k' (fst (answer d c' h')) (snd (answer d c' h')))) ->
    twin (Call c h k) (Call c' h' k').

(** ** All of them together *)

Lemma calling_inj x y : calling x = calling y -> x = y.
Proof. destruct x, y. unfold calling. cbn. intros [= -> -> ->]. reflexivity. Qed.
Lemma calling_map_inj xs : forall ys, map calling xs = map calling ys -> xs = ys.
Proof.
  induction xs as [|x xs IH]; destruct ys as [|y ys]; cbn [map]; intros E; try discriminate; [reflexivity|].
  assert (E1 := f_equal (hd (calling x)) E). cbn [hd] in E1. assert (E2 := f_equal (@tl prog) E). cbn [tl] in E2.
  rewrite (calling_inj _ _ E1), (IH _ E2). reflexivity.
Qed.
Lemma pstep_inv d x xs c : pstep (d, map calling (x :: xs)) c ->
  c = (disk_after d (k_call x) (k_head x), map (returned d) (x :: xs)).
Proof.
  intros S. remember (d, map calling (x :: xs)) as a eqn:E. destruct S as [d0 x0 xs0 F].
  assert (E0 := f_equal fst E). cbn [fst] in E0. assert (E1 := f_equal snd E). cbn [snd] in E1.
  apply calling_map_inj in E1. injection E1 as -> ->. rewrite E0. reflexivity.
Qed.
Lemma twins_always p : forall d ps, Forall (twin p) ps ->
  always (fun c => fst c = fst (fst (alone p d)) /\
                   exists xs, snd c = map (fun x => Fin x (snd (alone p d))) (snd (fst (alone p d)) :: xs) /\
                              List.length xs = List.length ps /\ Forall (fun y => like_session (p_obj (snd (fst (alone p d)))) (p_obj y)) xs) (d, p :: ps).
Proof.
  induction p as [x outs|c h k IH]; intros d ps T.
  - apply now. cbn [alone fst snd]. split; [reflexivity|].
    assert (E : exists xs, ps = map (fun y => Fin y outs) xs /\ List.length xs = List.length ps /\ Forall (fun y => like_session (p_obj x) (p_obj y)) xs).
    { induction T as [|q ps Tq T [xs [E [L F]]]]; [exists []; repeat split; constructor|].
      inversion Tq; subst. exists (x' :: xs). cbn [map List.length]. split; [reflexivity|]. split; [rewrite map_length; reflexivity|].
      constructor; assumption. }
    destruct E as [xs [E [L F]]]. exists xs. split; [|split; assumption]. cbn [map]. rewrite E at 1. reflexivity.
  - assert (E : exists xs, ps = map calling xs /\ Forall (fun y => same_call c (k_call y)) xs /\
                Forall (fun y => forall d, twin (k (fst (answer d c h)) (snd (answer d c h))) (returned d y)) xs).
    { clear IH. induction T as [|q ps Tq T [xs [E [F G]]]]; [exists []; repeat split; constructor|].
      inversion Tq; subst. exists (mk_caller c' h' k' :: xs). split; [reflexivity|].
      split; constructor; try assumption. }
    destruct E as [xs [-> [F G]]].
    change (Call c h k :: map calling xs) with (map calling (mk_caller c h k :: xs)).
    apply later.
    + eexists. constructor. exact F.
    + intros c' S. rewrite (pstep_inv _ _ _ _ S). cbn [k_call k_head].
      cbn [map]. unfold returned at 1. cbn [k_call k_head k_next alone].
      rewrite map_length. rewrite <- (map_length (returned d) xs). apply IH.
      apply Forall_forall. intros q Q. apply in_map_iff in Q. destruct Q as [y [<- Y]].
      rewrite Forall_forall in G. apply G, Y.
Qed.

(** ** Calls *)

Lemma like_val_refl n v : like_val n v v.
Proof. split; [reflexivity|right; reflexivity]. Qed.
Lemma like_att_refl a : like_att a a.
Proof. repeat split; right; reflexivity. Qed.
Lemma like_matt_refl m : like_matt m m.
Proof. repeat split; right; reflexivity. Qed.
Lemma Forall2_refl {A} (R : A -> A -> Prop) l : (forall a, R a a) -> Forall2 R l l.
Proof. intros E. induction l; constructor; auto. Qed.
Lemma like_lib_refl l : like_lib l l.
Proof. split; [reflexivity|]. split; [reflexivity|]. split; [apply Forall2_refl, like_att_refl|split; reflexivity]. Qed.

Lemma like_find n l l' : Forall2 like_att l l' ->
  match find_att n l, find_att n l' with Some a, Some a' => like_att a a' | None, None => True | _, _ => False end.
Proof.
  unfold find_att. induction 1 as [|a a' l l' E F IH]; cbn [find]; [exact I|].
  destruct E as [E R]. rewrite <- E. destruct (String.eqb (a_name a) n); [split; assumption|exact IH].
Qed.
Lemma like_replace n b b' l l' : Forall2 like_att l l' -> like_att b b' -> Forall2 like_att (replace_att n b l) (replace_att n b' l').
Proof.
  intros F B. induction F as [|a a' l l' E F IH]; cbn [replace_att]; [constructor|].
  assert (E1 := proj1 E). rewrite <- E1. destruct (String.eqb (a_name a) n); constructor; assumption.
Qed.
Definition like_sum (R : lib -> lib -> Prop) (r r' : ncerr + lib) : Prop :=
  match r, r' with inl e, inl e' => e = e' | inr l, inr l' => R l l' | _, _ => False end.
Lemma like_space n v v' : like_val n v v' -> space v = space v'.
Proof. intros [E _]. unfold space. rewrite E. reflexivity. Qed.
Lemma like_put_gatt b b' l l' : like_lib l l' -> like_att b b' -> like_sum like_lib (lib_put_gatt b l) (lib_put_gatt b' l').
Proof.
  intros [R [D [G [V T]]]] B. unfold lib_put_gatt, put_att. rewrite <- R, <- D.
  destruct (negb (l_rw l)); [reflexivity|]. assert (EN := proj1 B). rewrite <- EN.
  pose proof (like_find (a_name b) _ _ G) as F.
  destruct (find_att (a_name b) (c_gatts (l_c l))) as [a|], (find_att (a_name b) (c_gatts (l_c l'))) as [a'|]; try contradiction.
  - assert (P : like_lib (set_gatts l (replace_att (a_name b) b (c_gatts (l_c l)))) (set_gatts l' (replace_att (a_name b) b' (c_gatts (l_c l'))))).
    { split; [exact R|]. split; [exact D|]. split; [apply like_replace; assumption|split; assumption]. }
    destruct (l_def l).
    + destruct (legal_name (a_name b)); [exact P|reflexivity].
    + rewrite (like_space _ _ _ (proj2 (proj2 F))), (like_space _ _ _ (proj2 (proj2 B))).
      destruct (_ <? _)%nat; [reflexivity|exact P].
  - destruct (negb (l_def l)); [reflexivity|]. destruct (legal_name (a_name b)); [|reflexivity].
    split; [exact R|]. split; [exact D|]. split; [|split; assumption]. cbn [set_gatts l_c c_gatts].
    apply Forall2_app; [exact G|]. constructor; [exact B|constructor].
Qed.
Lemma like_rename old new l l' : (free old -> free new) -> like_lib l l' -> like_sum like_lib (lib_rename_gatt old new l) (lib_rename_gatt old new l').
Proof.
  intros K [R [D [G [V T]]]]. unfold lib_rename_gatt, rename_att. rewrite <- R, <- D.
  destruct (negb (l_rw l)); [reflexivity|]. destruct (negb (legal_name new)); [reflexivity|].
  pose proof (like_find old _ _ G) as F. pose proof (like_find new _ _ G) as F2.
  destruct (find_att old (c_gatts (l_c l))) as [a|] eqn:EA, (find_att old (c_gatts (l_c l'))) as [a'|]; try contradiction; [|reflexivity].
  destruct (find_att new (c_gatts (l_c l))) as [b|], (find_att new (c_gatts (l_c l'))) as [b'|]; try contradiction; [reflexivity|].
  destruct (negb (l_def l) && _); [reflexivity|].
  split; [exact R|]. split; [exact D|]. split; [|split; assumption]. cbn [set_gatts l_c c_gatts].
  apply like_replace; [exact G|]. destruct F as [E1 [E2 [E3 E4]]].
  apply find_some in EA. destruct EA as [_ EA]. apply String.eqb_eq in EA. rewrite EA in E4.
  split; [reflexivity|]. split; [exact E2|]. split; [exact E3|]. destruct E4 as [E4|E4]; [left; auto|right; exact E4].
Qed.

(** Which calls of two processes go together. *)
Definition pair_call (c c' : lcall) : Prop :=
  match c, c' with
  | LPutGatt a, LPutGatt a' => like_att a a'
  | LRename old new, _ => c = c' /\ (free old -> free new)
  | _, _ => c = c'
  end.
Lemma pair_same c c' : pair_call c c' -> same_call c c'.
Proof.
  destruct c, c'; cbn; try (intros H; exact H); try (intros [H _]; exact H); try discriminate.
  intros [A [B [C _]]]. repeat split; assumption.
Qed.
Lemma pair_exec c c' l l' : ordinary c -> pair_call c c' -> like_lib l l' -> like_sum like_lib (exec c l) (exec c' l').
Proof.
  intros O P LL. assert (LL' := LL). destruct LL' as [R [D [G [V T]]]].
  destruct c; try contradiction; destruct c'; cbn [pair_call] in P; try discriminate; try (destruct P; discriminate); cbn [exec].
  - unfold lib_redef. rewrite <- R, <- D. destruct (negb (l_rw l)); [reflexivity|]. destruct (l_def l); [reflexivity|].
    split; [reflexivity|]. split; [reflexivity|]. split; [exact G|split; assumption].
  - unfold lib_enddef. rewrite <- R, <- D. destruct (l_def l); [|reflexivity].
    split; [reflexivity|]. split; [reflexivity|]. split; [exact G|split; assumption].
  - apply like_put_gatt; assumption.
  - destruct P as [[= <- <-] K]. apply like_rename; assumption.
  - injection P as <-. unfold lib_def_var. rewrite <- R, <- D, <- V. destruct (negb (l_rw l)); [reflexivity|].
    destruct (negb (l_def l)); [reflexivity|]. destruct (negb (legal_name n)); [reflexivity|].
    destruct (existsb _ _); [reflexivity|]. split; [exact R|]. split; [exact D|].
    split; [exact G|]. split; [reflexivity|exact T].
  - injection P as <- <-. unfold lib_put_vatt. rewrite <- V. destruct (nth_error (c_vars (l_c l)) id) as [v|]; [|reflexivity].
    unfold put_att. rewrite <- R, <- D. destruct (negb (l_rw l)); [reflexivity|].
    assert (P : forall xs, like_lib (set_lvars l xs) (set_lvars l' xs)).
    { intros xs. split; [exact R|]. split; [exact D|]. split; [exact G|]. split; [reflexivity|exact T]. }
    destruct (find_att _ _) as [a|].
    + destruct (l_def l); [destruct (legal_name _); [apply P|reflexivity]|]. destruct (_ <? _)%nat; [reflexivity|apply P].
    + destruct (negb (l_def l)); [reflexivity|]. destruct (legal_name _); [apply P|reflexivity].
  - injection P as <- <- <-. unfold lib_put_var. rewrite <- R, <- D, <- V, <- T. destruct (negb (l_rw l)); [reflexivity|].
    destruct (l_def l); [reflexivity|]. destruct id as [i|]; [|reflexivity]. destruct (_ <? _)%nat; [|reflexivity].
    split; [reflexivity|]. split; [reflexivity|]. split; [exact G|]. split; reflexivity.
  - injection P as <-. unfold lib_get_var. rewrite <- D, <- V. destruct (l_def l); [reflexivity|].
    destruct id as [i|]; [|reflexivity]. destruct (_ <? _)%nat; [exact LL|reflexivity].
Qed.
Lemma pair_answer d c c' h h' : pair_call c c' -> like_head h h' ->
  fst (answer d c h) = fst (answer d c' h') /\ like_head (snd (answer d c h)) (snd (answer d c' h')).
Proof.
  intros P LH.
  assert (OR : ordinary c \/ (c = c' /\ ~ ordinary c)).
  { destruct c; try (left; exact I); right; (split; [destruct c'; cbn in P; congruence|intros X; exact X]). }
  destruct OR as [O|[<- O]].
  - assert (O' : ordinary c') by (destruct c, c'; cbn in *; try exact I; try discriminate; try contradiction; try (destruct P; discriminate)).
    assert (EA : forall c h, ordinary c -> answer d c h =
               match h with
               | None => (Some EBadId, None)
               | Some l => match exec c l with inl e => (Some e, h) | inr l' => (None, Some l') end
               end) by (intros c0 h0 O0; destruct c0; try contradiction; reflexivity).
    rewrite !EA by assumption. destruct h as [l|], h' as [l'|]; cbn [like_head] in LH; try contradiction; [|split; reflexivity].
    pose proof (pair_exec c c' l l' O P LH) as X. destruct (exec c l), (exec c' l'); cbn [like_sum] in X; try contradiction; cbn [fst snd].
    + split; [congruence|exact LH].
    + split; [reflexivity|exact X].
  - destruct c; try (destruct (O I)); cbn [answer].
    + destruct m, d as [c|]; cbn [fst snd]; (split; [reflexivity|]); cbn [like_head]; try exact I; apply like_lib_refl.
    + destruct h, h'; cbn [like_head] in LH; try contradiction; split; reflexivity.
Qed.
End Twins.
