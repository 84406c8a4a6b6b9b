(** Whole programs with several processes. *)
From Coq Require Import String.
From Verif Require Import Base AttModel AttSpec HeadModel HeadSpec HeadProofs HeadProofs2 HeadProofs3.
Local Open Scope Z_scope.
Local Open Scope list_scope.

Definition anything (n : string) : Prop := True.
Definition nothing_free (n : string) : Prop := False.
Definition a_time (n : string) : Prop := In n times.

Lemma always_weaken (Q R : config -> Prop) c : (forall c, Q c -> R c) -> always Q c -> always R c.
Proof. intros E. induction 1 as [c q|c X _ IH]; [apply now, E, q|apply later; [exact X|exact IH]]. Qed.

Lemma like_refl F x : like F x x.
Proof.
  split; [|destruct (p_lib x); cbn; [apply like_lib_refl|exact I]].
  repeat split; try reflexivity. apply Forall2_refl, like_matt_refl.
Qed.

(** The values of attributes of two like objects *)
Lemma like_names F o o' : like_session F o o' -> map m_name (s_atts o) = map m_name (s_atts o').
Proof. intros (_ & _ & _ & _ & L & _). induction L as [|m m' l l' E L IH]; cbn [map]; [reflexivity|]. rewrite IH, (proj1 E). reflexivity. Qed.
Lemma like_seen F o o' n : like_session F o o' ->
  match find (fun m => String.eqb (m_name m) n) (s_atts o), find (fun m => String.eqb (m_name m) n) (s_atts o') with
  | Some m, Some m' => m_type m = m_type m' /\ List.length (m_val m) = List.length (m_val m') /\ (F n \/ m_val m = m_val m')
  | None, None => True
  | _, _ => False
  end.
Proof.
  intros (_ & _ & _ & _ & L & _). induction L as [|m m' l l' E L IH]; cbn [find]; [exact I|].
  assert (EN := proj1 E). rewrite <- EN. destruct (String.eqb (m_name m) n) eqn:X; [|exact IH].
  apply String.eqb_eq in X. subst n. destruct E as (A & B & C & D & G & V1 & V2). repeat split; assumption.
Qed.

Section Program.
Variables (b : build) (w : watch) (ws : list watch) (rs : list visit) (last : option visit) (disk : option content).
Hypothesis time : Forall keeps_time (w :: ws).

Lemma start_twins F :
  Forall (twin F (program b w 0 rs last [] fresh)) (map (fun w' => program b w' 0 rs last [] fresh) ws) ->
  always (fun c =>
    fst c = snd (fst (serial b w 0 rs last disk)) /\
    exists x xs, snd c = map (fun y => Fin y (fst (fst (serial b w 0 rs last disk)))) (x :: xs) /\
      List.length xs = List.length ws /\
      (forall s, snd (serial b w 0 rs last disk) = Some s -> x = proc_of s) /\
      Forall (fun y => like_session F (p_obj x) (p_obj y)) xs) (start b (w :: ws) rs last disk).
Proof.
  intros T. unfold start. cbn [map].
  destruct (alone_program b w last rs 0%nat [] fresh disk) as [x [E ES]]. cbn [rev app] in E.
  refine (always_weaken _ _ _ _ (twins_always F _ disk _ T)).
  rewrite E. cbn [fst snd]. intros c [C1 [xs [C2 [C3 C4]]]].
  split; [exact C1|]. exists x, xs. split; [exact C2|]. split; [rewrite C3, map_length; reflexivity|]. split; [exact ES|exact C4].
Qed.
Lemma programs_twins (F G : string -> Prop) :
  (forall n, In n times -> G n) -> Forall (fair_visit G) rs ->
  (forall w', keeps_time w' -> forall r outs x x', like G x x' -> twin F (last_visit b w r last outs x) (last_visit b w' r last outs x')) ->
  Forall (twin F (program b w 0 rs last [] fresh)) (map (fun w' => program b w' 0 rs last [] fresh) ws).
Proof.
  intros Gt Fr Fl. inversion time as [|w0 ws0 Kw Kws]; subst.
  apply Forall_forall. intros p P. apply in_map_iff in P. destruct P as [w' [<- W]].
  rewrite Forall_forall in Kws. apply (twin_program G Gt F b w w' last Kw (Kws w' W)); [apply Fl, (Kws w' W)|exact Fr|apply like_refl].
Qed.

Lemma always_fair rs' : Forall (fair_visit anything) rs'.
Proof.
  apply Forall_forall. intros u _. unfold fair_visit. apply Forall_forall. intros o _. destruct o; try exact I. right. intros _. exact I.
Qed.
Lemma program_finishes :
  always (fun c =>
    fst c = snd (fst (serial b w 0 rs last disk)) /\
    List.length (snd c) = List.length (w :: ws) /\
    Forall (fun p => exists x, p = Fin x (fst (fst (serial b w 0 rs last disk)))) (snd c)) (start b (w :: ws) rs last disk).
Proof.
  refine (always_weaken _ _ _ _ (start_twins anything (programs_twins anything anything (fun _ _ => I) (always_fair rs) _))).
  - intros c [C1 [x [xs [C2 [C3 _]]]]]. split; [exact C1|]. rewrite C2. split; [rewrite map_length; cbn [List.length]; congruence|].
    apply Forall_forall. intros p P. apply in_map_iff in P. destruct P as [y [<- _]]. exists y. reflexivity.
  - intros w' K. inversion time; subst. apply (twin_last anything (fun _ _ => I)); [assumption|exact K|].
    intros u _. assert (A := always_fair [u]). inversion A. assumption.
Qed.

(** What the processes see *)

Lemma tidy_fair u : tidy_visit u -> fair_visit a_time u.
Proof.
  unfold tidy_visit, fair_visit. intros T. eapply Forall_impl; [|exact T]. intros o. destruct o; cbn; try tauto.
  intros [->|N]; [left; reflexivity|right; intros X; contradiction].
Qed.
Lemma program_attributes s :
  Forall tidy_visit rs -> (forall u, last = Some u -> tidy_visit u) -> snd (serial b w 0 rs last disk) = Some s ->
  always (fun c => Forall (fun p => exists x outs, p = Fin x outs /\
    sees_names x = read_global_attribute_names s /\
    forall n, match sees x n, shown s n with
              | Some (t, v), Some (t', v') => t = t' /\ List.length v = List.length v' /\ (~ In n times -> v = v')
              | None, None => True
              | _, _ => False
              end) (snd c)) (start b (w :: ws) rs last disk).
Proof.
  intros Tr Tl ES.
  assert (Fr : Forall (fair_visit a_time) rs) by (eapply Forall_impl; [|exact Tr]; apply tidy_fair).
  refine (always_weaken _ _ _ _ (start_twins a_time (programs_twins a_time a_time (fun _ X => X) Fr _))).
  - intros c [_ [x [xs [C2 [_ [C4 C5]]]]]]. rewrite C2. specialize (C4 s ES).
    apply Forall_forall. intros p P. apply in_map_iff in P. destruct P as [y [<- Y]]. exists y, (fst (fst (serial b w 0 rs last disk))).
    split; [reflexivity|].
    assert (L : like_session a_time (p_obj x) (p_obj y)).
    { destruct Y as [<-|Y]; [apply (like_refl a_time x)|]. rewrite Forall_forall in C5. apply C5, Y. }
    split.
    + unfold sees_names. rewrite <- (like_names _ _ _ L). rewrite C4. reflexivity.
    + intros n. unfold sees, shown, read_global_attribute. pose proof (like_seen _ _ _ n L) as S. rewrite C4 in S. cbn [proc_of p_obj] in S.
      destruct (find _ (s_atts (s_o s))) as [m|], (find _ (s_atts (p_obj y))) as [m'|]; try contradiction; [|exact I].
      destruct S as [S1 [S2 S3]]. split; [congruence|]. split; [congruence|]. intros N. destruct S3 as [S3|S3]; [contradiction|congruence].
  - intros w' K. inversion time; subst. apply (twin_last a_time (fun _ X => X)); [assumption|exact K|].
    intros u E. apply tidy_fair, Tl, E.
Qed.

(** A file that is opened for reading, or to append to it, shows the same to all. *)
Lemma twin_last_read G u : last = Some u -> writes (r_mode u) = false ->
  forall w' r outs x x', like G x x' -> twin nothing_free (last_visit b w r last outs x) (last_visit b w' r last outs x').
Proof.
  intros -> W w' r outs x x' L. unfold last_visit, open_visit, h_open. rewrite W.
  unfold hcheck, hbind at 1, hcall. unfold hbind at 2. unfold hbind at 3. unfold hbind at 6.
  constructor; [reflexivity|]. intros d.
  assert (EA : answer d (LOpen (r_mode u)) (p_lib x') = answer d (LOpen (r_mode u)) (p_lib x)) by reflexivity. rewrite EA.
  destruct (answer d (LOpen (r_mode u)) (p_lib x)) as [e h]; cbn [fst snd].
  assert (GN : forall y y' outs, twin nothing_free (Fin (gone y) outs) (Fin (gone y') outs)).
  { intros y y' o. constructor. apply nothing_alike. }
  destruct e; unfold hthrow, hret; [apply GN|].
  unfold hinquire, hlift, hupd, hbind. cbn [p_lib p_obj]. destruct h as [l|]; [|apply GN].
  destruct (register_names _ _ _) as [q|q|]; [|apply GN|apply GN].
  destruct (mapr _ q) as [q'|q'|]; [|apply GN|apply GN].
  apply (twin_ops nothing_free).
  - apply Forall_forall. intros o _. destruct o; try exact I. right. intros [].
  - apply (like_refl nothing_free (mk_proc _ (Some l))).
  - intros z z' outs' LZ. constructor. exact (proj1 LZ).
Qed.
Lemma program_reopened u s : last = Some u -> writes (r_mode u) = false -> snd (serial b w 0 rs last disk) = Some s ->
  always (fun c => Forall (fun p => exists x outs, p = Fin x outs /\
    sees_names x = read_global_attribute_names s /\ forall n, sees x n = shown s n) (snd c)) (start b (w :: ws) rs last disk).
Proof.
  intros EL W ES.
  refine (always_weaken _ _ _ _ (start_twins nothing_free (programs_twins nothing_free anything (fun _ _ => I) (always_fair rs) _))).
  - intros c [_ [x [xs [C2 [_ [C4 C5]]]]]]. rewrite C2. specialize (C4 s ES).
    apply Forall_forall. intros p P. apply in_map_iff in P. destruct P as [y [<- Y]]. exists y, (fst (fst (serial b w 0 rs last disk))).
    split; [reflexivity|].
    assert (L : like_session nothing_free (p_obj x) (p_obj y)).
    { destruct Y as [<-|Y]; [apply (like_refl nothing_free x)|]. rewrite Forall_forall in C5. apply C5, Y. }
    split.
    + unfold sees_names. rewrite <- (like_names _ _ _ L). rewrite C4. reflexivity.
    + intros n. unfold sees, shown, read_global_attribute. pose proof (like_seen _ _ _ n L) as S. rewrite C4 in S. cbn [proc_of p_obj] in S.
      destruct (find _ (s_atts (s_o s))) as [m|], (find _ (s_atts (p_obj y))) as [m'|]; try contradiction; [|reflexivity].
      destruct S as [S1 [S2 [[]|S3]]]. congruence.
  - intros w' K. apply (twin_last_read anything u EL W).
Qed.
End Program.
