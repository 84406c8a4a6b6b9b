(** The functions of the object on processes that differ in the values of some
    attributes. *)
From Coq Require Import String.
From Verif Require Import Base AttModel AttSpec HeadModel HeadSpec HeadProofs HeadProofs2.
Local Open Scope Z_scope.
Local Open Scope list_scope.

Section Twins.
Variable free : string -> Prop.
Notation like := (like free).
Notation like_session_ := like_session.
Notation like_session := (like_session free).
Notation like_matt := (like_matt free).
Notation like_att := (like_att free).

Definition like_res {A} (R : A -> A -> Prop) (r r' : res A) : Prop :=
  match r, r' with Ok a, Ok a' => R a a' | Err e, Err e' => e = e' | UB, UB => True | _, _ => False end.
Definition rel {A} (R : A -> A -> Prop) (f f' : H A) : Prop :=
  forall F x x' k k', like x x' ->
    (forall y y' a a', like y y' -> like_res R a a' -> twin F (k y a) (k' y' a')) -> twin F (f x k) (f' x' k').
Notation rel_ := (rel eq).

Lemma rel_ret {A} (R : A -> A -> Prop) a a' : R a a' -> rel R (hret a) (hret a').
Proof. intros E X x x' k k' L K. apply K; [exact L|exact E]. Qed.
Lemma rel_throw {A} (R : A -> A -> Prop) : rel R hthrow hthrow.
Proof. intros X x x' k k' L K. apply K; [exact L|reflexivity]. Qed.
Lemma rel_lift {A} (R : A -> A -> Prop) r r' : like_res R r r' -> rel R (hlift r) (hlift r').
Proof. intros E X x x' k k' L K. apply K; [exact L|exact E]. Qed.
Lemma rel_bind {A B} (RA : A -> A -> Prop) (R : B -> B -> Prop) m m' f f' :
  rel RA m m' -> (forall a a', RA a a' -> rel R (f a) (f' a')) -> rel R (hbind m f) (hbind m' f').
Proof.
  intros E F X x x' k k' L K. unfold hbind. apply E; [exact L|]. intros y y' a a' LY RA'.
  destruct a, a'; cbn [like_res] in RA'; try contradiction.
  - apply (F _ _ RA'); assumption.
  - apply K; [exact LY|exact RA'].
  - apply K; [exact LY|exact I].
Qed.
Lemma rel_obj : rel like_session hobj hobj.
Proof. intros X x x' k k' L K. apply K; [exact L|]. exact (proj1 L). Qed.
Lemma rel_upd g g' : (forall o o', like_session o o' -> like_session (g o) (g' o')) -> rel_ (hupd g) (hupd g').
Proof. intros G X x x' k k' L K. apply K; [split; [apply G, (proj1 L)|exact (proj2 L)]|reflexivity]. Qed.
Lemma rel_call c c' : pair_call free c c' -> rel_ (hcall c) (hcall c').
Proof.
  intros P X x x' k k' L K. unfold hcall. constructor; [exact (pair_same free _ _ P)|]. intros d.
  destruct (pair_answer free d c c' (p_lib x) (p_lib x') P (proj2 L)) as [E1 E2]. apply K.
  - split; [exact (proj1 L)|exact E2].
  - cbn [like_res]. exact E1.
Qed.
Lemma rel_check c c' : pair_call free c c' -> rel_ (hcheck c) (hcheck c').
Proof.
  intros P. apply (rel_bind eq); [apply rel_call, P|]. intros e e' <-. destruct e; [apply rel_throw|apply rel_ret; reflexivity].
Qed.
Lemma rel_inquire {A} (R : A -> A -> Prop) g g' :
  (forall c c', like_content free c c' -> R (g c) (g' c')) -> rel R (hinquire g) (hinquire g').
Proof.
  intros G X x x' k k' L K. unfold hinquire. assert (LH := proj2 L).
  destruct (p_lib x) as [l|], (p_lib x') as [l'|]; cbn [like_head] in LH; try contradiction.
  - apply K; [exact L|]. cbn [like_res]. apply G, LH.
  - apply K; [exact L|reflexivity].
Qed.
Lemma rel_each {A} (f f' : A -> H unit) l : (forall a, rel_ (f a) (f' a)) -> rel_ (heach f l) (heach f' l).
Proof.
  intros E. induction l as [|a l IH]; cbn [heach]; [apply rel_ret; reflexivity|].
  apply (rel_bind eq); [apply E|]. intros _ _ _. exact IH.
Qed.
Lemma rel_set_flag m : rel_ (hset_flag m) (hset_flag m).
Proof. apply rel_upd. intros o o' (A & B & C & D & E & F). repeat split; cbn; assumption. Qed.
Lemma rel_set_changed : rel_ hset_changed hset_changed.
Proof. apply rel_upd. intros o o' (A & B & C & D & E & F). repeat split; cbn; assumption. Qed.
Lemma rel_set_gdef : rel_ hset_gdef hset_gdef.
Proof. apply rel_upd. intros o o' (A & B & C & D & E & F). repeat split; cbn; assumption. Qed.
Lemma rel_set_atts l l' : Forall2 like_matt l l' -> rel_ (hset_atts l) (hset_atts l').
Proof. intros L. apply rel_upd. intros o o' (A & B & C & D & E & F). repeat split; cbn; assumption. Qed.
Lemma rel_set_vars l : rel_ (hset_vars l) (hset_vars l).
Proof. apply rel_upd. intros o o' (A & B & C & D & E & F). repeat split; cbn; try assumption; reflexivity. Qed.

Lemma rel_file_changes : rel_ h_file_changes h_file_changes.
Proof.
  apply (rel_bind like_session); [apply rel_obj|]. intros o o' (E & _). rewrite <- E.
  destruct (s_mode o); first [apply rel_ret; reflexivity|apply rel_set_changed].
Qed.
Lemma like_has n l l' : Forall2 like_matt l l' -> has_att n l = has_att n l'.
Proof. unfold has_att. induction 1 as [|m m' l l' E F IH]; cbn [existsb]; [reflexivity|]. rewrite IH, (proj1 E). reflexivity. Qed.
Lemma rel_write_att n t v : rel_ (h_write_global_attribute n t v) (h_write_global_attribute n t v).
Proof.
  apply (rel_bind like_session); [apply rel_obj|]. intros o o' (E1 & _ & _ & E2 & _). rewrite <- E1, <- E2.
  destruct (s_gdef o); [apply rel_throw|]. destruct (negb _); [apply rel_throw|].
  apply (rel_bind like_session); [apply rel_obj|]. intros p p' (_ & _ & _ & _ & F & _). rewrite <- (like_has n _ _ F).
  destruct (has_att n (s_atts p)); [apply rel_throw|]. apply rel_set_atts. apply Forall2_app; [exact F|].
  constructor; [apply like_matt_refl|constructor].
Qed.
Lemma like_nth {A} (R : A -> A -> Prop) l l' i : Forall2 R l l' ->
  match nth_error l i, nth_error l' i with Some a, Some a' => R a a' | None, None => True | _, _ => False end.
Proof. intros F. revert i. induction F; intros [|i]; cbn; try exact I; [assumption|apply IHF]. Qed.
Lemma like_upd {A} (R : A -> A -> Prop) l l' i a a' : Forall2 R l l' -> R a a' -> Forall2 R (upd l i a) (upd l' i a').
Proof. intros F E. revert i. induction F; intros [|i]; cbn [upd]; constructor; auto. Qed.
Lemma like_to_att m m' : like_matt m m' -> like_att (to_att m) (to_att m').
Proof. intros (A & B & C & D & E & F). repeat split; cbn; try assumption; apply F. Qed.
Lemma rel_define_one i : rel_ (h_define_one i) (h_define_one i).
Proof.
  apply (rel_bind like_session); [apply rel_obj|]. intros o o' (_ & _ & _ & _ & F & _).
  pose proof (like_nth _ _ _ i F) as N.
  destruct (nth_error (s_atts o) i) as [m|], (nth_error (s_atts o') i) as [m'|]; try contradiction; [|apply rel_ret; reflexivity].
  assert (N' := N). destruct N' as (A & B & C & D & E & G). rewrite <- E. destruct (m_written m); [apply rel_ret; reflexivity|].
  apply (rel_bind eq); [apply rel_check; cbn [pair_call]; apply like_to_att, N|]. intros _ _ _.
  apply rel_set_atts, like_upd; [exact F|]. repeat split; cbn; try assumption; apply G.
Qed.
Lemma Forall2_len {A} (R : A -> A -> Prop) l l' : Forall2 R l l' -> List.length l = List.length l'.
Proof. induction 1; cbn; congruence. Qed.
Lemma rel_define : rel_ h_define_global_attributes h_define_global_attributes.
Proof.
  apply (rel_bind like_session); [apply rel_obj|]. intros o o' (E1 & E2 & E3 & E4 & F & _). rewrite <- E1, <- E2, <- E4.
  destruct (s_gdef o); [apply rel_throw|]. destruct (negb _); [apply rel_throw|]. destruct (negb _); [apply rel_throw|].
  rewrite (Forall2_len _ _ _ F). apply (rel_bind eq); [apply rel_each, rel_define_one|]. intros _ _ _. apply rel_set_gdef.
Qed.
Lemma rel_define_save : rel_ h_define_save h_define_save.
Proof.
  apply (rel_bind like_session); [apply rel_obj|]. intros o o' (E1 & E2 & E3 & E4 & F & _). rewrite <- E1, <- E2, <- E4.
  destruct (_ && _); [|apply rel_ret; reflexivity]. destruct (s_flag o); [apply rel_ret; reflexivity|apply rel_define|].
  apply (rel_bind eq); [apply rel_check; reflexivity|]. intros _ _ _.
  apply (rel_bind eq); [apply rel_set_flag|]. intros _ _ _.
  apply (rel_bind eq); [apply rel_define|]. intros _ _ _.
  apply (rel_bind eq); [apply rel_check; reflexivity|]. intros _ _ _. apply rel_set_flag.
Qed.
Lemma like_position n l l' : Forall2 like_matt l l' ->
  position (fun m => String.eqb (m_name m) n) l = position (fun m => String.eqb (m_name m) n) l'.
Proof. induction 1 as [|m m' l l' E F IH]; cbn [position]; [reflexivity|]. rewrite IH, (proj1 E). reflexivity. Qed.
Lemma like_update m m' new t v v' : like_matt m m' -> like_val free new v v' ->
  match update_matt m new t v, update_matt m' new t v' with
  | Some a, Some a' => like_matt a a' | None, None => True | _, _ => False end.
Proof.
  intros (A & B & C & D & E & F & G) [V W]. unfold update_matt. rewrite <- A, <- B, <- E, <- F, <- V.
  destruct (negb _); [exact I|]. destruct (_ <? _)%nat; [exact I|]. destruct (_ <? _)%nat; [exact I|].
  repeat split; cbn; assumption.
Qed.
Lemma position_name l n : forall i m, position (fun x : matt => String.eqb (m_name x) n) l = Some i -> nth_error l i = Some m -> m_name m = n.
Proof.
  induction l as [|a l IH]; intros i m; cbn [position]; [discriminate|].
  destruct (String.eqb (m_name a) n) eqn:E.
  - intros [= <-] [= <-]. apply String.eqb_eq, E.
  - destruct (position _ l) as [j|]; [|discriminate]. intros [= <-] N. apply (IH j m eq_refl N).
Qed.
Lemma rel_update old new t v v' : (old = new \/ (free old -> free new)) -> like_val free new v v' ->
  rel_ (h_update old new t v) (h_update old new t v').
Proof.
  intros K LV. apply (rel_bind like_session); [apply rel_obj|]. intros o o' (E1 & E2 & _). rewrite <- E1, <- E2.
  destruct (match s_mode o with ORead => true | _ => false end); [apply rel_throw|].
  apply (rel_bind eq).
  { destruct (is_flag (s_flag o) MData); [apply rel_ret; reflexivity|].
    apply (rel_bind eq); [apply rel_call; reflexivity|]. intros e e' <-.
    destruct e as [[]|]; first [apply rel_throw|apply rel_set_flag]. }
  intros _ _ _. apply (rel_bind like_session); [apply rel_obj|]. intros p p' (_ & _ & _ & _ & F & _).
  rewrite <- (like_position old _ _ F). destruct (position _ (s_atts p)) as [i|] eqn:EP; [|apply rel_throw].
  pose proof (like_nth _ _ _ i F) as N.
  destruct (nth_error (s_atts p) i) as [m|], (nth_error (s_atts p') i) as [m'|]; try contradiction; [|apply rel_throw].
  assert (N' := N). destruct N' as (A & B & C & D & E & G). rewrite <- E. destruct (negb (m_written m)); [apply rel_throw|].
  pose proof (like_update m m' new t v v' N LV) as U.
  destruct (update_matt m new t v) as [u|] eqn:EU, (update_matt m' new t v') as [u'|]; try contradiction; [|apply rel_throw].
  apply (rel_bind eq); [apply rel_set_atts, like_upd; assumption|]. intros _ _ _.
  apply (rel_bind eq).
  { destruct (String.eqb old new) eqn:EN; [apply rel_ret; reflexivity|]. apply rel_check. cbn [pair_call]. split; [reflexivity|].
    apply String.eqb_neq in EN. destruct K as [K|K]; [contradiction|exact K]. }
  intros _ _ _. apply (rel_bind eq); [apply rel_check; cbn [pair_call]; apply like_to_att, U|]. intros _ _ _. apply rel_file_changes.
Qed.

(** The two attributes with the time of the last change. *)
Hypothesis free_stamps : forall n, In n times -> free n.
Lemma rel_last d t d' t' : List.length d = List.length d' -> List.length t = List.length t' ->
  rel_ (h_last_modified d t) (h_last_modified d' t').
Proof.
  intros LD LT. apply (rel_bind eq).
  - apply rel_update; [left; reflexivity|]. split; [exact LD|]. left. apply free_stamps. cbn. tauto.
  - intros _ _ _. apply rel_update; [left; reflexivity|]. split; [exact LT|]. left. apply free_stamps. cbn. tauto.
Qed.
Lemma rel_last_save d t d' t' : List.length d = List.length d' -> List.length t = List.length t' ->
  rel_ (h_last_modified_save d t) (h_last_modified_save d' t').
Proof.
  intros LD LT. apply (rel_bind like_session); [apply rel_obj|]. intros o o' (E1 & E2 & E3 & _). rewrite <- E1, <- E2, <- E3.
  destruct (_ || _); [apply rel_ret; reflexivity|]. destruct (s_flag o); [apply rel_ret; reflexivity| |].
  - apply (rel_bind eq); [apply rel_call; reflexivity|]. intros e e' <-.
    apply (rel_bind eq); [destruct e as [[]|]; first [apply rel_throw|apply rel_ret; reflexivity]|]. intros w w' <-.
    apply (rel_bind eq); [apply rel_set_flag|]. intros _ _ _.
    apply (rel_bind eq); [apply rel_last; assumption|]. intros _ _ _.
    destruct w; [|apply rel_ret; reflexivity]. apply (rel_bind eq); [apply rel_check; reflexivity|]. intros _ _ _. apply rel_set_flag.
  - apply (rel_bind eq); [apply rel_call; reflexivity|]. intros e e' <-.
    apply (rel_bind eq); [destruct e as [[]|]; first [apply rel_throw|apply rel_ret; reflexivity]|]. intros _ _ _.
    apply rel_last; assumption.
Qed.
Lemma rel_closing d t d' t' : List.length d = List.length d' -> List.length t = List.length t' ->
  rel_ (h_close d t) (h_close d' t').
Proof.
  intros LD LT. apply (rel_bind eq); [apply rel_define_save|]. intros _ _ _.
  apply (rel_bind eq); [apply rel_last_save; assumption|]. intros _ _ _.
  apply (rel_bind eq); [apply rel_check; reflexivity|]. intros _ _ _. apply rel_set_flag.
Qed.

(** Variables *)
Lemma rel_add_var p : rel_ (h_add_var p) (h_add_var p).
Proof.
  apply (rel_bind like_session); [apply rel_obj|]. intros o o' (_ & _ & _ & _ & _ & E). rewrite <- E.
  destruct (existsb _ _); [apply rel_throw|apply rel_set_vars].
Qed.
Lemma rel_define_var i : rel_ (h_define_var i) (h_define_var i).
Proof.
  apply (rel_bind like_session); [apply rel_obj|]. intros o o' (_ & _ & _ & _ & _ & E). rewrite <- E.
  destruct (nth_error (s_vars o) i) as [w|]; [|apply rel_ret; reflexivity]. destruct (w_id w); [apply rel_ret; reflexivity|].
  apply (rel_bind eq); [apply rel_inquire; intros c c' (_ & V & _); rewrite V; reflexivity|]. intros id id' <-.
  apply (rel_bind eq); [apply rel_check; reflexivity|]. intros _ _ _. apply rel_set_vars.
Qed.
Lemma rel_define_vatts w : rel_ (h_define_vatts w) (h_define_vatts w).
Proof.
  apply rel_each. intros m. destruct (w_id w); [apply rel_check; reflexivity|apply rel_throw].
Qed.
Lemma rel_register_var_id i : rel_ (h_register_var_id i) (h_register_var_id i).
Proof.
  apply (rel_bind like_session); [apply rel_obj|]. intros o o' (_ & _ & _ & _ & _ & E). rewrite <- E.
  destruct (nth_error (s_vars o) i) as [w|]; [|apply rel_ret; reflexivity]. destruct (w_id w); [apply rel_ret; reflexivity|].
  apply (rel_bind eq); [apply rel_inquire; intros c c' (_ & V & _); rewrite V; reflexivity|]. intros id id' <-.
  destruct id; [apply rel_set_vars|apply rel_throw].
Qed.
Lemma like_res_refl {A} (R : A -> A -> Prop) r : (forall a, R a a) -> like_res R r r.
Proof. intros E. destruct r; cbn [like_res]; auto. Qed.
Lemma rel_register_vatts i : rel_ (h_register_vatts i) (h_register_vatts i).
Proof.
  apply (rel_bind like_session); [apply rel_obj|]. intros o o' (_ & _ & _ & _ & _ & E). rewrite <- E.
  destruct (nth_error (s_vars o) i) as [w|]; [|apply rel_ret; reflexivity].
  apply (rel_bind eq); [apply rel_inquire; intros c c' (_ & V & _); rewrite V; reflexivity|]. intros file file' <-.
  apply (rel_bind eq); [apply rel_lift, like_res_refl; reflexivity|]. intros l l' <-.
  apply (rel_bind eq); [apply rel_lift, like_res_refl; reflexivity|]. intros l1 l1' <-. apply rel_set_vars.
Qed.
Lemma rel_register vs : rel_ (h_register vs) (h_register vs).
Proof.
  apply (rel_bind eq); [apply rel_each, rel_add_var|]. intros _ _ _.
  apply (rel_bind like_session); [apply rel_obj|]. intros o o' (_ & E & _). rewrite <- E.
  apply (rel_bind eq).
  { destruct (is_flag _ _); [apply rel_ret; reflexivity|]. apply (rel_bind eq); [apply rel_check; reflexivity|].
    intros _ _ _. apply rel_set_flag. }
  intros _ _ _. apply (rel_bind like_session); [apply rel_obj|]. intros p p' (EM & _ & _ & _ & _ & EV). rewrite <- EM, <- EV.
  cbn zeta. destruct (writes (s_mode p)).
  - apply (rel_bind eq); [apply rel_each, rel_define_var|]. intros _ _ _.
    apply (rel_bind like_session); [apply rel_obj|]. intros q q' (_ & _ & _ & _ & _ & EQ). rewrite <- EQ.
    apply (rel_bind eq); [apply rel_each, rel_define_vatts|]. intros _ _ _.
    apply (rel_bind eq); [apply rel_check; reflexivity|]. intros _ _ _.
    apply (rel_bind eq); [apply rel_set_flag|]. intros _ _ _. apply rel_file_changes.
  - apply (rel_bind eq); [apply rel_inquire; intros c c' (_ & V & _); rewrite V; reflexivity|]. intros n n' <-.
    destruct (_ <? _)%nat; [apply rel_throw|].
    apply (rel_bind eq); [apply rel_each, rel_register_var_id|]. intros _ _ _. apply rel_each, rel_register_vatts.
Qed.
Lemma rel_get_variable n : rel_ (h_get_variable n) (h_get_variable n).
Proof.
  apply (rel_bind like_session); [apply rel_obj|]. intros o o' (_ & _ & _ & _ & _ & E). rewrite <- E.
  destruct (find _ _); [apply rel_ret; reflexivity|apply rel_throw].
Qed.
Lemma rel_write f v ns : rel_ (h_write f v ns) (h_write f v ns).
Proof.
  apply (rel_bind eq); [apply rel_define_save|]. intros _ _ _.
  apply (rel_bind eq).
  - apply rel_each. intros n. apply (rel_bind eq); [apply rel_get_variable|]. intros w w' <-. apply rel_check. reflexivity.
  - intros _ _ _. apply rel_file_changes.
Qed.
Lemma rel_read ns : rel_ (h_read ns) (h_read ns).
Proof.
  apply rel_each. intros n. apply (rel_bind eq); [apply rel_get_variable|]. intros w w' <-. apply rel_check. reflexivity.
Qed.
(** Attributes whose values may differ are not renamed to others. *)
Definition fair_op (o : op) : Prop :=
  match o with UpdateAtt old new _ _ => old = new \/ (free old -> free new) | _ => True end.
Lemma rel_operation o : fair_op o -> rel_ (operation o) (operation o).
Proof.
  intros Fo. destruct o; cbn [operation].
  - apply rel_register.
  - apply rel_write.
  - apply rel_read.
  - apply rel_write_att.
  - apply rel_update; [exact Fo|apply like_val_refl].
Qed.

(** ** Opening: what is read from the file is the same if the headers are *)
Lemma twin_open F m b date time date' time' x x' k k' :
  List.length date = List.length date' -> List.length time = List.length time' -> like x x' ->
  (forall y y' a, like y y' -> twin F (k y a) (k' y' a)) ->
  twin F (h_open m (b_info b) (b_hash b) (b_descr b) (b_dirty b) date time x k)
       (h_open m (b_info b) (b_hash b) (b_descr b) (b_dirty b) date' time' x' k').
Proof.
  intros LD LT L K. unfold h_open, hcheck, hbind at 1, hcall. unfold hbind at 2. unfold hbind at 3. unfold hbind at 6.
  constructor; [reflexivity|]. intros d.
  assert (EA : answer d (LOpen m) (p_lib x') = answer d (LOpen m) (p_lib x)) by reflexivity. rewrite EA.
  destruct (answer d (LOpen m) (p_lib x)) as [e h]; cbn [fst snd].
  assert (LX : like (mk_proc (p_obj x) h) (mk_proc (p_obj x') h)).
  { split; [exact (proj1 L)|]. destruct h; cbn; [apply like_lib_refl|exact I]. }
  destruct e; cbn [hthrow hret]; unfold hthrow, hret.
  - apply K. exact LX.
  - destruct (writes m) eqn:W.
    + unfold hupd. cbn [p_obj p_lib]. apply K. split; [|exact (proj2 LX)].
      cbn [p_obj]. split; [reflexivity|]. split; [reflexivity|]. split; [reflexivity|]. split; [reflexivity|]. split; [|reflexivity].
      cbn [s_atts]. unfold default_atts.
      assert (LT2 : forall n v v', In n times -> List.length v = List.length v' -> like_matt (new_matt n TChar v) (new_matt n TChar v')).
      { intros n v v' I1 EL. repeat split; cbn; rewrite ?EL; try reflexivity. left. apply free_stamps, I1. }
      repeat (constructor; [first [apply like_matt_refl|apply LT2; [cbn; tauto|assumption]]|]). constructor.
    + unfold hinquire, hlift, hupd, hbind. cbn [p_lib p_obj]. destruct h as [l|].
      * destruct (register_names _ _ _) as [q|q|]; [|apply K; exact LX|apply K; exact LX].
        destruct (mapr _ q) as [q'|q'|]; [|apply K; exact LX|apply K; exact LX].
        apply K. split; [|exact (proj2 LX)]. repeat split; cbn; try reflexivity. apply Forall2_refl. intros a. apply like_matt_refl.
      * apply K. exact LX.
Qed.
Lemma twin_ops os : Forall fair_op os -> forall F outs x x' k k', like x x' ->
  (forall y y' outs, like y y' -> twin F (k y outs) (k' y' outs)) -> twin F (each_op os outs x k) (each_op os outs x' k').
Proof.
  induction 1 as [|o os Fo F IH]; intros X outs x x' k k' L K; cbn [each_op]; [apply K, L|].
  apply (rel_operation o Fo); [exact L|]. intros y y' a a' LY E. 
  assert (a = a') as <- by (destruct a, a'; cbn [like_res] in E; try contradiction; congruence).
  apply IH; assumption.
Qed.
Definition fair_visit (u : visit) : Prop := Forall fair_op (r_ops u).
Lemma like_gone x x' : like x x' -> like (gone x) (gone x').
Proof. intros L. split; [repeat split; cbn; try reflexivity; constructor|exact (proj2 L)]. Qed.
Lemma twin_last b w w' last : keeps_time w -> keeps_time w' -> (forall u, last = Some u -> fair_visit u) ->
  forall r outs x x', like x x' -> twin free (last_visit b w r last outs x) (last_visit b w' r last outs x').
Proof.
  intros KW KW' FL r outs x x' L. unfold last_visit. destruct last as [u|]; [|constructor; exact (proj1 L)].
  destruct (KW r) as [[A1 A2] _]. destruct (KW' r) as [[B1 B2] _].
  apply twin_open; [congruence|congruence|exact L|]. intros y y' a LY.
  destruct a; [|constructor; exact (proj1 (like_gone _ _ LY))|constructor; exact (proj1 (like_gone _ _ LY))].
  apply twin_ops; [apply FL; reflexivity|exact LY|]. intros z z' outs' LZ. constructor. exact (proj1 LZ).
Qed.
Lemma nothing_alike F : like_session_ F no_object no_object.
Proof. repeat split; constructor. Qed.
Lemma twin_program F b w w' last : keeps_time w -> keeps_time w' ->
  (forall r outs x x', like x x' -> twin F (last_visit b w r last outs x) (last_visit b w' r last outs x')) ->
  forall rs, Forall fair_visit rs -> forall r outs x x', like x x' ->
  twin F (program b w r rs last outs x) (program b w' r rs last outs x').
Proof.
  intros KW KW' FL rs. induction 1 as [|u rs Fu Fr IH]; intros r outs x x' L; cbn [program].
  - apply FL, L.
  - destruct (KW r) as [[A1 A2] [C1 C2]]. destruct (KW' r) as [[B1 B2] [D1 D2]].
    apply twin_open; [congruence|congruence|exact L|]. intros y y' a LY.
    destruct a; [|apply IH, like_gone, LY|apply IH, like_gone, LY].
    apply twin_ops; [exact Fu|exact LY|]. intros z z' outs' LZ.
    apply (rel_closing _ _ _ _ (eq_trans C1 (eq_sym D1)) (eq_trans C2 (eq_sym D2)) F z z'); [exact LZ|].
    intros t t' c c' LT E.
    assert (c = c') as <- by (destruct c, c'; cbn [like_res] in E; try contradiction; congruence).
    destruct c; [apply IH, like_gone, LT|constructor; apply nothing_alike|constructor; apply nothing_alike].
Qed.
End Twins.
