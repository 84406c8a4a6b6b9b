(** Proofs on lifetimes of Python objects. *)
From Coq Require Import String.
From Verif Require Import Base PyLifeModel PyLifeSpec.
Local Open Scope nat_scope.
Local Open Scope list_scope.

Lemma memb_In h l : memb h l = true <-> In h l.
Proof.
  unfold memb. rewrite existsb_exists. split.
  - intros (x & H & E). apply Nat.eqb_eq in E. now subst.
  - intros H. exists h. split; [exact H | apply Nat.eqb_refl].
Qed.

(** Chains of held objects. *)
Inductive path (objs : list pobj) : nat -> nat -> Prop :=
| path_refl a : path objs a a
| path_step a o m b : nth_error objs a = Some o -> In m (po_holds o) -> path objs m b -> path objs a b.
Lemma path_trans objs a b c : path objs a b -> path objs b c -> path objs a c.
Proof. induction 1; [auto|]. intros K. eapply path_step; eauto. Qed.

Definition ordered (objs : list pobj) : Prop :=
  forall h o m, nth_error objs h = Some o -> In m (po_holds o) -> m < h.

Lemma reach_incl objs n : forall held x, In x held -> In x (reach objs n held).
Proof.
  induction n; intros held x H; cbn [reach]; [exact H|].
  apply IHn. destruct (nth_error objs n); [|exact H]. destruct (memb n held); [|exact H].
  apply in_or_app. now right.
Qed.
Lemma reach_sound objs n : forall held x, In x (reach objs n held) -> exists v, In v held /\ path objs v x.
Proof.
  induction n; intros held x H; cbn [reach] in H.
  - exists x. split; [exact H | constructor].
  - apply IHn in H. destruct H as (v & Hv & P).
    destruct (nth_error objs n) as [o|] eqn:E; [|eauto].
    destruct (memb n held) eqn:M; [|eauto].
    apply in_app_or in Hv. destruct Hv as [Hv|Hv]; [|eauto].
    exists n. split; [now apply memb_In|]. eapply path_step; eauto.
Qed.
Lemma reach_closed objs n : ordered objs -> forall held,
  (forall v o m, In v held -> n <= v -> nth_error objs v = Some o -> In m (po_holds o) -> In m held) ->
  forall v o m, In v (reach objs n held) -> nth_error objs v = Some o -> In m (po_holds o) -> In m (reach objs n held).
Proof.
  intros W. induction n; intros held C v o m H E K; cbn [reach] in *.
  - eapply C; eauto. lia.
  - revert v o m H E K. apply IHn.
    intros v o m Hv L E K.
    destruct (nth_error objs n) as [on|] eqn:En.
    + destruct (memb n held) eqn:M.
      * apply in_or_app. apply in_app_or in Hv.
        assert (D : v = n \/ S n <= v) by lia.
        destruct D as [->|D]; [left; congruence|].
        destruct Hv as [Hv|Hv].
        -- specialize (W _ _ _ En Hv). lia.
        -- right. eapply C; eauto.
      * assert (D : v = n \/ S n <= v) by lia.
        destruct D as [->|D]; [apply memb_In in Hv; congruence|]. eapply C; eauto.
    + assert (D : v = n \/ S n <= v) by lia.
      destruct D as [->|D]; [congruence|]. eapply C; eauto.
Qed.
Lemma alive_iff s : ordered (s_objs s) -> forall x,
  alive s x = true <-> exists v, In v (s_vars s) /\ path (s_objs s) v x.
Proof.
  intros W x. unfold alive. rewrite memb_In. split; [apply reach_sound|].
  intros (v & Hv & P). apply (reach_incl (s_objs s) (length (s_objs s))) in Hv.
  induction P as [|a o m b E K P IH]; [exact Hv|].
  apply IH. eapply reach_closed; eauto.
  intros v o' m' _ L E' _. assert (nth_error (s_objs s) v = None) by (now apply nth_error_None). congruence.
Qed.

(** Invariant: objects hold earlier ones; variables and registrations are of existing
    objects; parts are of collections, which they reach. *)
Record inv (s : state) : Prop := {
  i_ord : ordered (s_objs s);
  i_vars : forall h, In h (s_vars s) -> h < length (s_objs s);
  i_part : forall h o c p, nth_error (s_objs s) h = Some o -> po_kind o = KPart c p ->
             path (s_objs s) h c /\ (exists oc, nth_error (s_objs s) c = Some oc /\ po_kind oc = KColl)
}.

Lemma nth_app {A} (l : list A) x h o :
  nth_error (l ++ [x]) h = Some o -> nth_error l h = Some o \/ (h = length l /\ o = x).
Proof.
  intros H. destruct (Nat.lt_ge_cases h (length l)).
  - rewrite nth_error_app1 in H by assumption. now left.
  - rewrite nth_error_app2 in H by assumption.
    destruct (h - length l) as [|k] eqn:E; cbn in H.
    + right. split; [lia | congruence].
    + now destruct k.
Qed.
Lemma nth_keep {A} (l : list A) x h o : nth_error l h = Some o -> nth_error (l ++ x) h = Some o.
Proof.
  intros H. rewrite nth_error_app1; [exact H|]. apply nth_error_Some. congruence.
Qed.
Lemma path_keep objs x a b : path objs a b -> path (objs ++ x) a b.
Proof.
  induction 1; [constructor|]. eapply path_step; eauto. now apply nth_keep.
Qed.
Lemma drop_In h x l : In x (drop h l) -> In x l.
Proof.
  induction l; cbn [drop]; [auto|]. destruct (Nat.eqb a h); intros H; [now right|].
  destruct H as [->|H]; [now left | right; auto].
Qed.

Lemma nth_last {A} (l : list A) x : nth_error (l ++ [x]) (length l) = Some x.
Proof. rewrite nth_error_app2 by lia. now rewrite Nat.sub_diag. Qed.
Lemma path_new objs k holds m c : In m holds -> path objs m c -> path (objs ++ [mk_pobj k holds]) (length objs) c.
Proof.
  intros M P. apply (path_step _ _ (mk_pobj k holds) m); [apply nth_last|exact M|now apply path_keep].
Qed.

Lemma inv_start : inv start.
Proof.
  split; cbn.
  - intros [|h] o m H; discriminate H.
  - tauto.
  - intros [|h] o c p H; discriminate H.
Qed.
Lemma inv_make s k holds : inv s -> (forall m, In m holds -> m < length (s_objs s)) ->
  (forall c p, k = KPart c p -> exists h, In h holds /\ path (s_objs s) h c /\
      exists oc, nth_error (s_objs s) c = Some oc /\ po_kind oc = KColl) ->
  inv (fst (make k holds s)).
Proof.
  intros I L P. split; cbn.
  - intros h o m H K. apply nth_app in H. destruct H as [H|[-> ->]].
    + exact (i_ord s I _ _ _ H K).
    + now apply L.
  - intros h [<-|H]; rewrite app_length; cbn; [lia|]. apply (i_vars s I) in H. lia.
  - intros h o c p H K. apply nth_app in H. destruct H as [H|[-> ->]].
    + destruct (i_part s I _ _ _ _ H K) as (Q & oc & E & F). split; [now apply path_keep|].
      exists oc. split; [now apply nth_keep | exact F].
    + destruct (P c p K) as (h & Hh & Q & oc & E & F). split.
      * eapply path_new; eauto.
      * exists oc. split; [now apply nth_keep | exact F].
Qed.
Lemma inv_vars s vars regs : inv s -> (forall h, In h vars -> h < length (s_objs s)) ->
  inv (mk_state (s_objs s) vars regs).
Proof. intros [O V P] L. split; cbn; assumption. Qed.
Lemma inv_assign s h : inv s -> h < length (s_objs s) -> inv (fst (assign h s)).
Proof.
  intros I L. unfold assign. cbn [fst]. apply inv_vars; [exact I|]. intros x [<-|H]; [exact L|].
  now apply (i_vars s I).
Qed.

(** What is known inside a method. *)
Lemma with_object_cases s h f : 
  (with_object s h f = (s, Raises)) \/ (with_object s h f = (s, Crash)) \/
  (exists o, In h (s_vars s) /\ nth_error (s_objs s) h = Some o /\
     (forall m, In m (needs h (po_kind o)) -> alive s m = true) /\ with_object s h f = f (po_kind o)).
Proof.
  unfold with_object. destruct (memb h (s_vars s)) eqn:M; [|now left].
  destruct (nth_error (s_objs s) h) as [o|] eqn:E; [|now left].
  destruct (forallb (alive s) (needs h (po_kind o))) eqn:F; [|right; now left].
  right. right. exists o. split; [now apply memb_In|]. split; [reflexivity|]. split; [|reflexivity].
  now apply forallb_forall.
Qed.
Lemma with_object_inv s h (f : kind -> state * outcome) : inv s ->
  (forall o, In h (s_vars s) -> h < length (s_objs s) -> nth_error (s_objs s) h = Some o -> inv (fst (f (po_kind o)))) ->
  inv (fst (with_object s h f)).
Proof.
  intros I H. destruct (with_object_cases s h f) as [->|[->|(o & V & E & _ & ->)]]; auto.
  apply H; auto. now apply (i_vars s I).
Qed.

Lemma wrapper_some s c p h : wrapper s c p = Some h ->
  alive s h = true /\ exists o, nth_error (s_objs s) h = Some o /\ po_kind o = KPart c p.
Proof.
  unfold wrapper. intros H. apply find_some in H. destruct H as (_ & H).
  destruct (nth_error (s_objs s) h) as [o|]; [|discriminate H].
  apply andb_prop in H. destruct H as (H & A). split; [exact A|]. exists o. split; [reflexivity|].
  unfold is_part in H. destruct (po_kind o) as [|c' p'| | | | | | |]; try discriminate H.
  apply andb_prop in H. destruct H as (C & Q). apply Nat.eqb_eq in C. subst c'.
  destruct p, p'; cbn [part_eqb] in Q; try discriminate Q; try (apply String.eqb_eq in Q; now subst); reflexivity.
Qed.
Lemma nth_lt {A} (l : list A) h o : nth_error l h = Some o -> h < length l.
Proof. intros H. apply nth_error_Some. congruence. Qed.

Lemma get_part_inv s h c p : inv s -> h < length (s_objs s) -> path (s_objs s) h c ->
  (exists oc, nth_error (s_objs s) c = Some oc /\ po_kind oc = KColl) -> inv (fst (get_part h c p s)).
Proof.
  intros I L P C. unfold get_part. destruct (wrapper s c p) as [h'|] eqn:W.
  - apply wrapper_some in W. destruct W as (_ & o & E & _). apply inv_assign; [exact I|]. now apply nth_lt in E.
  - apply inv_make; [exact I| |].
    + intros m [<-|[]]. exact L.
    + intros c' p' K. injection K as <- <-. exists h. split; [now left|]. split; assumption.
Qed.

Lemma inv_step s o : inv s -> inv (fst (step s o)).
Proof.
  intros I. destruct o; cbn [step].
  - apply inv_make; [exact I| |]; [intros m []| discriminate].
  - apply inv_make; [exact I| |]; [intros m []| discriminate].
  - apply with_object_inv; [exact I|]. intros o V L E.
    destruct (po_kind o) as [|c q| | | | | | |] eqn:K; try exact I.
    + apply get_part_inv; auto; [constructor|]. now exists o.
    + destruct (i_part s I _ _ _ _ E K) as (P & C). now apply get_part_inv.
  - apply with_object_inv; [exact I|]. intros o V L E.
    destruct (po_kind o) as [|c [n| |]| | | | | | |] eqn:K; try exact I.
    destruct (i_part s I _ _ _ _ E K) as (P & oc & C & _). apply inv_assign; [exact I|]. now apply nth_lt in C.
  - apply with_object_inv; [exact I|]. intros o V L E.
    destruct (po_kind o) as [|c [n| |]| | | | | | |] eqn:K; try exact I.
    apply inv_make; [exact I| |]; [intros m [<-|[]]; exact L | discriminate].
  - apply with_object_inv; [exact I|]. intros o V L E.
    destruct (po_kind o) as [|c [n| |]| | | | | | |] eqn:K; try exact I.
    apply inv_make; [exact I| |]; [intros m [] | discriminate].
  - apply with_object_inv; [exact I|]. intros o V L E.
    destruct (po_kind o) as [|c [n| |]| | | | | | |] eqn:K; try exact I.
    apply inv_make; [exact I| |]; [intros m [] | discriminate].
  - apply with_object_inv; [exact I|]. intros o V L E.
    destruct (po_kind o) as [|c [n| |]| | | | | | |] eqn:K; try exact I.
    apply inv_make; [exact I| |]; [intros m [<-|[]]; exact L | discriminate].
  - apply with_object_inv; [exact I|]. intros o V L E.
    destruct (po_kind o) as [|c [n| |]| | | | | | |] eqn:K; try exact I.
    apply inv_make; [exact I| |]; [intros m [] | discriminate].
  - apply with_object_inv; [exact I|]. intros o V L E.
    destruct (po_kind o) as [|c [n| |]| | | | | | |] eqn:K; try exact I;
      (apply inv_make; [exact I| |]; [intros m [] | discriminate]).
  - apply with_object_inv; [exact I|]. intros o V L E.
    destruct (po_kind o) as [|c [n| |]| | | | | | |] eqn:K; try exact I;
      (apply inv_make; [exact I| |]; [intros m [] | discriminate]).
  - apply with_object_inv; [exact I|]. intros o V L E.
    destruct (po_kind o) as [|c' [n| |]| | | | | | |] eqn:K; try exact I.
    unfold with_fields. destruct (forallb _ _); [|exact I].
    apply with_object_inv; [exact I|]. intros o' V' L' E'.
    destruct (po_kind o') as [|c'' [n| |]| | | | | | |] eqn:K'; try exact I.
    apply inv_vars; [exact I | apply (i_vars s I)].
  - apply with_object_inv; [exact I|]. intros o V L E. unfold with_fields.
    destruct (po_kind o); try exact I; destruct (forallb _ _); exact I.
  - apply with_object_inv; [exact I|]. intros o V L E. exact I.
  - destruct (memb h (s_vars s)); [|exact I]. cbn [fst].
    apply inv_vars; [exact I|]. intros x H. apply drop_In in H. now apply (i_vars s I).
Qed.
Lemma run_app s l1 l2 : run s (l1 ++ l2) = run (run s l1) l2.
Proof. unfold run. apply fold_left_app. Qed.
Lemma run_snoc s l o : run s (l ++ [o]) = fst (step (run s l) o).
Proof. rewrite run_app. reflexivity. Qed.
Lemma inv_run l : inv (run start l).
Proof.
  induction l as [|o l IH] using rev_ind; [exact inv_start|]. rewrite run_snoc. now apply inv_step.
Qed.

(** Objects are never changed. *)
Definition grows (s s' : state) : Prop := exists x, s_objs s' = s_objs s ++ x.
Lemma grows_refl s : grows s s.
Proof. exists []. now rewrite app_nil_r. Qed.
Lemma grows_make s k holds : grows s (fst (make k holds s)).
Proof. eexists. reflexivity. Qed.
Lemma grows_same s v r : grows s (mk_state (s_objs s) v r).
Proof. exists []. cbn. now rewrite app_nil_r. Qed.
Lemma grows_assign s h : grows s (fst (assign h s)).
Proof. apply grows_same. Qed.
Lemma grows_trans a b c : grows a b -> grows b c -> grows a c.
Proof. intros (x & E) (y & F). exists (x ++ y). rewrite F, E. now rewrite app_assoc. Qed.
Lemma grows_with s h f : (forall k, grows s (fst (f k))) -> grows s (fst (with_object s h f)).
Proof.
  intros H. destruct (with_object_cases s h f) as [->|[->|(o & _ & _ & _ & ->)]]; auto using grows_refl.
Qed.
Lemma grows_get s h c p : grows s (fst (get_part h c p s)).
Proof. unfold get_part. destruct (wrapper s c p); [apply grows_same | apply grows_make]. Qed.
Lemma grows_step s o : grows s (fst (step s o)).
Proof.
  destruct o; cbn [step]; try apply grows_make;
    try (apply grows_with; intros k; destruct k as [|c' [n| |]| | | | | | |];
         auto using grows_refl, grows_make, grows_same, grows_get, grows_assign; fail).
  - apply grows_with. intros k. destruct k as [|c' [n| |]| | | | | | |]; try apply grows_refl.
    unfold with_fields. destruct (forallb _ _); [|apply grows_refl].
    apply grows_with. intros k. destruct k as [|c' [n| |]| | | | | | |]; first [apply grows_refl | apply grows_same].
  - apply grows_with. intros k. unfold with_fields.
    destruct k; try apply grows_refl; destruct (forallb _ _); apply grows_refl.
  - destruct (memb h (s_vars s)); [apply grows_same | apply grows_refl].
Qed.
Lemma grows_run l : forall s, grows s (run s l).
Proof.
  induction l as [|o l IH] using rev_ind; intros s; [apply grows_refl|].
  rewrite run_snoc. eapply grows_trans; [apply IH | apply grows_step].
Qed.

Lemma outcomes_length l : forall s, length (outcomes s l) = length l.
Proof. induction l; intros s; cbn [outcomes length]; [reflexivity | now rewrite IHl]. Qed.
Lemma outcomes_app l1 : forall s l2, outcomes s (l1 ++ l2) = outcomes s l1 ++ outcomes (run s l1) l2.
Proof.
  induction l1 as [|o l1 IH]; intros s l2; [reflexivity|]. cbn [outcomes app]. rewrite IH. reflexivity.
Qed.
Lemma outcome_at l i o r : nth_error l i = Some o -> nth_error (outcomes start l) i = Some r ->
  exists l2, l = firstn i l ++ o :: l2 /\ snd (step (run start (firstn i l)) o) = r.
Proof.
  intros H K. apply nth_error_split in H. destruct H as (l1 & l2 & -> & L). exists l2. subst i.
  rewrite firstn_app, firstn_all, Nat.sub_diag. cbn [firstn]. rewrite app_nil_r. split; [reflexivity|].
  rewrite outcomes_app in K. rewrite nth_error_app2 in K by (rewrite outcomes_length; lia).
  rewrite outcomes_length, Nat.sub_diag in K. cbn in K. congruence.
Qed.

(** Objects that reach all they need. *)
Definition solid (objs : list pobj) (h : nat) : Prop :=
  exists o, nth_error objs h = Some o /\
    match po_kind o with
    | KColl | KOther => True
    | KPart c _ | KArray c => path objs h c
    | _ => False
    end.
Lemma solid_keep objs x h : solid objs h -> solid (objs ++ x) h.
Proof.
  intros (o & E & P). exists o. split; [now apply nth_keep|].
  destruct (po_kind o); auto using path_keep.
Qed.
Lemma solid_part s c p h : inv s -> wrapper s c p = Some h -> solid (s_objs s) h.
Proof.
  intros I W. apply wrapper_some in W. destruct W as (_ & o & E & K). exists o. split; [exact E|].
  rewrite K. now destruct (i_part s I _ _ _ _ E K).
Qed.
Lemma get_part_solid s h c p x : inv s -> path (s_objs s) h c ->
  snd (get_part h c p s) = Obj x -> solid (s_objs (fst (get_part h c p s))) x.
Proof.
  intros I P. unfold get_part. destruct (wrapper s c p) as [h'|] eqn:W; cbn [assign make fst snd s_objs].
  - intros [= <-]. eapply solid_part; eauto.
  - intros [= <-]. eexists. split; [apply nth_last|]. cbn [po_kind]. eapply path_new; [now left|exact P].
Qed.
Lemma new_solid s k holds x : snd (make k holds s) = Obj x ->
  (match k with KColl | KOther => True
   | KPart c _ | KArray c => exists m, In m holds /\ path (s_objs s) m c | _ => False end) ->
  solid (s_objs (fst (make k holds s))) x.
Proof.
  intros [= <-] H. cbn [make fst s_objs]. eexists. split; [apply nth_last|].
  cbn [po_kind]. destruct k; auto; destruct H as (m & M & P); eapply path_new; eauto.
Qed.
Lemma with_obj s h f x : snd (with_object s h f) = Obj x ->
  exists o, In h (s_vars s) /\ nth_error (s_objs s) h = Some o /\
     (forall m, In m (needs h (po_kind o)) -> alive s m = true) /\ with_object s h f = f (po_kind o).
Proof.
  intros H. destruct (with_object_cases s h f) as [E|[E|C]]; [rewrite E in H; discriminate H ..|exact C].
Qed.

Lemma keeping_solid s o x : inv s -> keeping o -> snd (step s o) = Obj x -> solid (s_objs (fst (step s o))) x.
Proof.
  intros I K H. destruct o; cbn [keeping] in K; try contradiction; cbn [step] in *.
  - now apply new_solid.
  - destruct (with_obj _ _ _ _ H) as (o & V & E & _ & R). rewrite R in *.
    destruct (po_kind o) as [|c q| | | | | | |] eqn:Ko; try discriminate H.
    + apply get_part_solid; auto. constructor.
    + destruct (i_part s I _ _ _ _ E Ko) as (P & _). now apply get_part_solid.
  - destruct (with_obj _ _ _ _ H) as (o & V & E & _ & R). rewrite R in *.
    destruct (po_kind o) as [|c [n| |]| | | | | | |] eqn:Ko; try discriminate H.
    destruct (i_part s I _ _ _ _ E Ko) as (_ & oc & C & Kc). cbn in H. injection H as <-.
    exists oc. split; [exact C|]. now rewrite Kc.
  - destruct (with_obj _ _ _ _ H) as (o & V & E & _ & R). rewrite R in *.
    destruct (po_kind o) as [|c [n| |]| | | | | | |] eqn:Ko; try discriminate H.
    apply new_solid; [exact H|]. exists h. split; [now left|]. now destruct (i_part s I _ _ _ _ E Ko).
  - destruct (with_obj _ _ _ _ H) as (o & V & E & _ & R). rewrite R in *.
    destruct (po_kind o) as [|c [n| |]| | | | | | |] eqn:Ko; try discriminate H.
    now apply new_solid.
Qed.

Lemma keeps_solid l h : keeps l h -> solid (s_objs (run start l)) h.
Proof.
  induction 1 as [i o h E K R | i a h E Ka IH R].
  - destruct (outcome_at _ _ _ _ E R) as (l2 & El & S). rewrite El, run_app.
    apply keeping_solid in S; [|apply inv_run|exact K].
    change (run (run start (firstn i l)) (o :: l2)) with (run (fst (step (run start (firstn i l)) o)) l2).
    destruct (grows_run l2 (fst (step (run start (firstn i l)) o))) as (x & ->). now apply solid_keep.
  - destruct (outcome_at _ _ _ _ E R) as (l2 & El & S).
    set (s := run start (firstn i l)) in *.
    assert (Er : run start l = run (fst (step s (Slice a))) l2) by (rewrite El at 1; rewrite run_app; reflexivity).
    destruct (grows_run l2 (fst (step s (Slice a)))) as (x & Ex).
    rewrite Er, Ex. apply solid_keep. cbn [step] in *.
    destruct (with_obj _ _ _ _ S) as (o & V & Eo & _ & Q). rewrite Q in S |- *.
    destruct (po_kind o) as [|c [n| |]|c| | | | | |] eqn:Ko; try discriminate S.
    apply new_solid; [exact S|]. exists a. split; [now left|].
    destruct IH as (o' & E' & P'). rewrite Er, Ex in E', P'. rewrite Q in E', P'. cbn [make fst s_objs] in E', P'.
    assert (E2 : nth_error (((s_objs s ++ [mk_pobj (KArray c) [a]]) ++ x)) a = Some o)
      by (apply nth_keep; now apply nth_keep).
    rewrite E2 in E'. injection E' as <-. rewrite Ko in P'.
    (* paths from an existing object stay among the objects there were *)
    assert (I : inv s) by apply inv_run.
    assert (G : forall b, path ((s_objs s ++ [mk_pobj (KArray c) [a]]) ++ x) a b -> path (s_objs s) a b).
    { assert (La : a < length (s_objs s)) by (now apply nth_lt in Eo).
      clear - I La. intros b P. rewrite <- app_assoc in P. cbn [app] in P.
      set (y := mk_pobj (KArray c) [a] :: x) in P. clearbody y.
      revert La. induction P as [a' | a' o m b E K P IHP]; intros La; [constructor|].
      rewrite nth_error_app1 in E by exact La. eapply path_step; [exact E|exact K|].
      apply IHP. pose proof (i_ord s I _ _ _ E K). lia. }
    now apply G.
Qed.

Lemma solid_needs s h o : inv s -> In h (s_vars s) -> solid (s_objs s) h -> nth_error (s_objs s) h = Some o ->
  forallb (alive s) (needs h (po_kind o)) = true.
Proof.
  intros I V (o' & E & P) E2. rewrite E in E2. injection E2 as ->.
  apply forallb_forall. intros x Hx. apply alive_iff; [apply (i_ord s I)|]. exists h. split; [exact V|].
  destruct (po_kind o); cbn [needs] in Hx; try contradiction; destruct Hx as [<-|[]]; auto. constructor.
Qed.
Lemma solid_with s h f : inv s -> solid (s_objs s) h ->
  (forall k o, nth_error (s_objs s) h = Some o -> po_kind o = k -> snd (f k) <> Crash) ->
  snd (with_object s h f) <> Crash.
Proof.
  intros I S H. unfold with_object. destruct (memb h (s_vars s)) eqn:M; [|discriminate].
  destruct (nth_error (s_objs s) h) as [o|] eqn:E; [|discriminate].
  rewrite (solid_needs s h o I) by (auto; now apply memb_In). eapply H; eauto.
Qed.
Lemma get_part_no_crash s h c p : snd (get_part h c p s) <> Crash.
Proof. unfold get_part. destruct (wrapper s c p); discriminate. Qed.

Lemma no_crash_solid s o h : inv s -> object_of o = Some h -> solid (s_objs s) h -> snd (step s o) <> Crash.
Proof.
  intros I T S. destruct o; cbn [object_of] in T; try discriminate T; injection T as ->; cbn [step];
    apply solid_with; auto; intros k o Eo Ek; destruct k as [|c' [n| |]| | | | | | |]; try discriminate;
    try apply get_part_no_crash.
  all: exfalso; destruct S as (o' & E' & P'); rewrite Eo in E'; injection E' as <-; now rewrite Ek in P'.
Qed.

Theorem keeps_no_crash : forall l o h, keeps l h -> object_of o = Some h -> snd (step (run start l) o) <> Crash.
Proof. intros l o h K T. eapply no_crash_solid; eauto using inv_run, keeps_solid. Qed.

(** Programs that keep their collections and files. *)
Definition known_owner (s : state) (c : nat) : Prop := exists oc, nth_error (s_objs s) c = Some oc /\ owner (po_kind oc).
Lemma in_registered s f c : In c (registered_in s f) -> In (f, c) (s_regs s).
Proof.
  unfold registered_in. intros H. apply in_map_iff in H. destruct H as ((f' & c') & E & H). cbn in E. subst c'.
  apply filter_In in H. destruct H as (H & E). cbn in E. apply Nat.eqb_eq in E. now subst.
Qed.
(** What an object refers to. *)
Definition refers (k : kind) : list nat :=
  match k with
  | KPart c _ | KArray c | KMap c | KPixelIter c => [c]
  | KFrame f | KFrameIter f => [f]
  | _ => []
  end.
Lemma needs_refers h k x : In x (needs h k) -> (x = h /\ owner k) \/ In x (refers k).
Proof.
  unfold owner. destruct k; cbn [needs refers]; intros H; auto; destruct H as [<-|[]]; auto.
Qed.
Record refs (s : state) : Prop := {
  r_inv : inv s;
  r_obj : forall h o c, nth_error (s_objs s) h = Some o -> In c (refers (po_kind o)) -> known_owner s c;
  r_reg : forall f c, In (f, c) (s_regs s) -> known_owner s c
}.
Lemma refs_start : refs start.
Proof.
  split; [apply inv_start| |].
  - intros [|h] o c H; discriminate H.
  - intros f c [].
Qed.
Lemma refs_grow s s' : refs s -> inv s' -> grows s s' ->
  (forall h o c, nth_error (s_objs s') h = Some o -> nth_error (s_objs s) h = None -> In c (refers (po_kind o)) -> known_owner s c) ->
  (forall f c, In (f, c) (s_regs s') -> In (f, c) (s_regs s) \/ known_owner s c) -> refs s'.
Proof.
  intros [I O R] I' (x & G) N F.
  assert (K : forall c, known_owner s c -> known_owner s' c).
  { intros c (oc & E & P). exists oc. split; [rewrite G; now apply nth_keep | exact P]. }
  split; [exact I'| |].
  - intros h o c E H. apply K. destruct (nth_error (s_objs s) h) as [o'|] eqn:E'.
    + assert (o' = o). { rewrite G in E. rewrite (nth_keep _ _ _ _ E') in E. congruence. } subst o'. eauto.
    + eauto.
  - intros f c H. apply K. destruct (F f c H) as [H'|H']; [eapply R; exact H' | exact H'].
Qed.
Lemma refs_make s k holds : refs s -> inv (fst (make k holds s)) -> (forall c, In c (refers k) -> known_owner s c) ->
  refs (fst (make k holds s)).
Proof.
  intros R I H. eapply refs_grow; [exact R|exact I|apply grows_make| |].
  - intros h o c E N K. cbn in E. apply nth_app in E. destruct E as [E|[_ ->]]; [congruence|]. auto.
  - intros f c K. now left.
Qed.
Lemma refs_same s v r : refs s -> inv (mk_state (s_objs s) v r) ->
  (forall f c, In (f, c) r -> In (f, c) (s_regs s) \/ known_owner s c) -> refs (mk_state (s_objs s) v r).
Proof.
  intros R I H. eapply refs_grow; [exact R|exact I|apply grows_same| |exact H].
  intros h o c E N. cbn in E. congruence.
Qed.
Lemma refs_with s h (f : kind -> state * outcome) : refs s ->
  (forall o, nth_error (s_objs s) h = Some o -> inv (fst (f (po_kind o))) -> refs (fst (f (po_kind o)))) ->
  inv (fst (with_object s h f)) -> refs (fst (with_object s h f)).
Proof.
  intros R H. destruct (with_object_cases s h f) as [->|[->|(o & V & E & _ & ->)]]; auto.
Qed.
Lemma refs_get s h c p : refs s -> known_owner s c -> inv (fst (get_part h c p s)) -> refs (fst (get_part h c p s)).
Proof.
  intros R K. unfold get_part. destruct (wrapper s c p); intros I.
  - apply refs_same; auto.
  - apply refs_make; auto. intros c' [<-|[]]. exact K.
Qed.
Lemma refs_step s o : refs s -> refs (fst (step s o)).
Proof.
  intros R. pose proof (inv_step s o (r_inv s R)) as I. destruct o; cbn [step] in *;
    try (apply refs_make; [exact R|exact I|]; intros c []; fail);
    try (apply refs_with; [exact R| |exact I]; intros o E I';
         destruct (po_kind o) as [|c' [n| |]|c'|c'|c'| |f'|f'|] eqn:K; try exact R;
         first [ apply refs_get; [exact R| |exact I'] | apply refs_same; [exact R|exact I'|now left]
               | apply refs_make; [exact R|exact I'|] ];
         try (intros x [<-|[]]); try (intros x []);
         first [ eapply (r_obj s R); [exact E|rewrite K; now left]
               | exists o; split; [exact E|]; unfold owner; rewrite K; auto ]; fail).
  - apply refs_with; [exact R| |exact I]. intros o E I'.
    destruct (po_kind o) as [|c' [n| |]| | | | | | |] eqn:K; try exact R.
    revert I'. unfold with_fields. destruct (forallb _ _); [|intros _; exact R].
    apply refs_with; [exact R|]. intros o' E' I'.
    destruct (po_kind o') as [|c' [n| |]| | | | | | |] eqn:K'; try exact R.
    apply refs_same; [exact R|exact I'|]. intros f x [Q|Q]; [|now left].
    injection Q as _ <-. right. exists o'. split; [exact E'|]. unfold owner. rewrite K'. auto.
  - apply refs_with; [exact R| |exact I]. intros o E I'. unfold with_fields.
    destruct (po_kind o); try exact R; destruct (forallb _ _); exact R.
  - destruct (memb h (s_vars s)); [|exact R]. apply refs_same; [exact R|exact I|]. now left.
Qed.
Lemma refs_run l : refs (run start l).
Proof.
  induction l as [|o l IH] using rev_ind; [exact refs_start|]. rewrite run_snoc. now apply refs_step.
Qed.

Lemma owners_needs s h o : refs s -> has_owners s -> nth_error (s_objs s) h = Some o ->
  forallb (alive s) (needs h (po_kind o)) = true.
Proof.
  intros R O E. apply forallb_forall. intros x Hx. apply alive_iff; [apply (i_ord s (r_inv s R))|].
  exists x. split; [|constructor].
  destruct (needs_refers _ _ _ Hx) as [[-> K]|K].
  - eauto.
  - destruct (r_obj s R _ _ _ E K) as (oc & Ec & P). eauto.
Qed.
Lemma owners_fields s f r : refs s -> has_owners s -> snd r <> Crash -> snd (with_fields s f r) <> Crash.
Proof.
  intros R O H. unfold with_fields.
  replace (forallb (alive s) (registered_in s f)) with true; [exact H|]. symmetry.
  apply forallb_forall. intros x Hx. apply alive_iff; [apply (i_ord s (r_inv s R))|].
  exists x. split; [|constructor]. apply in_registered in Hx.
  destruct (r_reg s R _ _ Hx) as (oc & Ec & P). eauto.
Qed.
Lemma owners_with s h f : refs s -> has_owners s ->
  (forall k, snd (f k) <> Crash) -> snd (with_object s h f) <> Crash.
Proof.
  intros R O H. unfold with_object. destruct (memb h (s_vars s)); [|discriminate].
  destruct (nth_error (s_objs s) h) as [o|] eqn:E; [|discriminate].
  rewrite (owners_needs s h o R O E). apply H.
Qed.
Lemma owners_step s o : refs s -> has_owners s -> snd (step s o) <> Crash.
Proof.
  intros R O. destruct o; cbn [step]; try discriminate;
    try (apply owners_with; auto; intros k; destruct k as [|c' [n| |]| | | | | | |]; try discriminate;
         try apply get_part_no_crash; fail).
  - apply owners_with; auto. intros k; destruct k as [|c' [n| |]| | | | | | |]; try discriminate.
    apply owners_fields; auto.
    apply owners_with; auto. intros k; destruct k as [|c' [n| |]| | | | | | |]; discriminate.
  - apply owners_with; auto. intros k; destruct k; try discriminate; apply owners_fields; auto; discriminate.
  - destruct (memb h (s_vars s)); discriminate.
Qed.
Theorem owners_no_crash : forall l, keeps_owners l -> ~ In Crash (outcomes start l).
Proof.
  intros l. induction l as [|o l IH] using rev_ind; intros K; [intros []|].
  rewrite outcomes_app. intros H. apply in_app_or in H. destruct H as [H|[H|[]]].
  - revert H. apply IH. intros l1 l2 ->. apply (K l1 (l2 ++ [o])). now rewrite app_assoc.
  - eapply owners_step; [apply refs_run| |exact H]. now apply (K l [o]).
Qed.

(** Giving up variables. *)
Lemma drop_notin h l : ~ In h l -> drop h l = l.
Proof.
  induction l; cbn [drop]; intros H; [reflexivity|]. destruct (Nat.eqb_spec a h) as [->|]; [exfalso; apply H; now left|].
  f_equal. apply IHl. intros K. apply H. now right.
Qed.
Lemma run_dels d : forall s x, s_vars s = x :: d -> ~ In x d ->
  run s (map Del d) = mk_state (s_objs s) [x] (s_regs s).
Proof.
  induction d as [|y d IH]; intros s x E N; cbn [map run fold_left].
  - destruct s; cbn in *. now rewrite E.
  - cbn [step]. assert (M : memb y (s_vars s) = true) by (apply memb_In; rewrite E; right; now left). rewrite M. cbn [fst].
    change (fold_left (fun s o => fst (step s o)) (map Del d)) with (fun s => run s (map Del d)). cbn beta.
    rewrite (IH _ x); cbn [s_vars s_objs s_regs]; [reflexivity| |intros K; apply N; now right].
    rewrite E. cbn [drop]. destruct (Nat.eqb_spec x y) as [->|]; [exfalso; apply N; now left|].
    now rewrite Nat.eqb_refl.
Qed.
Lemma alone_alive s x o : inv s -> s_vars s = [x] -> nth_error (s_objs s) x = Some o -> po_holds o = [] ->
  forall c, alive s c = true -> c = x.
Proof.
  intros I V E H c A. apply alive_iff in A; [|apply (i_ord s I)]. destruct A as (v & Hv & P).
  rewrite V in Hv. destruct Hv as [<-|[]]. inversion P as [|a o' m b E' K]; [reflexivity|].
  subst. rewrite E in E'. injection E' as <-. rewrite H in K. contradiction.
Qed.

Theorem borrowed_crash : forall l o x, borrowing o -> snd (step (run start l) o) = Obj x ->
  snd (step (run start (l ++ o :: give_up (run start l))) (Use x)) = Crash.
Proof.
  intros l o x B H. set (s := run start l) in *.
  assert (I : inv s) by apply inv_run. pose proof (refs_run l) as R. fold s in R.
  assert (N : exists k, fst (step s o) = fst (make k [] s) /\ x = length (s_objs s) /\
              exists c, In c (needs x k) /\ c < length (s_objs s)).
  { destruct o; cbn [borrowing] in B; try contradiction; cbn [step] in *;
      destruct (with_obj _ _ _ _ H) as (o & V & E & _ & Q); rewrite Q in *;
      destruct (po_kind o) as [|c' [n| |]|c'|c'|c'| |f'|f'|] eqn:K; try discriminate H;
      injection H as <-;
      (eexists; split; [reflexivity|]; split; [reflexivity|]; cbn [needs]);
      first [ exists c'; split; [now left|] | exists f'; split; [now left|] | exists h; split; [now left|] ];
      first [ now apply nth_lt in E
            | edestruct (r_obj s R) as (oc & Ec & _); [exact E|rewrite K; now left|]; now apply nth_lt in Ec ]. }
  destruct N as (k & Es & -> & c & Hc & Lc).
  rewrite run_app. fold s. change (run s (o :: give_up s)) with (run (fst (step s o)) (give_up s)). rewrite Es in *.
  assert (Ie : inv (fst (make k [] s))) by (rewrite <- Es; now apply inv_step).
  unfold give_up. rewrite (run_dels (s_vars s) _ (length (s_objs s))); [|reflexivity|].
  2:{ intros K. apply (i_vars s I) in K. lia. }
  cbn [make fst s_objs s_regs].
  set (s2 := mk_state (s_objs s ++ [mk_pobj k []]) [length (s_objs s)] (s_regs s)).
  assert (I2 : inv s2).
  { apply (inv_vars (fst (make k [] s)) [length (s_objs s)] (s_regs s)); [exact Ie|].
    intros h [<-|[]]. cbn. rewrite app_length. cbn. lia. }
  assert (E2 : nth_error (s_objs s2) (length (s_objs s)) = Some (mk_pobj k [])).
  { apply nth_last. }
  cbn [step]. unfold with_object.
  replace (memb (length (s_objs s)) (s_vars s2)) with true by (symmetry; apply memb_In; now left).
  rewrite E2. cbn [po_kind].
  destruct (forallb (alive s2) (needs (length (s_objs s)) k)) eqn:F; [|reflexivity].
  rewrite forallb_forall in F. specialize (F c Hc).
  apply (alone_alive s2 (length (s_objs s)) _ I2 eq_refl E2 eq_refl) in F. lia.
Qed.

Lemma run_dels_but d h : forall s, s_vars s = d -> 
  exists k, run s (map Del (filter (fun x => negb (Nat.eqb x h)) d)) =
            mk_state (s_objs s) (repeat h k) (s_regs s).
Proof.
  enough (G : forall d s k, s_vars s = repeat h k ++ d ->
    exists k', run s (map Del (filter (fun x => negb (Nat.eqb x h)) d)) = mk_state (s_objs s) (repeat h k') (s_regs s))
    by (intros s E; apply (G d s 0); now rewrite E).
  clear d. induction d as [|y d IH]; intros s k E; cbn [filter map].
  - exists k. cbn. destruct s; cbn in *. now rewrite E, app_nil_r.
  - destruct (Nat.eqb_spec y h) as [->|Ne]; cbn [negb].
    + apply (IH s (S k)). rewrite E. change (h :: d) with ([h] ++ d). rewrite app_assoc.
      f_equal. symmetry. apply (repeat_cons k h).
    + cbn [map run fold_left step].
      assert (M : memb y (s_vars s) = true) by (apply memb_In; rewrite E; apply in_or_app; right; now left).
      rewrite M. cbn [fst].
      change (fold_left (fun s o => fst (step s o))) with (fun l s => run s l). cbn beta.
      destruct (IH (mk_state (s_objs s) (drop y (s_vars s)) (s_regs s)) k) as (k' & E').
      * cbn [s_vars]. rewrite E. clear - Ne. induction k; cbn [repeat app drop].
        -- now rewrite Nat.eqb_refl.
        -- destruct (Nat.eqb_spec h y) as [->|]; [congruence|]. now rewrite IHk.
      * exists k'. exact E'.
Qed.
Lemma drop_keeps x y l : x <> y -> In x l -> In x (drop y l).
Proof.
  intros N. induction l; cbn [drop]; [auto|]. intros [->|H].
  - destruct (Nat.eqb_spec x y); [congruence | now left].
  - destruct (Nat.eqb a y); [exact H | right; auto].
Qed.
Lemma run_dels_in d h : forall s, In h (s_vars s) ->
  In h (s_vars (run s (map Del (filter (fun x => negb (Nat.eqb x h)) d)))).
Proof.
  induction d as [|y d IH]; intros s H; cbn [filter map]; [exact H|].
  destruct (Nat.eqb_spec y h); cbn [negb]; [auto|]. cbn [map run fold_left step].
  change (fold_left (fun s o => fst (step s o))) with (fun l s => run s l). cbn beta. apply IH.
  destruct (memb y (s_vars s)); [|exact H]. cbn [fst s_vars]. apply drop_keeps; auto.
Qed.
(** Files hold nothing. *)
Definition files_bare (s : state) : Prop := forall h o, nth_error (s_objs s) h = Some o -> po_kind o = KFile -> po_holds o = [].
Lemma bare_make s k holds : files_bare s -> (k = KFile -> holds = []) -> files_bare (fst (make k holds s)).
Proof.
  intros B H h o E K. cbn in E. apply nth_app in E. destruct E as [E|[_ ->]]; [eapply B; eauto|]. cbn in *. auto.
Qed.
Lemma bare_get s h c p : files_bare s -> files_bare (fst (get_part h c p s)).
Proof.
  intros B. unfold get_part. destruct (wrapper s c p); [exact B|]. apply bare_make; [exact B|discriminate].
Qed.
Lemma bare_with s h (f : kind -> state * outcome) : files_bare s -> (forall k, files_bare (fst (f k))) ->
  files_bare (fst (with_object s h f)).
Proof. intros B H. destruct (with_object_cases s h f) as [->|[->|(o & _ & _ & _ & ->)]]; auto. Qed.
Lemma bare_step s o : files_bare s -> files_bare (fst (step s o)).
Proof.
  intros B. destruct o; cbn [step]; try (apply bare_make; [exact B|]; first [discriminate | reflexivity]);
    try (apply bare_with; [exact B|]; intros k; destruct k as [|c' [n| |]| | | | | | |]; try exact B;
         first [apply bare_get; exact B | apply bare_make; [exact B|discriminate]]; fail).
  - apply bare_with; [exact B|]; intros k; destruct k as [|c' [n| |]| | | | | | |]; try exact B.
    unfold with_fields. destruct (forallb _ _); [|exact B].
    apply bare_with; [exact B|]; intros k; destruct k as [|c' [n| |]| | | | | | |]; exact B.
  - apply bare_with; [exact B|]; intros k. unfold with_fields.
    destruct k; try exact B; destruct (forallb _ _); exact B.
  - destruct (memb h (s_vars s)); exact B.
Qed.
Lemma bare_run l : files_bare (run start l).
Proof.
  induction l as [|o l IH] using rev_ind; [intros [|h] o H; discriminate H|]. rewrite run_snoc. now apply bare_step.
Qed.

Theorem registered_crash : forall l f c, snd (step (run start l) (Register f c)) = Done ->
  snd (step (run start (l ++ Register f c :: give_up_but f (run start l))) (Transfer f)) = Crash.
Proof.
  intros l f c H. set (s := run start l) in *.
  assert (I : inv s) by apply inv_run.
  assert (N : fst (step s (Register f c)) = mk_state (s_objs s) (s_vars s) ((f, c) :: s_regs s) /\ In f (s_vars s) /\
     (exists of, nth_error (s_objs s) f = Some of /\ po_kind of = KFile) /\
     (exists oc, nth_error (s_objs s) c = Some oc /\ po_kind oc = KColl)).
  { cbn [step] in *.
    match type of H with snd (with_object s f ?g) = _ => destruct (with_object_cases s f g) as [Q|[Q|(of & Vf & Ef & _ & Q)]] end;
      rewrite Q in *; try discriminate H.
    destruct (po_kind of) eqn:Kf; try discriminate H.
    unfold with_fields in H |- *. destruct (forallb (alive s) (registered_in s f)); [|discriminate H].
    match type of H with snd (with_object s c ?g) = _ => destruct (with_object_cases s c g) as [Q'|[Q'|(oc & _ & Ec & _ & Q')]] end;
      rewrite Q' in *; try discriminate H.
    destruct (po_kind oc) eqn:Kc; try discriminate H. split; [reflexivity|]. split; [exact Vf|]. split; eauto. }
  destruct N as (Es & V & (of & Ef & Kf) & (oc & Ec & Kc)).
  rewrite run_app. fold s.
  change (run s (Register f c :: give_up_but f s)) with (run (fst (step s (Register f c))) (give_up_but f s)).
  rewrite Es. unfold give_up_but.
  destruct (run_dels_but (s_vars s) f (mk_state (s_objs s) (s_vars s) ((f, c) :: s_regs s)) eq_refl) as (k & Ek).
  pose proof (run_dels_in (s_vars s) f (mk_state (s_objs s) (s_vars s) ((f, c) :: s_regs s)) V) as Vk.
  rewrite Ek in *. cbn [s_objs s_regs s_vars] in *.
  set (s2 := mk_state (s_objs s) (repeat f k) ((f, c) :: s_regs s)).
  assert (I2 : inv s2).
  { apply inv_vars; [exact I|]. intros h Hh. apply repeat_spec in Hh. subst h. now apply nth_lt in Ef. }
  assert (A : forall x, alive s2 x = true -> x = f).
  { intros x A. apply alive_iff in A; [|apply (i_ord s2 I2)]. destruct A as (v & Hv & P).
    cbn in Hv. apply repeat_spec in Hv. subst v. inversion P as [|a o' m b E' K]; [reflexivity|]. subst. cbn in E'.
    rewrite Ef in E'. injection E' as <-. rewrite (bare_run l _ _ Ef Kf) in K. contradiction. }
  cbn [step]. unfold with_object.
  replace (memb f (s_vars s2)) with true by (symmetry; apply memb_In; exact Vk).
  cbn [s2 s_objs]. rewrite Ef. fold s2. destruct (forallb (alive s2) (needs f (po_kind of))); [|reflexivity].
  rewrite Kf. unfold with_fields. destruct (forallb (alive s2) (registered_in s2 f)) eqn:F; [|reflexivity].
  rewrite forallb_forall in F. assert (Hc : In c (registered_in s2 f)).
  { unfold registered_in. cbn [s2 s_regs filter fst]. rewrite Nat.eqb_refl. now left. }
  apply F, A in Hc. subst c. congruence.
Qed.
