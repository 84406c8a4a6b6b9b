(** Proofs about attributes and modes of files: every operation, runs, closing
    and opening again. *)
From Coq Require Import String.
From Verif Require Import Base AttModel AttSpec LayoutProofs AttProofs AttProofs2 AttProofs3.
Local Open Scope Z_scope.
Local Open Scope list_scope.

(** Functions that keep the invariant and the attributes. *)
Definition S {A} (m : M A) : Prop := forall s l k, I s l k ->
  exists l', I (fst (m s)) l' k /\ s_atts (s_o (fst (m s))) = s_atts (s_o s) /\ s_mode (s_o (fst (m s))) = s_mode (s_o s) /\ s_gdef (s_o (fst (m s))) = s_gdef (s_o s).
Lemma S_K {A} (m : M A) : K m -> S m.
Proof.
  intros H s l k Hi. destruct (I_keeps s l k _ Hi (H s)) as (l' & H'). exists l'. destruct (H s) as (E1 & _ & _ & E4 & E5 & _). split; [exact H'|]. repeat split; auto.
Qed.
Lemma S_bind {A B} (m : M A) (k : A -> M B) : S m -> (forall a, S (k a)) -> S (mbind m k).
Proof.
  intros Hm Hk s l j Hi. unfold mbind. destruct (Hm s l j Hi) as (l1 & H1 & A1 & M1 & G1). destruct (m s) as [s1 [a|e|]]; cbn [fst] in *; [|exists l1; auto..].
  destruct (Hk a s1 l1 j H1) as (l2 & H2 & A2 & M2 & G2). exists l2. split; [exact H2|]. repeat split; congruence.
Qed.
Lemma S_changes : S netcdf_file_changes.
Proof.
  intros s l k H. unfold netcdf_file_changes. rewrite bind_obj. exists l. destruct H.
  destruct (s_mode (s_o s)) eqn:Mo; cbn; (split; [constructor; pj; rewrite ?Mo; auto|repeat split; auto]).
Qed.
Lemma S_enter : S (fun s => (if is_flag (s_flag (s_o s)) MDefine then ret tt else run check lib_redef; set_flag MDefine) s).
Proof.
  intros s l k H. destruct (s_flag (s_o s)) eqn:F; cbn [is_flag].
  - exfalso. exact (I_flag _ _ _ H F).
  - exists l. auto.
  - rewrite (enter_define s l k H F). cbn [fst]. eexists. split; [apply I_with_flag; auto; discriminate|]. repeat split.
Qed.
Lemma leave_any s l k : I s l k -> (run check lib_enddef; set_flag MData) s = if l_def l then (with_flag s MData l false, Ok tt) else (s, Err FileIOError).
Proof.
  intros H. destruct (l_def l) eqn:D; [exact (leave_define s l k H D)|].
  apply bind_err. eapply check_inl; [exact (I_lib _ _ _ H)|]. unfold lib_enddef. now rewrite D.
Qed.
Lemma S_leave : S (run check lib_enddef; set_flag MData).
Proof.
  intros s l k H. rewrite (leave_any s l k H). destruct (l_def l) eqn:D; cbn [fst].
  - eexists. split; [apply I_with_flag; auto; discriminate|]. repeat split.
  - exists l. auto.
Qed.
Lemma S_ext {A} (m m' : M A) : (forall s, m s = m' s) -> S m' -> S m.
Proof. intros E H s l k Hi. rewrite E. exact (H s l k Hi). Qed.
Lemma S_obj {B} (f : session -> M B) : (forall o, S (f o)) -> S (mbind obj f).
Proof. intros H s l k Hi. rewrite bind_obj. exact (H _ s l k Hi). Qed.

Lemma S_rest o : S (if writes (s_mode o) then
    run each define_var (seq 0 (List.length (s_vars o)));
    do o <- obj;
    run each define_vatts (s_vars o);
    run check lib_enddef;
    run set_flag MData;
    netcdf_file_changes
  else
    do n <- inquire (fun c => List.length (c_vars c));
    if (n <? List.length (s_vars o))%nat then throw
    else run each register_var_id (seq 0 (List.length (s_vars o))); each register_vatts (seq 0 (List.length (s_vars o)))).
Proof.
  destruct (writes (s_mode o)).
  - apply S_bind; [apply S_K, K_each, K_define_var|]. intros _. apply S_obj. intros o'.
    apply S_bind; [apply S_K, K_each, K_define_vatts|]. intros _.
    apply S_ext with (m' := run (run check lib_enddef; set_flag MData); netcdf_file_changes); [intros s; symmetry; apply bind_assoc|].
    apply S_bind; [exact S_leave|]. intros _. exact S_changes.
  - apply S_bind; [apply S_K, K_inquire|]. intros n. destruct (_ <? _)%nat; [apply S_K, K_throw|].
    apply S_bind; [apply S_K, K_each, K_register_var_id|]. intros _. apply S_K, K_each, K_register_vatts.
Qed.
Lemma S_register vs : S (register_field_collection vs).
Proof.
  unfold register_field_collection. apply S_bind; [apply S_K, K_each, K_add_var|]. intros _.
  intros s l k H. rewrite bind_obj. destruct (S_enter s l k H) as (l1 & H1 & A1 & M1 & G1).
  destruct ((if is_flag (s_flag (s_o s)) MDefine then ret tt else run check lib_redef; set_flag MDefine) s) as [s1 [a|e|]] eqn:E; cbn [fst] in *.
  - rewrite (bind_ok _ _ _ _ _ E), bind_obj. cbn zeta. destruct (S_rest (s_o s1) s1 l1 k H1) as (l2 & H2 & A2 & M2 & G2). exists l2.
    split; [exact H2|]. split; [exact (eq_trans A2 A1)|]. split; [exact (eq_trans M2 M1)|exact (eq_trans G2 G1)].
  - rewrite (bind_err _ _ _ _ _ E). exists l1. auto.
  - rewrite (bind_ub _ _ _ _ E). exists l1. auto.
Qed.
Lemma S_read ns : S (read ns).
Proof. unfold read. apply S_K, K_each. intros n. apply K_bind; [apply K_get_variable|]. intros w. apply K_get_var. Qed.

(** Writing keeps the attributes; it may write them to the file. *)
Lemma write_I f x ns s l k : I s l k -> exists l' k', I (fst (write f x ns s)) l' k' /\ same_view s (fst (write f x ns s)).
Proof.
  intros H. unfold write. destruct (save_call s l k H) as (s1 & r & E & _ & V & _ & l1 & k1 & H1 & R).
  destruct R as [(-> & _)|(-> & _)].
  - rewrite (bind_ok _ _ _ _ _ E).
    assert (X : S (run each (fun n => do w <- get_variable n; check (lib_put_var (w_id w) f x)) ns; netcdf_file_changes)).
    { apply S_bind; [|intros _; exact S_changes]. apply S_K, K_each. intros n. apply K_bind; [apply K_get_variable|]. intros w. apply K_put_var. }
    destruct (X s1 l1 k1 H1) as (l2 & H2 & A2 & M2 & _). exists l2, k1. split; [exact H2|]. destruct V as [V1 V2]. split; [|congruence]. rewrite A2. exact V1.
  - rewrite (bind_err _ _ _ _ _ E). exists l1, k1. split; [exact H1|exact V].
Qed.

(** Adding an attribute. *)
Lemma has_att_in n l : has_att n l = true <-> In n (map m_name l).
Proof.
  unfold has_att. rewrite existsb_exists, in_map_iff. split.
  - intros (m & Hi & E). apply String.eqb_eq in E. eauto.
  - intros (m & E & Hi). exists m. split; [exact Hi|]. now apply String.eqb_eq.
Qed.
Lemma wga_spec n t v s l k : I s l k -> value_ok t v ->
  exists s' r, write_global_attribute n t v s = (s', r) /\ I s' l k /\ s_mode (s_o s') = s_mode (s_o s) /\
    (r = Err FileIOError /\ s_atts (s_o s') = s_atts (s_o s) \/
     r = Ok tt /\ ~ In n (map m_name (s_atts (s_o s))) /\ s_atts (s_o s') = s_atts (s_o s) ++ [new_matt n t v]).
Proof.
  intros H V. unfold write_global_attribute. rewrite bind_obj. destruct (s_gdef (s_o s)) eqn:G.
  { exists s, (Err FileIOError). repeat (split; auto). }
  destruct (writes (s_mode (s_o s))) eqn:W; cbn [negb].
  2:{ exists s, (Err FileIOError). repeat (split; auto). }
  unfold add_attribute. rewrite bind_obj. destruct (has_att n (s_atts (s_o s))) eqn:Ha.
  { exists s, (Err FileIOError). repeat (split; auto). }
  assert (Hn : ~ In n (map m_name (s_atts (s_o s)))) by (intros X; apply has_att_in in X; congruence).
  eexists _, (Ok tt). split; [reflexivity|]. split; [|split; [reflexivity|right; auto]].
  destruct H. constructor; cbn [fst]; pj; auto.
  - rewrite firstn_app. replace (k - List.length (s_atts (s_o s)))%nat with 0%nat by lia. cbn [firstn]. now rewrite app_nil_r.
  - intros i m. destruct (Nat.lt_ge_cases i (List.length (s_atts (s_o s)))) as [Hi|Hi].
    + rewrite nth_error_app1 by exact Hi. apply I_wr.
    + rewrite nth_error_app2 by exact Hi. intros E. destruct (i - List.length (s_atts (s_o s)))%nat eqn:Ei; cbn in E; [|destruct n0; discriminate].
      injection E as <-. cbn. symmetry. apply Nat.ltb_ge. lia.
  - rewrite app_length. cbn. lia.
  - congruence.
  - intros X. rewrite X in W. discriminate.
  - rewrite map_app. cbn [map m_name new_matt]. 
    assert (Y : forall (a : list string) b, NoDup a -> ~ In b a -> NoDup (a ++ [b])).
    { clear. intros a b. induction a as [|c a IH]; cbn; intros N Hb; [constructor; auto; constructor|]. inversion N; subst. constructor; [|apply IH; tauto].
      rewrite in_app_iff. cbn. intros [X|[X|[]]]; [tauto|]. subst. tauto. }
    apply Y; assumption.
  - apply Forall_app. split; [assumption|]. constructor; auto.
  - rewrite firstn_app. replace (k - List.length (s_atts (s_o s)))%nat with 0%nat by lia. cbn [firstn]. now rewrite app_nil_r.
Qed.

(** ** What a user sees *)

Lemma find_shown n l : match find (fun m => String.eqb (m_name m) n) l with Some m => Some (m_type m, m_val m) | None => None end =
  match find_att n (map to_att l) with Some a => Some (a_type a, a_val a) | None => None end.
Proof. unfold find_att. induction l as [|m l IH]; cbn; auto. destruct (String.eqb (m_name m) n); [reflexivity|exact IH]. Qed.
Definition seen (l : list att) : dictionary := fun n => match find_att n l with Some a => Some (a_type a, a_val a) | None => None end.
Lemma shown_seen s n : shown s n = seen (map to_att (s_atts (s_o s))) n.
Proof. unfold shown, read_global_attribute, seen. apply find_shown. Qed.
Lemma seen_app l b n : ~ In (a_name b) (map a_name l) -> seen (l ++ [b]) n = set (seen l) (a_name b) (Some (a_type b, a_val b)) n.
Proof.
  unfold seen, set, find_att. induction l as [|a l IH]; cbn; intros H.
  - rewrite (String.eqb_sym n). destruct (String.eqb_spec (a_name b) n); reflexivity.
  - destruct (String.eqb_spec (a_name a) n) as [E|E].
    + destruct (String.eqb_spec n (a_name b)) as [X|X]; [exfalso; apply H; left; congruence|reflexivity].
    + apply IH. tauto.
Qed.
Lemma seen_notin l n : ~ In n (map a_name l) -> seen l n = None.
Proof. intros H. unfold seen. now rewrite find_att_notin. Qed.
Lemma seen_upd l i a b n : NoDup (map a_name l) -> nth_error l i = Some a -> (a_name b = a_name a \/ ~ In (a_name b) (map a_name l)) ->
  seen (upd l i b) n = set (set (seen l) (a_name a) None) (a_name b) (Some (a_type b, a_val b)) n.
Proof.
  revert i. induction l as [|c l IH]; intros [|i] N E Hb; cbn in E; try discriminate.
  - injection E as ->. inversion N as [|? ? Hn N']; subst. cbn [upd]. unfold seen, set, find_att in *. cbn [find].
    rewrite (String.eqb_sym n (a_name b)). destruct (String.eqb_spec (a_name b) n) as [X|X]; [reflexivity|].
    rewrite (String.eqb_sym n (a_name a)). destruct (String.eqb_spec (a_name a) n) as [Y|Y]; [|reflexivity].
    assert (Z := find_att_notin n l). unfold find_att in Z. rewrite Z; [reflexivity|]. subst n. exact Hn.
  - inversion N as [|? ? Hn N']; subst. cbn [upd]. cbn [map In] in Hb.
    assert (IH' := IH i N' E). assert (Hin : In a l) by exact (nth_error_In _ _ E).
    assert (Hb' : a_name b = a_name a \/ ~ In (a_name b) (map a_name l)) by tauto. specialize (IH' Hb').
    unfold seen, set, find_att in *. cbn [find]. destruct (String.eqb_spec (a_name c) n) as [X|X].
    + destruct (String.eqb_spec n (a_name b)) as [Y|Y].
      * exfalso. destruct Hb as [Hb|Hb]; [|apply Hb; left; congruence]. apply Hn. rewrite X, Y, Hb. apply in_map. exact Hin.
      * destruct (String.eqb_spec n (a_name a)) as [Z|Z]; [|reflexivity]. exfalso. apply Hn. rewrite X, Z. apply in_map. exact Hin.
    + exact IH'.
Qed.

(** One operation. *)
Lemma step_spec o s l k : I s l k -> op_ok o -> tidy s o ->
  exists s' r l' k', step o s = (s', r) /\ I s' l' k' /\ s_mode (s_o s') = s_mode (s_o s) /\
    (forall n, shown s' n = match r with Ok _ => effect o (shown s) n | _ => shown s n end).
Proof.
  intros H V T. destruct o as [vs|f x ns|ns|n t v|old new t v]; cbn [step].
  - destruct (S_register vs s l k H) as (l' & H' & A & Mo & _). destruct (register_field_collection vs s) as [s' r] eqn:E. cbn [fst] in *.
    exists s', r, l', k. split; [reflexivity|]. split; [exact H'|]. split; [exact Mo|]. intros n. rewrite !shown_seen, A. destruct r; cbn [effect]; rewrite ?shown_seen; reflexivity.
  - destruct (write_I f x ns s l k H) as (l' & k' & H' & V1 & V2). destruct (write f x ns s) as [s' r] eqn:E. cbn [fst] in *.
    exists s', r, l', k'. split; [reflexivity|]. split; [exact H'|]. split; [congruence|]. intros n. rewrite !shown_seen, <- V1. destruct r; cbn [effect]; rewrite ?shown_seen; reflexivity.
  - destruct (S_read ns s l k H) as (l' & H' & A & Mo & _). destruct (read ns s) as [s' r] eqn:E. cbn [fst] in *.
    exists s', r, l', k. split; [reflexivity|]. split; [exact H'|]. split; [exact Mo|]. intros n. rewrite !shown_seen, A. destruct r; cbn [effect]; rewrite ?shown_seen; reflexivity.
  - destruct (wga_spec n t v s l k H V) as (s' & r & E & H' & Mo & R). exists s', r, l, k. split; [exact E|]. split; [exact H'|]. split; [exact Mo|].
    intros j. destruct R as [(-> & A)|(-> & Hn & A)]; rewrite shown_seen, A.
    + now rewrite shown_seen.
    + rewrite map_app. cbn [map]. rewrite seen_app by (rewrite map_a_name; exact Hn). cbn [to_att new_matt a_name a_type a_val m_name m_type m_val effect].
      unfold set. rewrite shown_seen. reflexivity.
  - assert (T' : new = old \/ legal_name new = true /\ ~ In new (map m_name (s_atts (s_o s)))) by exact T.
    destruct (update_spec s l k old new t v H V T') as (s' & r & l' & E & H' & SV & Mo & G & F & R). exists s', r, l', k. split; [exact E|]. split; [exact H'|].
    split; [congruence|]. intros j. rewrite shown_seen. destruct R as [(-> & A & _)|(-> & _ & i & m & m' & Em & Nm & Am & A)]; rewrite A.
    + now rewrite shown_seen.
    + rewrite map_upd, Am. erewrite seen_upd with (a := to_att m).
      * cbn [a_name a_type a_val to_att effect]. rewrite Nm. unfold set. rewrite shown_seen. reflexivity.
      * rewrite map_a_name. exact (I_names _ _ _ H).
      * rewrite nth_error_map, Em. reflexivity.
      * cbn [a_name to_att]. rewrite map_a_name, Nm. tauto.
Qed.

(** Runs. *)
Lemma set_ext d d' n x : (forall k, d k = d' k) -> forall k, set d n x k = set d' n x k.
Proof. intros H k. unfold set. destruct (String.eqb k n); auto. Qed.
Lemma effect_ext o d d' : (forall k, d k = d' k) -> forall k, effect o d k = effect o d' k.
Proof. intros H k. destruct o; cbn [effect]; auto; repeat apply set_ext; auto. Qed.
Lemma after_ext h d d' : (forall k, d k = d' k) -> forall k, after h d k = after h d' k.
Proof. revert d d'. induction h as [|[o [a|e|]] h IH]; intros d d' H; cbn [after]; auto. apply IH. apply effect_ext. exact H. Qed.
Lemma runs_spec s h s' : tidy_runs s h s' -> forall l k, I s l k ->
  exists l' k', I s' l' k' /\ s_mode (s_o s') = s_mode (s_o s) /\ (forall n, shown s' n = after h (shown s) n).
Proof.
  induction 1 as [s|s o s1 r h s2 Ho Ht E Hr IH]; intros l k H.
  - exists l, k. auto.
  - destruct (step_spec o s l k H Ho Ht) as (s1' & r' & l1 & k1 & E' & H1 & M1 & V1). rewrite E in E'. injection E' as <- <-.
    destruct (IH l1 k1 H1) as (l2 & k2 & H2 & M2 & V2). exists l2, k2. split; [exact H2|]. split; [congruence|].
    intros n. rewrite V2. destruct r; cbn [after]; apply after_ext; exact V1.
Qed.
