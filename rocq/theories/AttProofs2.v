(** Proofs about attributes and modes of files: the invariant through every
    operation, and what happens to the attributes. *)
From Coq Require Import String.
From Verif Require Import Base AttModel AttSpec LayoutProofs AttProofs.
Local Open Scope Z_scope.
Local Open Scope list_scope.

Ltac pj := cbn [s_o s_lib s_disk s_mode s_flag s_changed s_gdef s_atts s_vars l_rw l_def l_c c_gatts c_vars c_data set_gatts set_lvars fst snd].

Definition with_flag (s : st) (f : nmode) (l : lib) (d : bool) : st :=
  mk_st (mk_session (s_mode (s_o s)) f (s_changed (s_o s)) (s_gdef (s_o s)) (s_atts (s_o s)) (s_vars (s_o s)))
        (Some (mk_lib (l_rw l) d (l_c l))) (s_disk s).
Lemma I_with_flag s l k f d : I s l k -> f <> MUndefined -> (f = MData -> d = false) ->
  (writes (s_mode (s_o s)) = true -> f = MDefine -> d = true) -> I (with_flag s f l d) (mk_lib (l_rw l) d (l_c l)) k.
Proof. intros H F1 F2 F3. destruct H. constructor; cbn; auto. Qed.

Lemma bind_ok {A B} (m : M A) (k : A -> M B) s s1 a : m s = (s1, Ok a) -> mbind m k s = k a s1.
Proof. intros E. unfold mbind. now rewrite E. Qed.
Lemma bind_err {A B} (m : M A) (k : A -> M B) s s1 e : m s = (s1, Err e) -> mbind m k s = (s1, Err e).
Proof. intros E. unfold mbind. now rewrite E. Qed.
Lemma bind_ub {A B} (m : M A) (k : A -> M B) s s1 : m s = (s1, UB) -> mbind m k s = (s1, UB).
Proof. intros E. unfold mbind. now rewrite E. Qed.
Lemma bind_obj {B} (k : session -> M B) s : mbind obj k s = k (s_o s) s.
Proof. reflexivity. Qed.
Lemma bind_assoc {A B C} (m : M A) (k : A -> M B) (j : B -> M C) s : mbind (mbind m k) j s = mbind m (fun a => mbind (k a) j) s.
Proof. unfold mbind. destruct (m s) as [s1 [a|e|]]; reflexivity. Qed.

Lemma check_inr f s l l' : s_lib s = Some l -> f l = inr l' -> check f s = (mk_st (s_o s) (Some l') (s_disk s), Ok tt).
Proof. intros E F. unfold check, mbind, call. rewrite E, F. reflexivity. Qed.
Lemma check_inl f s l e : s_lib s = Some l -> f l = inl e -> check f s = (s, Err FileIOError).
Proof. intros E F. unfold check, mbind, call. rewrite E, F. reflexivity. Qed.

(** Entering and leaving define mode. *)
Lemma enter_define s l k : I s l k -> s_flag (s_o s) = MData ->
  mbind (check lib_redef) (fun _ => set_flag MDefine) s = (with_flag s MDefine l true, Ok tt).
Proof.
  intros H F. erewrite bind_ok by (eapply check_inr; [exact (I_lib _ _ _ H)|unfold lib_redef; now rewrite (I_rw _ _ _ H), (I_data _ _ _ H F)]).
  cbn. unfold with_flag, set_flag, upd_obj. cbn. now rewrite (I_rw _ _ _ H).
Qed.
Lemma leave_define s l k : I s l k -> l_def l = true ->
  mbind (check lib_enddef) (fun _ => set_flag MData) s = (with_flag s MData l false, Ok tt).
Proof.
  intros H F. erewrite bind_ok by (eapply check_inr; [exact (I_lib _ _ _ H)|unfold lib_enddef; now rewrite F]). reflexivity.
Qed.

(** What is the same for a user: attributes, open mode, variables, the rest of
    the file, the disk. *)
Definition same_vars (s s' : st) : Prop :=
  s_vars (s_o s) = s_vars (s_o s') /\ s_disk s = s_disk s' /\
  match s_lib s, s_lib s' with
  | Some l, Some l' => c_vars (l_c l) = c_vars (l_c l') /\ c_data (l_c l) = c_data (l_c l')
  | None, None => True
  | _, _ => False
  end.
Definition same_view (s s' : st) : Prop :=
  map to_att (s_atts (s_o s)) = map to_att (s_atts (s_o s')) /\ s_mode (s_o s) = s_mode (s_o s').
Lemma same_vars_refl s : same_vars s s.
Proof. unfold same_vars. repeat split. destruct (s_lib s); auto. Qed.
Lemma same_vars_trans a b c : same_vars a b -> same_vars b c -> same_vars a c.
Proof.
  intros (A1 & A2 & A3) (B1 & B2 & B3). unfold same_vars. repeat split; try congruence.
  destruct (s_lib a), (s_lib b), (s_lib c); try tauto. destruct A3, B3. split; congruence.
Qed.

(** One attribute of [define_global_attributes]. *)
Definition marked (m : matt) : matt := mk_matt (m_name m) (m_type m) (m_n m) (m_val m) (m_init m) true.
Lemma to_att_marked m : to_att (marked m) = to_att m. Proof. reflexivity. Qed.

Lemma define_one_written s l k i : I s l k -> (i < k)%nat -> define_one i s = (s, Ok tt).
Proof.
  intros H Hi. unfold define_one. rewrite bind_obj. destruct (nth_error (s_atts (s_o s)) i) as [m|] eqn:E; [|reflexivity].
  rewrite (I_wr _ _ _ H i m E). destruct (Nat.ltb_spec i k); [reflexivity|lia].
Qed.
Lemma put_new l b : l_rw l = true -> l_def l = true -> ~ In (a_name b) (map a_name (c_gatts (l_c l))) ->
  lib_put_gatt b l = if legal_name (a_name b) then inr (set_gatts l (c_gatts (l_c l) ++ [b])) else inl EBadName.
Proof.
  intros R D N. unfold lib_put_gatt, put_att. rewrite R, D. cbn [negb]. rewrite find_att_notin by exact N. destruct (legal_name _); reflexivity.
Qed.
Lemma name_notin l k m : NoDup (map m_name l) -> nth_error l k = Some m -> ~ In (m_name m) (map m_name (firstn k l)).
Proof.
  revert k. induction l as [|a l IH]; intros [|k] N E; cbn in *; try discriminate; [tauto|]. inversion N as [|? ? Hn N']; subst.
  intros [X|X]; [|exact (IH k N' E X)]. apply Hn. rewrite X. apply in_map. exact (nth_error_In _ _ E).
Qed.
Lemma define_one_next s l k m : I s l k -> l_def l = true -> s_gdef (s_o s) = false -> s_mode (s_o s) <> OAppend -> nth_error (s_atts (s_o s)) k = Some m ->
  if legal_name (m_name m)
  then exists s' l', define_one k s = (s', Ok tt) /\ I s' l' (S k) /\ l_def l' = true /\ same_vars s s' /\
         s_o s' = mk_session (s_mode (s_o s)) (s_flag (s_o s)) (s_changed (s_o s)) (s_gdef (s_o s)) (upd (s_atts (s_o s)) k (marked m)) (s_vars (s_o s))
  else define_one k s = (s, Err FileIOError).
Proof.
  intros H D GD NA E. unfold define_one. rewrite bind_obj, E, (I_wr _ _ _ H k m E), Nat.ltb_irrefl.
  assert (Hk : (k < List.length (s_atts (s_o s)))%nat) by (apply nth_error_Some; congruence).
  assert (P : lib_put_gatt (to_att m) l = if legal_name (m_name m) then inr (set_gatts l (c_gatts (l_c l) ++ [to_att m])) else inl EBadName).
  { apply put_new; [exact (I_rw _ _ _ H)|exact D|]. rewrite (I_file _ _ _ H), map_a_name. apply name_notin; [exact (I_names _ _ _ H)|exact E]. }
  destruct (legal_name (m_name m)) eqn:Lm.
  - erewrite bind_ok by (eapply check_inr; [exact (I_lib _ _ _ H)|exact P]).
    eexists. exists (set_gatts l (c_gatts (l_c l) ++ [to_att m])). split; [reflexivity|].
    assert (HL := I_lib _ _ _ H). split; [|split; [exact D|split; [|reflexivity]]].
    2:{ unfold same_vars. cbn. rewrite HL. repeat split. }
    destruct H. constructor; pj; auto.
    + rewrite (firstn_S_nth _ _ (marked m)) by (apply nth_error_upd_same; exact Hk). rewrite firstn_upd_ge, map_app, I_file by lia. reflexivity.
    + intros i x. destruct (Nat.eq_dec i k) as [->|Ne].
      * rewrite nth_error_upd_same by exact Hk. intros X. injection X as <-. cbn [m_written marked]. symmetry. apply Nat.ltb_lt. lia.
      * rewrite nth_error_upd_other by auto. intros X. rewrite (I_wr i x X). destruct (Nat.ltb_spec i k), (Nat.ltb_spec i (S k)); try reflexivity; lia.
    + rewrite upd_length. lia.
    + congruence.
    + contradiction.
    + rewrite map_upd. cbn. rewrite upd_id; [assumption|]. rewrite nth_error_map, E. reflexivity.
    + apply Forall_upd; [assumption|]. rewrite Forall_forall in I_val. exact (I_val m (nth_error_In _ _ E)).
    + rewrite (firstn_S_nth _ _ (marked m)) by (apply nth_error_upd_same; exact Hk). rewrite firstn_upd_ge by lia. apply Forall_app. split; [assumption|]. constructor; auto.
  - erewrite bind_err by (eapply check_inl; [exact (I_lib _ _ _ H)|exact P]). reflexivity.
Qed.

(** All of them. *)
Lemma define_all n : forall s l k j, I s l k -> l_def l = true -> s_gdef (s_o s) = false -> s_mode (s_o s) <> OAppend ->
  (j <= k)%nat -> (j + n = List.length (s_atts (s_o s)))%nat ->
  exists s' l' k' r, each define_one (seq j n) s = (s', r) /\ I s' l' k' /\ l_def l' = true /\ same_vars s s' /\
    map to_att (s_atts (s_o s)) = map to_att (s_atts (s_o s')) /\
    s_mode (s_o s) = s_mode (s_o s') /\ s_flag (s_o s) = s_flag (s_o s') /\ s_changed (s_o s) = s_changed (s_o s') /\ s_gdef (s_o s') = false /\
    (r = Ok tt /\ k' = List.length (s_atts (s_o s')) \/
     r = Err FileIOError /\ exists m, In m (s_atts (s_o s)) /\ legal_name (m_name m) = false).
Proof.
  induction n as [|n IH]; intros s l k j H D GD NA Hj Hn; cbn [seq each].
  - exists s, l, k, (Ok tt). assert (X := I_le _ _ _ H). assert (Z := same_vars_refl s). repeat (split; auto). left. split; [reflexivity|lia].
  - destruct (Nat.eq_dec j k) as [->|Ne].
    + destruct (nth_error (s_atts (s_o s)) k) as [m|] eqn:E; [|apply nth_error_None in E; lia].
      assert (X := define_one_next s l k m H D GD NA E). destruct (legal_name (m_name m)) eqn:Lm.
      * destruct X as (s1 & l1 & E1 & H1 & D1 & S1 & O1). rewrite (bind_ok _ _ _ _ _ E1).
        destruct (IH s1 l1 (S k) (S k) H1 D1) as (s' & l' & k' & r & E2 & H2 & D2 & S2 & M2 & P1 & P2 & P3 & P4 & R).
        { rewrite O1. exact GD. } { rewrite O1. exact NA. } { lia. } { rewrite O1. pj. rewrite upd_length. lia. }
        assert (Mm : map to_att (s_atts (s_o s)) = map to_att (s_atts (s_o s1))).
        { rewrite O1. pj. rewrite map_upd, to_att_marked. symmetry. apply upd_id. rewrite nth_error_map, E. reflexivity. }
        exists s', l', k', r. split; [exact E2|]. split; [exact H2|]. split; [exact D2|]. split; [exact (same_vars_trans _ _ _ S1 S2)|].
        split; [congruence|]. rewrite <- P1, <- P2, <- P3, O1. repeat (split; auto).
        destruct R as [R|(R & x & Hx & Lx)]; [left; exact R|right]. split; [exact R|].
        assert (Y : In (to_att x) (map to_att (s_atts (s_o s)))) by (rewrite Mm; apply in_map; exact Hx).
        apply in_map_iff in Y. destruct Y as (y & Ey & Hy). exists y. split; [exact Hy|]. assert (Z : a_name (to_att y) = a_name (to_att x)) by congruence. cbn in Z. congruence.
      * rewrite (bind_err _ _ _ _ _ X). exists s, l, k, (Err FileIOError). assert (Z := same_vars_refl s). repeat (split; auto). right. split; [reflexivity|].
        exists m. split; [exact (nth_error_In _ _ E)|exact Lm].
    + rewrite (bind_ok _ _ _ _ _ (define_one_written s l k j H ltac:(lia))). apply (IH s l k (S j)); auto; lia.
Qed.

Definition all_legal (s : st) : Prop := Forall (fun n => legal_name n = true) (read_global_attribute_names s).
Lemma legal_not s m : all_legal s -> In m (s_atts (s_o s)) -> legal_name (m_name m) = false -> False.
Proof. intros H Hi E. unfold all_legal in H. rewrite Forall_forall in H. rewrite (H (m_name m)) in E; [discriminate|]. apply in_map. exact Hi. Qed.

Lemma not_append s : writes (s_mode (s_o s)) = true -> s_mode (s_o s) <> OAppend.
Proof. destruct (s_mode (s_o s)); cbn; congruence. Qed.
Lemma set_gdef_I s l k : I s l k -> k = List.length (s_atts (s_o s)) ->
  I (mk_st (mk_session (s_mode (s_o s)) (s_flag (s_o s)) (s_changed (s_o s)) true (s_atts (s_o s)) (s_vars (s_o s))) (s_lib s) (s_disk s)) l k.
Proof. intros H E. destruct H. constructor; pj; auto. Qed.

(** The result of [define_global_attributes_save_call]: everything as before,
    and all attributes written unless one has an illegal name. *)
Definition defined_result (s s' : st) (r : res unit) : Prop :=
  same_vars s s' /\ same_view s s' /\ s_changed (s_o s) = s_changed (s_o s') /\
  (exists l' k', I s' l' k' /\
     (r = Ok tt /\ (writes (s_mode (s_o s)) = true -> s_gdef (s_o s') = true) /\ s_flag (s_o s') = s_flag (s_o s) \/
      r = Err FileIOError /\ writes (s_mode (s_o s)) = true /\ exists m, In m (s_atts (s_o s)) /\ legal_name (m_name m) = false)).

Lemma define_ga s l k : I s l k -> writes (s_mode (s_o s)) = true -> s_gdef (s_o s) = false -> s_flag (s_o s) = MDefine -> l_def l = true ->
  exists s' r l' k', define_global_attributes s = (s', r) /\ I s' l' k' /\ l_def l' = true /\ same_vars s s' /\ same_view s s' /\
    s_changed (s_o s) = s_changed (s_o s') /\ s_flag (s_o s') = MDefine /\
    (r = Ok tt /\ s_gdef (s_o s') = true \/
     r = Err FileIOError /\ exists m, In m (s_atts (s_o s)) /\ legal_name (m_name m) = false).
Proof.
  intros H W G F D. unfold define_global_attributes. rewrite bind_obj, G, W, F. cbn [negb is_flag].
  destruct (define_all (List.length (s_atts (s_o s))) s l k 0 H D G (not_append _ W)) as (s' & l' & k' & r & E2 & H2 & D2 & S2 & M2 & P1 & P2 & P3 & P4 & R); [lia|lia|].
  destruct R as [(-> & Hk)|(-> & R)].
  - rewrite (bind_ok _ _ _ _ _ E2). eexists _, _, l', k'. split; [reflexivity|]. split; [exact (set_gdef_I _ _ _ H2 Hk)|]. split; [exact D2|].
    split; [exact S2|]. split; [split; assumption|]. split; [exact P3|]. split; [pj; congruence|]. left. split; reflexivity.
  - rewrite (bind_err _ _ _ _ _ E2). exists s', (Err FileIOError), l', k'. split; [reflexivity|]. split; [exact H2|]. split; [exact D2|].
    split; [exact S2|]. split; [split; assumption|]. split; [exact P3|]. split; [congruence|]. right. auto.
Qed.

Lemma save_call s l k : I s l k -> exists s' r, define_global_attributes_save_call s = (s', r) /\ defined_result s s' r.
Proof.
  intros H. unfold define_global_attributes_save_call. rewrite bind_obj. unfold defined_result.
  destruct (writes (s_mode (s_o s))) eqn:W; cbn [andb].
  2:{ exists s, (Ok tt). split; [reflexivity|]. split; [apply same_vars_refl|]. split; [split; reflexivity|]. split; [reflexivity|]. exists l, k. split; [exact H|]. left. repeat split; discriminate. }
  destruct (s_gdef (s_o s)) eqn:G; cbn [negb].
  { exists s, (Ok tt). split; [reflexivity|]. split; [apply same_vars_refl|]. split; [split; reflexivity|]. split; [reflexivity|]. exists l, k. split; [exact H|]. left. repeat split; auto. }
  destruct (s_flag (s_o s)) eqn:F.
  - exfalso. exact (I_flag _ _ _ H F).
  - destruct (define_ga s l k H W G F (I_defm _ _ _ H W F)) as (s' & r & l' & k' & E & H' & D' & SV & V & C & F' & R).
    exists s', r. split; [exact E|]. split; [exact SV|]. split; [exact V|]. split; [exact C|]. exists l', k'. split; [exact H'|].
    destruct R as [(-> & X)|(-> & X)]; [left|right]; auto.
  - rewrite <- bind_assoc. rewrite (bind_ok _ _ _ _ _ (enter_define s l k H F)).
    assert (H1 : I (with_flag s MDefine l true) (mk_lib (l_rw l) true (l_c l)) k) by (apply I_with_flag; auto; discriminate).
    destruct (define_ga (with_flag s MDefine l true) _ k H1 W G eq_refl eq_refl) as (s' & r & l' & k' & E & H' & D' & SV & V & C & F' & R).
    assert (SV' : same_vars s s'). { eapply same_vars_trans; [|exact SV]. unfold same_vars, with_flag. pj. rewrite (I_lib _ _ _ H). repeat split. }
    destruct R as [(-> & X)|(-> & X)].
    + rewrite (bind_ok _ _ _ _ _ E). rewrite (leave_define s' l' k' H' D'). exists (with_flag s' MData l' false), (Ok tt). split; [reflexivity|].
      split. { eapply same_vars_trans; [exact SV'|]. unfold same_vars, with_flag. pj. rewrite (I_lib _ _ _ H'). repeat split. }
      split; [exact V|]. split; [exact C|]. eexists _, k'. split; [apply I_with_flag; auto; discriminate|]. left. repeat split. intros _. exact X.
    + rewrite (bind_err _ _ _ _ _ E). exists s', (Err FileIOError). split; [reflexivity|]. split; [exact SV'|]. split; [exact V|]. split; [exact C|].
      exists l', k'. split; [exact H'|]. right. auto.
Qed.
