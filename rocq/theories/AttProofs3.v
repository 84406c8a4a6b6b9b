(** Proofs about attributes and modes of files: updates, registration, writing. *)
From Coq Require Import String.
From Verif Require Import Base AttModel AttSpec LayoutProofs AttProofs AttProofs2.
Local Open Scope Z_scope.
Local Open Scope list_scope.

Lemma nctype_eqb_eq a b : nctype_eqb a b = true -> a = b.
Proof. destruct a, b; cbn; congruence. Qed.
Lemma nctype_eqb_refl a : nctype_eqb a a = true.
Proof. destruct a; reflexivity. Qed.
Lemma space_le a b : (List.length b <= List.length a)%nat -> (space a <? space b)%nat = false.
Proof. intros H. apply Nat.ltb_ge. unfold space. apply Nat.mul_le_mono_l. apply Nat.div_le_mono; lia. Qed.

(** Leaving define mode, if the file is in it. *)
Definition to_data (s : st) : M unit :=
  if is_flag (s_flag (s_o s)) MData then ret tt
  else do e <- call lib_enddef; match e with None | Some ENotInDefine => set_flag MData | Some _ => throw end.
Lemma to_data_spec s l k : I s l k ->
  exists s1 l1, to_data s s = (s1, Ok tt) /\ I s1 l1 k /\ s_flag (s_o s1) = MData /\ l_def l1 = false /\ same_vars s s1 /\
    s_atts (s_o s) = s_atts (s_o s1) /\ s_mode (s_o s) = s_mode (s_o s1) /\ s_changed (s_o s) = s_changed (s_o s1) /\ s_gdef (s_o s) = s_gdef (s_o s1).
Proof.
  intros H. unfold to_data. destruct (s_flag (s_o s)) eqn:F; cbn [is_flag].
  - exfalso. exact (I_flag _ _ _ H F).
  - exists (with_flag s MData l false), (mk_lib (l_rw l) false (l_c l)).
    assert (S1 : same_vars s (with_flag s MData l false)) by (unfold same_vars, with_flag; pj; rewrite (I_lib _ _ _ H); repeat split).
    assert (H1 : I (with_flag s MData l false) (mk_lib (l_rw l) false (l_c l)) k) by (apply I_with_flag; auto; discriminate).
    split; [|repeat (split; auto)].
    unfold mbind, call. rewrite (I_lib _ _ _ H). unfold lib_enddef. destruct l as [rw d c]. pj. destruct d; [reflexivity|].
    unfold set_flag, upd_obj, with_flag. pj. rewrite (I_lib _ _ _ H). reflexivity.
  - exists s, l. assert (X := same_vars_refl s). assert (D := I_data _ _ _ H F). repeat (split; auto).
Qed.

Lemma put_existing l i a b : l_rw l = true -> l_def l = false -> NoDup (map a_name (c_gatts (l_c l))) ->
  nth_error (c_gatts (l_c l)) i = Some a -> a_name a = a_name b -> (List.length (a_val b) <= List.length (a_val a))%nat ->
  lib_put_gatt b l = inr (set_gatts l (upd (c_gatts (l_c l)) i b)).
Proof.
  intros R D N E En Le. unfold lib_put_gatt, put_att. rewrite R, D. cbn [negb]. rewrite <- En, (find_att_nth _ i a N E), space_le by exact Le.
  rewrite (replace_att_nth _ i a b N E). reflexivity.
Qed.
Lemma rename_existing l i a new : l_rw l = true -> l_def l = false -> NoDup (map a_name (c_gatts (l_c l))) ->
  nth_error (c_gatts (l_c l)) i = Some a -> legal_name new = true -> ~ In new (map a_name (c_gatts (l_c l))) -> (String.length new <= String.length (a_name a))%nat ->
  lib_rename_gatt (a_name a) new l = inr (set_gatts l (upd (c_gatts (l_c l)) i (mk_att new (a_type a) (a_val a)))).
Proof.
  intros R D N E Lg Hn Le. unfold lib_rename_gatt, rename_att. rewrite R, D, Lg. cbn [negb].
  rewrite (find_att_nth _ i a N E), (find_att_notin new _ Hn). destruct (Nat.ltb_spec (String.length (a_name a)) (String.length new)); [lia|]. cbn [andb].
  now rewrite (replace_att_nth _ i a _ N E).
Qed.

Lemma upd_upd {A} (l : list A) i a b : upd (upd l i a) i b = upd l i b.
Proof. revert i. induction l as [|x l IH]; intros [|i]; cbn; auto. f_equal. apply IH. Qed.

(** The state after the attribute at position [i] became [m'], in memory and in
    the file. *)
Definition updated (s : st) (l : lib) (i : nat) (m' : matt) : st :=
  mk_st (mk_session (s_mode (s_o s)) (s_flag (s_o s)) true (s_gdef (s_o s)) (upd (s_atts (s_o s)) i m') (s_vars (s_o s)))
        (Some (set_gatts l (upd (c_gatts (l_c l)) i (to_att m')))) (s_disk s).
Lemma updated_I s l k i m m' : I s l k -> nth_error (s_atts (s_o s)) i = Some m -> (i < k)%nat -> m_written m' = true ->
  value_ok (m_type m') (m_val m') -> (m_name m' = m_name m \/ legal_name (m_name m') = true /\ ~ In (m_name m') (map m_name (s_atts (s_o s)))) ->
  I (updated s l i m') (set_gatts l (upd (c_gatts (l_c l)) i (to_att m'))) k.
Proof.
  intros H E Hi Wm Vm Nm. assert (Hl : (i < List.length (s_atts (s_o s)))%nat) by (apply nth_error_Some; congruence).
  destruct H. constructor; unfold updated; pj; auto; try (rewrite ?upd_length; assumption).
  - rewrite firstn_upd_lt by exact Hi. rewrite map_upd, I_file. reflexivity.
  - intros j x. destruct (Nat.eq_dec j i) as [->|Ne].
    + rewrite nth_error_upd_same by exact Hl. intros X. injection X as <-. rewrite Wm. symmetry. apply Nat.ltb_lt. exact Hi.
    + rewrite nth_error_upd_other by auto. apply I_wr.
  - rewrite map_upd. apply NoDup_upd with (a := m_name m); [exact I_names|rewrite nth_error_map, E; reflexivity|]. destruct Nm as [->|[_ X]]; auto.
  - apply Forall_upd; assumption.
  - rewrite firstn_upd_lt by exact Hi. apply Forall_upd; [assumption|]. destruct Nm as [X|[X _]]; [|exact X]. rewrite X.
    rewrite Forall_forall in I_legal. apply I_legal. apply nth_error_In with i. rewrite nth_error_firstn_lt by exact Hi. exact E.
Qed.

Lemma update_written s l k i m m' old new t v : I s l k -> s_flag (s_o s) = MData -> nth_error (s_atts (s_o s)) i = Some m -> (i < k)%nat ->
  m_name m = old -> update_matt m new t v = Some m' ->
  (new = old \/ legal_name new = true /\ ~ In new (map m_name (s_atts (s_o s)))) ->
  (run set_atts (upd (s_atts (s_o s)) i m');
   run (if String.eqb old new then ret tt else check (lib_rename_gatt old new));
   run check (lib_put_gatt (to_att m')); netcdf_file_changes) s = (updated s l i m', Ok tt).
Proof.
  intros H F E Hi En U Hn. assert (D := I_data _ _ _ H F). assert (R := I_rw _ _ _ H). assert (HL := I_lib _ _ _ H). assert (HM := I_mode _ _ _ H).
  assert (HD : NoDup (map a_name (c_gatts (l_c l)))) by (rewrite (I_file _ _ _ H), map_a_name, firstn_map_names; apply NoDup_firstn; exact (I_names _ _ _ H)).
  assert (HE : nth_error (c_gatts (l_c l)) i = Some (to_att m)) by (rewrite (I_file _ _ _ H), nth_error_map, nth_error_firstn_lt, E by exact Hi; reflexivity).
  unfold update_matt in U. destruct (nctype_eqb (m_type m) t) eqn:Et; cbn [negb] in U; [|discriminate]. apply nctype_eqb_eq in Et.
  destruct (Nat.ltb_spec (String.length (m_name m)) (String.length new)) as [|Ln]; [discriminate|].
  destruct (Nat.ltb_spec (List.length (m_val m)) (List.length v)) as [|Lv]; [discriminate|]. injection U as <-.
  set (m' := mk_matt new t (List.length v / tsize t) v true (m_written m)).
  set (s1 := mk_st (mk_session (s_mode (s_o s)) (s_flag (s_o s)) (s_changed (s_o s)) (s_gdef (s_o s)) (upd (s_atts (s_o s)) i m') (s_vars (s_o s))) (s_lib s) (s_disk s)).
  rewrite (bind_ok _ _ s s1 tt) by reflexivity.
  assert (Fin : forall g, nth_error (c_gatts (l_c g)) i <> None -> l_rw g = true -> l_def g = false -> NoDup (map a_name (c_gatts (l_c g))) ->
    (exists a, nth_error (c_gatts (l_c g)) i = Some a /\ a_name a = new /\ a_val a = m_val m) ->
    (run check (lib_put_gatt (to_att m')); netcdf_file_changes) (mk_st (s_o s1) (Some g) (s_disk s)) =
    (mk_st (mk_session (s_mode (s_o s)) (s_flag (s_o s)) true (s_gdef (s_o s)) (upd (s_atts (s_o s)) i m') (s_vars (s_o s)))
           (Some (set_gatts g (upd (c_gatts (l_c g)) i (to_att m')))) (s_disk s), Ok tt)).
  { intros g _ Rg Dg Ng (a & Ea & Na & Va).
    assert (P := put_existing g i a (to_att m') Rg Dg Ng Ea). cbn [to_att a_name a_val m' m_name m_val] in P. specialize (P Na ltac:(rewrite Va; exact Lv)).
    erewrite bind_ok by (eapply check_inr; [reflexivity|exact P]). unfold netcdf_file_changes. rewrite bind_obj. unfold s1. pj.
    destruct (s_mode (s_o s)) eqn:Mo; [contradiction|reflexivity|reflexivity|reflexivity]. }
  destruct (String.eqb_spec old new) as [Eq|Ne].
  - rewrite (bind_ok _ _ s1 s1 tt) by reflexivity. subst new.
    replace s1 with (mk_st (s_o s1) (Some l) (s_disk s)) by (unfold s1; pj; now rewrite HL).
    rewrite Fin; [reflexivity|congruence|exact R|exact D|exact HD|]. exists (to_att m). repeat split; [exact HE|]. cbn. exact En.
  - destruct Hn as [X|[Lg Nn]]; [congruence|].
    assert (Nf : ~ In new (map a_name (c_gatts (l_c l)))).
    { rewrite (I_file _ _ _ H), map_a_name, firstn_map_names. intros X. apply Nn. exact (In_firstn _ _ _ X). }
    assert (P := rename_existing l i (to_att m) new R D HD HE Lg Nf). cbn [to_att a_name a_type a_val] in P. rewrite En in P. specialize (P ltac:(rewrite <- En; exact Ln)).
    erewrite bind_ok by (eapply check_inr; [unfold s1; pj; exact HL|exact P]).
    assert (Hil : (i < List.length (c_gatts (l_c l)))%nat) by (apply nth_error_Some; congruence).
    rewrite Fin.
    + unfold updated. pj. now rewrite upd_upd.
    + pj. rewrite nth_error_upd_same by exact Hil. discriminate.
    + exact R.
    + exact D.
    + pj. rewrite map_upd. cbn [a_name]. apply NoDup_upd with (a := old); [exact HD|rewrite nth_error_map, HE; cbn; congruence|auto].
    + pj. rewrite nth_error_upd_same by exact Hil. eexists. repeat split.
Qed.

(** The result of an update. *)
Definition update_result (s s' : st) (old new : string) (t : nctype) (v : bytes) (r : res unit) : Prop :=
  same_vars s s' /\ s_mode (s_o s) = s_mode (s_o s') /\ s_gdef (s_o s) = s_gdef (s_o s') /\ s_flag (s_o s') = MData /\
  (r = Err FileIOError /\ s_atts (s_o s') = s_atts (s_o s) /\ s_changed (s_o s') = s_changed (s_o s) \/
   r = Ok tt /\ s_changed (s_o s') = true /\ exists i m m', nth_error (s_atts (s_o s)) i = Some m /\ m_name m = old /\ to_att m' = mk_att new t v /\
     s_atts (s_o s') = upd (s_atts (s_o s)) i m').

Lemma update_spec s l k old new t v : I s l k -> value_ok t v ->
  (new = old \/ legal_name new = true /\ ~ In new (map m_name (s_atts (s_o s)))) ->
  exists s' r l', update_global_attribute old new t v s = (s', r) /\ I s' l' k /\ update_result s s' old new t v r.
Proof.
  intros H V Hn. unfold update_global_attribute. rewrite bind_obj.
  destruct (s_mode (s_o s)) eqn:Mo; [exfalso; exact (I_mode _ _ _ H Mo)|..].
  all: destruct (to_data_spec s l k H) as (s1 & l1 & E1 & H1 & F1 & D1 & S1 & A1 & M1 & C1 & G1); unfold to_data in E1;
       rewrite (bind_ok _ _ _ _ _ E1), bind_obj.
  all: destruct (position (fun m => String.eqb (m_name m) old) (s_atts (s_o s1))) as [i|] eqn:P;
    [|exists s1, (Err FileIOError), l1; split; [reflexivity|]; split; [exact H1|]; unfold update_result; repeat (split; auto)].
  all: destruct (position_some _ _ _ P) as (m & Em & Hm); rewrite Em; apply String.eqb_eq in Hm.
  all: destruct (m_written m) eqn:Wm; cbn [negb];
    [|exists s1, (Err FileIOError), l1; split; [reflexivity|]; split; [exact H1|]; unfold update_result; repeat (split; auto)].
  all: destruct (update_matt m new t v) as [m'|] eqn:U;
    [|exists s1, (Err FileIOError), l1; split; [reflexivity|]; split; [exact H1|]; unfold update_result; repeat (split; auto)].
  all: assert (Hi : (i < k)%nat) by (rewrite (I_wr _ _ _ H1 i m Em) in Wm; apply Nat.ltb_lt; exact Wm).
  all: rewrite A1 in Hn; rewrite (update_written s1 l1 k i m m' old new t v H1 F1 Em Hi Hm U Hn).
  all: unfold update_matt in U; destruct (nctype_eqb (m_type m) t); [|discriminate]; destruct (_ <? _)%nat; [discriminate|]; destruct (_ <? _)%nat; [discriminate|]; injection U as <-; cbn [negb].
  all: eexists _, _, _; split; [reflexivity|]; split; [apply (updated_I s1 l1 k i m); auto; cbn; rewrite ?Hm; tauto|].
  all: unfold update_result; split; [|split; [exact M1|split; [exact G1|split; [exact F1|right; split; [reflexivity|split; [reflexivity|]]]]]].
  all: try (eapply same_vars_trans; [exact S1|]; unfold same_vars, updated; pj; rewrite (I_lib _ _ _ H1); repeat split).
  all: exists i, m; eexists; rewrite A1; split; [exact Em|]; split; [exact Hm|]; split; [|reflexivity]; reflexivity.
Qed.
