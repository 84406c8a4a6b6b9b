(** Proofs about attributes and modes of files: closing and opening again. *)
From Coq Require Import String.
From Verif Require Import Base AttModel AttSpec LayoutProofs AttProofs AttProofs2 AttProofs3 AttProofs4.
Local Open Scope string_scope.
Local Open Scope Z_scope.
Local Open Scope list_scope.

Lemma char_ok v : value_ok TChar v.
Proof. split; [reflexivity|]. exists (List.length v). cbn. lia. Qed.
Lemma find_position {A} (p : A -> bool) l a : find p l = Some a -> exists i, position p l = Some i /\ nth_error l i = Some a.
Proof.
  induction l as [|b l IH]; cbn; [discriminate|]. destruct (p b) eqn:E.
  - intros H. injection H as ->. exists 0%nat. auto.
  - intros H. destruct (IH H) as (i & -> & Hi). exists (Datatypes.S i). auto.
Qed.

(** An update that keeps the name and fits succeeds. *)
Lemma update_fits s l k n t v w : I s l k -> k = List.length (s_atts (s_o s)) -> shown s n = Some (t, w) -> (List.length v <= List.length w)%nat ->
  exists s', update_global_attribute n n t v s = (s', Ok tt).
Proof.
  intros H Hk Sh Le. unfold update_global_attribute. rewrite bind_obj.
  assert (Mr : match s_mode (s_o s) with ORead => true | _ => false end = false) by (assert (X := I_mode _ _ _ H); destruct (s_mode (s_o s)); congruence).
  rewrite Mr. destruct (to_data_spec s l k H) as (s1 & l1 & E1 & H1 & F1 & D1 & S1 & A1 & M1 & C1 & G1). unfold to_data in E1.
  rewrite (bind_ok _ _ _ _ _ E1), bind_obj, <- A1. unfold shown, read_global_attribute in Sh.
  destruct (find (fun m => String.eqb (m_name m) n) (s_atts (s_o s))) as [m|] eqn:Fm; [|discriminate]. injection Sh as Et Ew.
  destruct (find_position _ _ _ Fm) as (i & Hp & Em). rewrite Hp, Em. apply find_some in Fm. destruct Fm as [_ Nm]. apply String.eqb_eq in Nm.
  assert (Hi : (i < k)%nat) by (rewrite Hk; apply nth_error_Some; congruence). assert (Wm := I_wr _ _ _ H i m Em). destruct (Nat.ltb_spec i k); [|lia]. rewrite Wm. cbn [negb].
  assert (U : exists m', update_matt m n t v = Some m').
  { unfold update_matt. rewrite Et, nctype_eqb_refl, Nm, Nat.ltb_irrefl, Ew. cbn [negb]. destruct (Nat.ltb_spec (List.length w) (List.length v)); [lia|]. eauto. }
  destruct U as (m' & U). rewrite U. rewrite A1. rewrite A1 in Em.
  rewrite (update_written s1 l1 k i m m' n n t v H1 F1 Em Hi Nm U (or_introl eq_refl)). eauto.
Qed.

Definition names (s : st) : list string := map m_name (s_atts (s_o s)).
(** Attributes as before, except perhaps the values of two. *)
Definition restamped (s s' : st) : Prop :=
  names s' = names s /\ (forall n, ~ In n stamps -> shown s' n = shown s n) /\ s_mode (s_o s') = s_mode (s_o s) /\ s_gdef (s_o s') = s_gdef (s_o s) /\ same_vars s s'.
Lemma restamped_trans a b c : restamped a b -> restamped b c -> restamped a c.
Proof.
  intros (A1 & A2 & A3 & A4 & A5) (B1 & B2 & B3 & B4 & B5). split; [congruence|]. split; [intros n H; rewrite B2, A2; auto|]. split; [congruence|]. split; [congruence|].
  exact (same_vars_trans _ _ _ A5 B5).
Qed.
Lemma stamp_one s l k n t v : I s l k -> In n stamps -> value_ok t v ->
  exists s' r l', update_global_attribute n n t v s = (s', r) /\ I s' l' k /\ restamped s s' /\ s_flag (s_o s') = MData /\ (r = Ok tt \/ r = Err FileIOError) /\
    (r = Ok tt -> shown s' n = Some (t, v)).
Proof.
  intros H Hn V. destruct (update_spec s l k n n t v H V (or_introl eq_refl)) as (s' & r & l' & E & H' & SV & Mo & G & F & R).
  exists s', r, l'. split; [exact E|]. split; [exact H'|].
  assert (X := step_spec (UpdateAtt n n t v) s l k H V (or_introl eq_refl)). destruct X as (s'' & r'' & l'' & k'' & E'' & _ & _ & Sh). cbn [step] in E''. rewrite E in E''. injection E'' as <- <-.
  split; [|split; [exact F|split; [destruct R as [(-> & _)|(-> & _)]; auto|]]].
  - split; [|split; [|repeat split; try congruence; apply SV]].
    + unfold names. destruct R as [(-> & -> & _)|(-> & _ & i & m & m' & Em & Nm & Am & A)]; [reflexivity|]. rewrite A, map_upd. apply upd_id. rewrite nth_error_map, Em. cbn.
      assert (Y : a_name (to_att m') = n) by (rewrite Am; reflexivity). cbn in Y. congruence.
    + intros j Hj. rewrite Sh. destruct r; [|reflexivity|reflexivity]. cbn [effect]. unfold set.
      destruct (String.eqb_spec j n) as [->|Y]; [contradiction|reflexivity].
  - intros ->. rewrite Sh. cbn [effect]. unfold set. now rewrite String.eqb_refl.
Qed.
Lemma stamp_both s l k date time : I s l k ->
  exists s' r l', update_global_attribute_last_modified date time s = (s', r) /\ I s' l' k /\ restamped s s' /\ s_flag (s_o s') = MData /\ (r = Ok tt \/ r = Err FileIOError) /\
    (k = List.length (s_atts (s_o s)) ->
     (exists d, shown s "last_modified_date" = Some (TChar, d) /\ (List.length date <= List.length d)%nat) ->
     (exists d, shown s "last_modified_time" = Some (TChar, d) /\ (List.length time <= List.length d)%nat) -> r = Ok tt).
Proof.
  intros H. unfold update_global_attribute_last_modified.
  destruct (stamp_one s l k "last_modified_date" TChar date H (or_introl eq_refl) (char_ok date)) as (s1 & r1 & l1 & E1 & H1 & R1 & F1 & O1 & Sh1).
  destruct O1 as [-> | ->].
  2:{ rewrite (bind_err _ _ _ _ _ E1). exists s1, (Err FileIOError), l1. split; [reflexivity|]. split; [exact H1|]. split; [exact R1|]. split; [exact F1|]. split; [auto|].
      intros Hk (d & Hd & Le) _. destruct (update_fits s l k _ _ _ _ H Hk Hd Le) as (s' & X). congruence. }
  rewrite (bind_ok _ _ _ _ _ E1).
  destruct (stamp_one s1 l1 k "last_modified_time" TChar time H1 (or_intror (or_introl eq_refl)) (char_ok time)) as (s2 & r2 & l2 & E2 & H2 & R2 & F2 & O2 & _).
  exists s2, r2, l2. split; [exact E2|]. split; [exact H2|]. split; [exact (restamped_trans _ _ _ R1 R2)|]. split; [exact F2|]. split; [exact O2|].
  intros Hk _ (d & Hd & Le). destruct O2 as [-> | ->]; [reflexivity|]. exfalso.
  assert (Sht : shown s1 "last_modified_time" = Some (TChar, d)).
  { rewrite <- Hd. destruct (step_spec (UpdateAtt "last_modified_date" "last_modified_date" TChar date) s l k H (char_ok date) (or_introl eq_refl)) as (s'' & r'' & l'' & k'' & E'' & _ & _ & Sh).
    cbn [step] in E''. rewrite E1 in E''. injection E'' as <- <-. rewrite Sh. reflexivity. }
  destruct (update_fits s1 l1 k "last_modified_time" TChar time d H1) as (s' & X); [|exact Sht|exact Le|congruence].
  destruct R1 as (N & _). unfold names in N. rewrite Hk, <- (map_length m_name (s_atts (s_o s1))), N, map_length. reflexivity.
Qed.

Lemma restamped_flag s f l d : s_lib s = Some l -> restamped s (with_flag s f l d).
Proof. intros H. unfold restamped, same_vars, with_flag. pj. rewrite H. repeat split. Qed.

Definition stamps_fit (s : st) (date time : bytes) : Prop :=
  (exists d, shown s "last_modified_date" = Some (TChar, d) /\ (List.length date <= List.length d)%nat) /\
  (exists d, shown s "last_modified_time" = Some (TChar, d) /\ (List.length time <= List.length d)%nat).
Lemma lm_spec s l k date time : I s l k ->
  exists s' r l', update_global_attribute_last_modified_save_call date time s = (s', r) /\ I s' l' k /\ restamped s s' /\ (r = Ok tt \/ r = Err FileIOError) /\
    (k = List.length (s_atts (s_o s)) -> stamps_fit s date time -> r = Ok tt) /\ (s_changed (s_o s) = false -> r = Ok tt /\ s' = s).
Proof.
  intros H. unfold update_global_attribute_last_modified_save_call. rewrite bind_obj.
  assert (Mr : match s_mode (s_o s) with ORead => true | _ => false end = false) by (assert (X := I_mode _ _ _ H); destruct (s_mode (s_o s)); congruence).
  rewrite Mr. cbn [orb]. destruct (s_changed (s_o s)) eqn:C; cbn [negb].
  2:{ exists s, (Ok tt), l. split; [reflexivity|]. split; [exact H|]. split; [|auto]. unfold restamped. pose proof (same_vars_refl s). repeat (split; auto). }
  assert (HL := I_lib _ _ _ H). destruct (s_flag (s_o s)) eqn:F; [exfalso; exact (I_flag _ _ _ H F)|..].
  - set (s1 := with_flag s MData l false).
    assert (H1 : I s1 (mk_lib (l_rw l) false (l_c l)) k) by (apply I_with_flag; auto; discriminate).
    assert (R1 : restamped s s1) by (apply restamped_flag; exact HL).
    destruct (stamp_both s1 _ k date time H1) as (s2 & r2 & l2 & E2 & H2 & R2 & F2 & O2 & Fit).
    assert (Fit' : k = List.length (s_atts (s_o s)) -> stamps_fit s date time -> r2 = Ok tt) by (intros Hk [Fa Fb]; exact (Fit Hk Fa Fb)).
    assert (E : forall {B} (kk : bool -> M B), (do e <- call lib_enddef; do w <- match e with None => ret true | Some ENotInDefine => ret false | Some _ => throw end; run set_flag MData; kk w) s
                = kk (l_def l) s1).
    { intros B kk. unfold mbind, call. rewrite HL. unfold lib_enddef, s1, with_flag. destruct l as [rw d c]. pj. destruct d; cbn; [reflexivity|]. unfold set_flag, upd_obj. pj. rewrite HL. reflexivity. }
    rewrite (E unit (fun w => run update_global_attribute_last_modified date time; if (w : bool) then run check lib_redef; set_flag MDefine else ret tt)).
    destruct O2 as [-> | ->].
    + rewrite (bind_ok _ _ _ _ _ E2). destruct (l_def l).
      * rewrite (enter_define s2 l2 k H2 F2). eexists _, (Ok tt), _. split; [reflexivity|]. split; [apply I_with_flag; auto; discriminate|].
        split; [eapply restamped_trans; [exact R1|]; eapply restamped_trans; [exact R2|]; apply restamped_flag; exact (I_lib _ _ _ H2)|]. split; [auto|]. split; [auto|discriminate].
      * exists s2, (Ok tt), l2. split; [reflexivity|]. split; [exact H2|]. split; [exact (restamped_trans _ _ _ R1 R2)|]. split; [auto|]. split; [auto|discriminate].
    + rewrite (bind_err _ _ _ _ _ E2). exists s2, (Err FileIOError), l2. split; [reflexivity|]. split; [exact H2|]. split; [exact (restamped_trans _ _ _ R1 R2)|]. split; [auto|]. split; [auto|discriminate].
  - assert (E : forall {B} (kk : M B), (do e <- call lib_enddef; run match e with None | Some ENotInDefine => ret tt | Some _ => throw end; kk) s = kk s).
    { intros B kk. unfold mbind, call. rewrite HL. unfold lib_enddef. rewrite (I_data _ _ _ H F). reflexivity. }
    rewrite E. destruct (stamp_both s l k date time H) as (s2 & r2 & l2 & E2 & H2 & R2 & F2 & O2 & Fit). exists s2, r2, l2. split; [exact E2|]. split; [exact H2|]. split; [exact R2|]. split; [exact O2|].
    split; [|discriminate]. intros Hk [Fa Fb]. exact (Fit Hk Fa Fb).
Qed.

(** Closing: what is on disk. *)
Lemma defined_all s s' l k : I s' l k -> s_mode (s_o s) = s_mode (s_o s') -> (writes (s_mode (s_o s)) = true -> s_gdef (s_o s') = true) -> k = List.length (s_atts (s_o s')).
Proof.
  intros H Mo G. destruct (s_mode (s_o s')) eqn:M'.
  - exfalso. exact (I_mode _ _ _ H M').
  - apply (I_def _ _ _ H). apply G. rewrite Mo. reflexivity.
  - apply (I_def _ _ _ H). apply G. rewrite Mo. reflexivity.
  - apply (I_app _ _ _ H M').
Qed.
Lemma names_view s s' : map to_att (s_atts (s_o s)) = map to_att (s_atts (s_o s')) -> names s = names s'.
Proof. intros E. unfold names. rewrite <- !map_a_name. now rewrite E. Qed.
Lemma shown_view s s' : map to_att (s_atts (s_o s)) = map to_att (s_atts (s_o s')) -> forall n, shown s n = shown s' n.
Proof. intros E n. rewrite !shown_seen. now rewrite E. Qed.

Lemma close_spec s l k date time : I s l k ->
  exists s' r, close date time s = (s', r) /\ (r = Ok tt \/ r = Err FileIOError) /\
    (r = Ok tt -> exists s2 l2, I s2 l2 (List.length (s_atts (s_o s2))) /\ names s2 = names s /\ (forall n, ~ In n stamps -> shown s2 n = shown s n) /\ same_vars s s2 /\
       s_lib s' = None /\ s_disk s' = Some (l_c l2)) /\
    (all_legal s \/ writes (s_mode (s_o s)) = false -> s_changed (s_o s) = false \/ stamps_fit s date time -> r = Ok tt).
Proof.
  intros H. unfold close. destruct (save_call s l k H) as (s1 & r1 & E1 & SV1 & [V1 Mo1] & C1 & l1 & k1 & H1 & R).
  destruct R as [(-> & G & _)|(-> & W & m & Hm & Lm)].
  2:{ rewrite (bind_err _ _ _ _ _ E1). exists s1, (Err FileIOError). split; [reflexivity|]. split; [auto|]. split; [discriminate|].
      intros [A|A]; [|congruence]. exfalso. exact (legal_not s m A Hm Lm). }
  rewrite (bind_ok _ _ _ _ _ E1). assert (Hk := defined_all s s1 l1 k1 H1 Mo1 G).
  destruct (lm_spec s1 l1 k1 date time H1) as (s2 & r2 & l2 & E2 & H2 & (N2 & Sh2 & Mo2 & G2 & SV2) & O2 & Fit & Unch).
  assert (Hk2 : k1 = List.length (s_atts (s_o s2))) by (unfold names in N2; rewrite Hk, <- (map_length m_name (s_atts (s_o s2))), N2, map_length; reflexivity).
  destruct O2 as [-> | ->].
  - rewrite (bind_ok _ _ _ _ _ E2). unfold mbind, lib_close. rewrite (I_lib _ _ _ H2), (I_rw _ _ _ H2). eexists _, (Ok tt). split; [reflexivity|]. split; [auto|]. split; [|auto].
    intros _. exists s2, l2. rewrite <- Hk2. split; [exact H2|]. split; [rewrite N2; symmetry; apply names_view; exact V1|].
    split; [intros n Hn; rewrite Sh2 by exact Hn; symmetry; apply shown_view; exact V1|]. split; [exact (same_vars_trans _ _ _ SV1 SV2)|]. split; reflexivity.
  - rewrite (bind_err _ _ _ _ _ E2). exists s2, (Err FileIOError). split; [reflexivity|]. split; [auto|]. split; [discriminate|].
    intros _ [U|[(d & Hd & Ld) (d' & Hd' & Ld')]].
    + destruct (Unch ltac:(congruence)) as (X & _). discriminate.
    + assert (X : Err FileIOError = Ok tt); [|discriminate]. apply (Fit Hk). split; [exists d|exists d']; rewrite <- (shown_view s s1 V1); auto.
Qed.

(** The file that a closed object leaves is readable. *)
Lemma I_readable s l : I s l (List.length (s_atts (s_o s))) -> readable (l_c l) /\ c_gatts (l_c l) = map to_att (s_atts (s_o s)).
Proof.
  intros H. assert (F := I_file _ _ _ H). rewrite firstn_all in F. split; [|exact F]. split; rewrite F.
  - rewrite map_a_name. exact (I_names _ _ _ H).
  - rewrite Forall_map. assert (Lg := I_legal _ _ _ H). rewrite firstn_all in Lg. assert (V := I_val _ _ _ H). rewrite Forall_forall in *. intros m Hm. split; [exact (Lg m Hm)|exact (V m Hm)].
Qed.

(** Opening a readable file. *)
Lemma legal_short n : legal_name n = true -> (String.length n <= 256)%nat.
Proof. unfold legal_name. destruct n; [discriminate|]. intros H. apply andb_true_iff in H. destruct H as [_ H]. apply Nat.leb_le. exact H. Qed.
Definition found (a : att) : matt := mk_matt (a_name a) (a_type a) (List.length (a_val a) / tsize (a_type a)) [] false false.
Definition loaded (a : att) : matt := mk_matt (a_name a) (a_type a) (List.length (a_val a) / tsize (a_type a)) (a_val a) true true.
Lemma register_names_ok l acc : NoDup (map m_name acc ++ map a_name l) ->
  Forall (fun a => legal_name (a_name a) = true /\ value_ok (a_type a) (a_val a)) l -> register_names 257 acc l = Ok (acc ++ map found l).
Proof.
  revert acc. induction l as [|a l IH]; intros acc N F; cbn [register_names map]; [now rewrite app_nil_r|]. inversion F as [|? ? [La Va] F']; subst.
  destruct (Nat.leb_spec 257 (String.length (a_name a))); [apply legal_short in La; lia|]. unfold register_matt.
  assert (Ha : has_att (a_name a) acc = false).
  { destruct (has_att (a_name a) acc) eqn:X; [|reflexivity]. exfalso. apply has_att_in in X. cbn [map] in N. apply NoDup_remove_2 in N. apply N. apply in_or_app. auto. }
  rewrite Ha. assert (Kn : known (a_type a) = true) by (destruct Va as [Va _]; destruct (a_type a); cbn in *; congruence). rewrite Kn.
  rewrite IH; [|rewrite map_app; cbn [map m_name]; rewrite <- app_assoc; exact N|exact F']. rewrite <- app_assoc. reflexivity.
Qed.
Lemma read_value_found file i a : NoDup (map a_name file) -> nth_error file i = Some a -> value_ok (a_type a) (a_val a) -> read_value file (found a) = Ok (loaded a).
Proof.
  intros N E [Sp (n & Hn)]. unfold read_value, found. cbn [m_type m_name m_n m_init]. rewrite Sp. cbn [negb]. rewrite (find_att_nth _ i a N E).
  assert (T : (tsize (a_type a) <> 0)%nat) by (destruct (a_type a); cbn; lia).
  assert (D : (List.length (a_val a) / tsize (a_type a) * tsize (a_type a) = List.length (a_val a))%nat) by (rewrite Hn, Nat.div_mul by exact T; reflexivity).
  rewrite D, Nat.ltb_irrefl, Nat.sub_diag. cbn [repeat]. rewrite app_nil_r, firstn_all. reflexivity.
Qed.
Lemma mapr_found file l : NoDup (map a_name file) -> (forall a, In a l -> In a file /\ value_ok (a_type a) (a_val a)) ->
  mapr (read_value file) (map found l) = Ok (map loaded l).
Proof.
  intros N. induction l as [|a l IH]; intros H; cbn [map mapr]; [reflexivity|]. destruct (H a (or_introl eq_refl)) as [Hi Hv].
  apply In_nth_error in Hi. destruct Hi as (i & Ei). rewrite (read_value_found file i a N Ei Hv). cbn [bind]. rewrite IH; [reflexivity|]. intros b Hb. apply H. right. exact Hb.
Qed.
Lemma open_readable m c info hash descr dirty date time : m = ORead \/ m = OAppend -> readable c ->
  open m info hash descr dirty date time (Some c) =
  (Ok (mk_st (mk_session m MDefine false false (map loaded (firstn 30 (c_gatts c))) [])
             (Some (mk_lib (match m with OAppend => true | _ => false end) false c)) (Some c)), Some c).
Proof.
  intros Hm [N F].
  assert (E1 : register_names 257 [] (firstn 30 (c_gatts c)) = Ok (map found (firstn 30 (c_gatts c)))).
  { apply (register_names_ok _ []); [cbn [map app]; rewrite <- firstn_map; apply NoDup_firstn; exact N|apply Forall_firstn; exact F]. }
  assert (E2 : mapr (read_value (c_gatts c)) (map found (firstn 30 (c_gatts c))) = Ok (map loaded (firstn 30 (c_gatts c)))).
  { apply mapr_found; [exact N|]. intros a Ha. apply In_firstn in Ha. split; [exact Ha|]. rewrite Forall_forall in F. exact (proj2 (F a Ha)). }
  destruct Hm as [-> | ->]; unfold open; rewrite E1; cbn [bind]; rewrite E2; reflexivity.
Qed.
Lemma to_att_loaded l : map to_att (map loaded l) = l.
Proof. rewrite map_map. erewrite map_ext; [apply map_id|]. intros [n t v]. reflexivity. Qed.
Lemma names_loaded l : map m_name (map loaded l) = map a_name l.
Proof. rewrite map_map. reflexivity. Qed.

(** New objects satisfy the invariant. *)
Lemma opened_new m disk s : writes m = true -> opened m disk s -> exists l, I s l 0 /\ s_mode (s_o s) = m /\ all_legal s.
Proof.
  intros W (info & hash & descr & dirty & date & time & d & Hc & E). unfold open in E. unfold all_legal, read_global_attribute_names.
  destruct m; cbn in W; try discriminate; [destruct disk; [discriminate|]|];
    (injection E as <- _; exists (mk_lib true true nothing); split; [|split; [reflexivity|pj; repeat constructor]];
     constructor; pj; auto; try discriminate; try reflexivity;
     [intros i m; destruct i as [|[|[|[|[|[|[|[|[|i]]]]]]]]]; cbn; intros X; injection X as <- || discriminate; reflexivity
     |cbn; lia
     |cbn; repeat (constructor; [cbn; intuition discriminate|]); constructor
     |repeat (constructor; [apply char_ok|]); constructor
     |constructor]).
Qed.
Lemma opened_append c s : readable c -> (List.length (c_gatts c) <= 30)%nat -> opened OAppend (Some c) s ->
  exists l, I s l (List.length (c_gatts c)) /\ s_mode (s_o s) = OAppend /\ map to_att (s_atts (s_o s)) = c_gatts c /\ all_legal s /\ l_c l = c /\ l_def l = false.
Proof.
  intros R L (info & hash & descr & dirty & date & time & d & Hc & E). rewrite (open_readable OAppend c), firstn_all2 in E by auto. injection E as <- _.
  exists (mk_lib true false c). destruct R as [N F].
  split; [|split; [reflexivity|split; [apply to_att_loaded|split; [|split; reflexivity]]]].
  2:{ unfold all_legal, read_global_attribute_names. pj. rewrite names_loaded. rewrite Forall_map. eapply Forall_impl; [|exact F]. intros a [X _]. exact X. }
  constructor; pj; auto; try discriminate.
  - rewrite firstn_all2 by (rewrite map_length; lia). symmetry. apply to_att_loaded.
  - intros i m. rewrite nth_error_map. destruct (nth_error (c_gatts c) i) eqn:X; [|discriminate]. intros Y. injection Y as <-. cbn [m_written loaded].
    symmetry. apply Nat.ltb_lt. apply nth_error_Some. congruence.
  - rewrite map_length. lia.
  - rewrite map_length. reflexivity.
  - rewrite names_loaded. exact N.
  - rewrite Forall_map. eapply Forall_impl; [|exact F]. intros a [_ X]. exact X.
  - rewrite firstn_all2 by (rewrite map_length; lia). rewrite Forall_map. eapply Forall_impl; [|exact F]. intros a [X _]. exact X.
Qed.
