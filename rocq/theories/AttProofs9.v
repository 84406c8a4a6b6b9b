(** Proofs about attributes and modes of files: operations that succeed. *)
From Coq Require Import String.
From Verif Require Import Base AttModel AttSpec LayoutProofs AttProofs AttProofs2 AttProofs3 AttProofs4 AttProofs5 AttProofs6 AttProofs7 AttProofs8.
Local Open Scope string_scope.
Local Open Scope Z_scope.
Local Open Scope list_scope.

Definition ids_set (s : st) : Prop := forall w, In w (s_vars (s_o s)) -> w_id w <> None.
(** Ready to write values. *)
Record J (s : st) (l : lib) (k : nat) : Prop := mk_J {
  J_I : I s l k; J_legal : all_legal s; J_set : ids_set s; J_ok : ids_ok s; J_def : l_def l = false }.

Lemma put_all_ok f x ns : forall s l, s_lib s = Some l -> l_rw l = true -> l_def l = false -> ids_set s -> ids_ok s -> incl ns (map w_name (s_vars (s_o s))) ->
  exists s', each (put_one f x) ns s = (s', Ok tt).
Proof.
  induction ns as [|n ns IH]; intros s l L R D Hs Hi Hn; cbn [each]; [exists s; reflexivity|].
  unfold put_one at 1. rewrite bind_assoc. unfold get_variable. rewrite bind_assoc, bind_obj.
  destruct (find (fun w => String.eqb (w_name w) n) (s_vars (s_o s))) as [w|] eqn:Fw.
  2:{ exfalso. assert (X := Hn n (or_introl eq_refl)). apply in_map_iff in X. destruct X as (w & Nw & Hw). assert (Y := List.find_none _ _ Fw w Hw). cbn in Y. rewrite Nw, String.eqb_refl in Y. discriminate. }
  rewrite (bind_ok _ _ s s w) by reflexivity. apply find_some in Fw. destruct Fw as [Hw Nw]. destruct (w_id w) as [i|] eqn:Wi; [|exfalso; exact (Hs w Hw Wi)].
  assert (P : lib_put_var (Some i) f x l = inr (with_data l [(i, f, x)])).
  { unfold lib_put_var, with_data. rewrite R, D. cbn [negb]. assert (X := Hi l w i L Hw Wi). unfold vnames in X. assert (Y : (i < List.length (c_vars (l_c l)))%nat) by (rewrite <- (map_length v_name); apply nth_error_Some; congruence).
    apply Nat.ltb_lt in Y. rewrite Y. reflexivity. }
  rewrite (bind_ok _ _ _ _ _ (check_inr _ _ _ _ L P)). eapply IH; [reflexivity|exact R|exact D|exact Hs| |intros m Hm; apply Hn; right; exact Hm].
  intros l0 w0 j El Hw0 Hj. cbn [s_lib s_o] in *. injection El as <-. exact (Hi l w0 j L Hw0 Hj).
Qed.

(** [define_global_attributes_save_call] leaves an object ready. *)
Lemma save_ready s l k : J s l k -> exists s1 l1 k1, define_global_attributes_save_call s = (s1, Ok tt) /\ J s1 l1 k1 /\ s_vars (s_o s1) = s_vars (s_o s) /\ s_mode (s_o s1) = s_mode (s_o s) /\ names s1 = names s.
Proof.
  intros [H Lg St Ok_ D]. destruct (s_flag (s_o s)) eqn:F.
  - exfalso. exact (I_flag _ _ _ H F).
  - destruct (writes (s_mode (s_o s))) eqn:W; [assert (X := I_defm _ _ _ H W F); congruence|].
    exists s, l, k. split; [unfold define_global_attributes_save_call; rewrite bind_obj, W; reflexivity|]. split; [constructor; assumption|auto].
  - destruct (save_call s l k H) as (s1 & r1 & E1 & (SV1 & SV2 & SV3) & [V1 Mo1] & C1 & l1 & k1 & H1 & R).
    destruct R as [(-> & G & Fl)|(-> & W & m & Hm & Lm)]; [|exfalso; exact (legal_not s m Lg Hm Lm)].
    exists s1, l1, k1. split; [exact E1|]. assert (N1 : names s1 = names s) by (symmetry; apply names_view; exact V1). split; [|split; [congruence|split; [congruence|exact N1]]].
    constructor; [exact H1| | | |apply (I_data _ _ _ H1); congruence].
    + unfold all_legal in *. change (Forall (fun n => legal_name n = true) (names s1)). rewrite N1. exact Lg.
    + intros w. rewrite <- SV1. apply St.
    + assert (X := G_define (fun _ => true) false s eq_refl). rewrite E1 in X. destruct X as (_ & _ & _ & _ & X). exact (X Ok_).
Qed.
Lemma write_ok f x ns s l k : J s l k -> incl ns (map w_name (s_vars (s_o s))) -> exists s', write f x ns s = (s', Ok tt).
Proof.
  intros H Hn. unfold write. destruct (save_ready s l k H) as (s1 & l1 & k1 & E1 & [H1 Lg St Ok_ D] & V & _). rewrite (bind_ok _ _ _ _ _ E1).
  rewrite <- V in Hn. destruct (put_all_ok f x ns s1 l1 (I_lib _ _ _ H1) (I_rw _ _ _ H1) D St Ok_ Hn) as (s2 & E2). unfold put_one in E2. rewrite (bind_ok _ _ _ _ _ E2).
  destruct (changes_lib s2) as [_ C]. destruct (netcdf_file_changes s2) as [s3 r3]. cbn [snd] in C. subst r3. eauto.
Qed.

Lemma J_keeps s l k s' : J s l k -> keeps s s' -> s_vars (s_o s') = s_vars (s_o s) -> ids_ok s' -> exists l', J s' l' k.
Proof.
  intros [H Lg St Ok_ D] Kp V Oi. destruct (I_keeps s l k s' H Kp) as (l' & H'). exists l'. destruct Kp as (_ & _ & _ & _ & A & _ & SL). constructor; [exact H'| | |exact Oi|].
  - unfold all_legal, read_global_attribute_names in *. rewrite <- A. exact Lg.
  - intros w. rewrite V. apply St.
  - unfold same_lib in SL. rewrite (I_lib _ _ _ H), (I_lib _ _ _ H') in SL. destruct SL as (_ & X & _). congruence.
Qed.
Lemma changes_J s l k : J s l k -> J (fst (netcdf_file_changes s)) l k /\ s_vars (s_o (fst (netcdf_file_changes s))) = s_vars (s_o s).
Proof.
  intros [H Lg St Ok_ D]. unfold netcdf_file_changes. rewrite bind_obj. destruct (s_mode (s_o s)) eqn:Mo; (split; [|reflexivity]); [constructor; assumption|..];
  (constructor; [destruct H; constructor; cbn; rewrite ?Mo in *; auto|exact Lg|exact St|exact Ok_|exact D]).
Qed.
Lemma J_write f x ns s l k : J s l k -> exists l' k', J (fst (write f x ns s)) l' k' /\ s_vars (s_o (fst (write f x ns s))) = s_vars (s_o s).
Proof.
  intros H. unfold write. destruct (save_ready s l k H) as (s1 & l1 & k1 & E1 & H1 & V & Mo & _). rewrite (bind_ok _ _ _ _ _ E1).
  destruct (each (put_one f x) ns s1) as [s2 r2] eqn:E2. destruct (put_all f x ns s1 l1 s2 r2 (I_lib _ _ _ (J_I _ _ _ H1)) (J_ok _ _ _ H1) E2) as (e & A1 & A2 & A3 & _).
  assert (Kp : keeps s1 s2).
  { assert (X : K (each (put_one f x) ns)) by (apply K_each; intros n; apply K_bind; [apply K_get_variable|intros w; apply K_put_var]). specialize (X s1). rewrite E2 in X. exact X. }
  assert (Oi : ids_ok s2).
  { intros l0 w i El Hw Hi. rewrite A3 in El. injection El as <-. rewrite A1 in Hw. exact (J_ok _ _ _ H1 l1 w i (I_lib _ _ _ (J_I _ _ _ H1)) Hw Hi). }
  destruct (J_keeps s1 l1 k1 s2 H1 Kp ltac:(rewrite A1; reflexivity) Oi) as (l2 & H2). unfold put_one in E2. destruct r2 as [[]|er|].
  - rewrite (bind_ok _ _ _ _ _ E2). destruct (changes_J s2 l2 k1 H2) as [H3 V3]. exists l2, k1. split; [exact H3|]. rewrite V3, A1. exact V.
  - rewrite (bind_err _ _ _ _ _ E2). exists l2, k1. split; [exact H2|]. cbn [fst]. rewrite A1. exact V.
  - rewrite (bind_ub _ _ _ _ E2). exists l2, k1. split; [exact H2|]. cbn [fst]. rewrite A1. exact V.
Qed.
Lemma read_same ns s : s_o (fst (read ns s)) = s_o s /\ s_lib (fst (read ns s)) = s_lib s.
Proof.
  unfold read. revert s. induction ns as [|n ns IH]; intros s; cbn [each]; [auto|]. rewrite bind_assoc. unfold get_variable. rewrite bind_assoc, bind_obj. destruct (find _ _) as [w|]; [|auto].
  rewrite (bind_ok _ _ s s w) by reflexivity. destruct (s_lib s) as [l|] eqn:L.
  2:{ rewrite (bind_err _ _ s s FileIOError); [auto|]. unfold check, mbind, call. rewrite L. reflexivity. }
  destruct (lib_get_var (w_id w) l) as [e|l'] eqn:P; [rewrite (bind_err _ _ _ _ _ (check_inl _ _ _ _ L P)); auto|].
  assert (X : l' = l).
  { unfold lib_get_var in P. destruct (l_def l); [discriminate|]. destruct (w_id w); [|discriminate]. destruct (_ <? _)%nat; [|discriminate]. now injection P as <-. }
  subst l'. rewrite (bind_ok _ _ _ _ _ (check_inr _ _ _ _ L P)). assert (Y : mk_st (s_o s) (Some l) (s_disk s) = s) by (destruct s; cbn in *; congruence). rewrite Y. rewrite <- L. apply IH.
Qed.
(** Names stay legal. *)
Lemma step_legal o s l k s' r : I s l k -> op_ok o -> tidy s o -> legal_op o -> all_legal s -> step o s = (s', r) -> all_legal s'.
Proof.
  intros H V T Lo Lg E. unfold all_legal, read_global_attribute_names in *. destruct o as [vs|f x ns|ns|n t v|old new t v]; cbn [step] in E.
  - destruct (S_register vs s l k H) as (l' & _ & A & _). rewrite E in A. cbn [fst] in A. rewrite A. exact Lg.
  - destruct (write_I f x ns s l k H) as (l' & k' & _ & V1 & _). rewrite E in V1. cbn [fst] in V1. apply names_view in V1. unfold names in V1. rewrite <- V1. exact Lg.
  - destruct (read_same ns s) as [A _]. rewrite E in A. cbn [fst] in A. rewrite A. exact Lg.
  - destruct (wga_spec n t v s l k H V) as (s1 & r1 & E1 & _ & _ & R). rewrite E in E1. injection E1 as <- <-. destruct R as [(_ & A)|(_ & _ & A)]; rewrite A; [exact Lg|].
    rewrite map_app. apply Forall_app. split; [exact Lg|]. constructor; [exact Lo|constructor].
  - assert (T' : new = old \/ legal_name new = true /\ ~ In new (map m_name (s_atts (s_o s)))) by exact T.
    destruct (update_spec s l k old new t v H V T') as (s1 & r1 & l1 & E1 & _ & _ & _ & _ & _ & R). rewrite E in E1. injection E1 as <- <-.
    destruct R as [(_ & A & _)|(_ & _ & i & m & m' & Em & Nm & Am & A)]; rewrite A; [exact Lg|]. rewrite map_upd. apply Forall_upd; [exact Lg|].
    assert (Y : m_name m' = new) by (apply (f_equal a_name) in Am; exact Am). rewrite Y. destruct T as [-> |[T _]]; [|exact T]. rewrite Forall_forall in Lg. apply Lg. rewrite <- Nm. apply in_map. exact (nth_error_In _ _ Em).
Qed.
Lemma J_step o s l k s' r : J s l k -> op_ok o -> tidy s o -> legal_op o -> no_register o -> step o s = (s', r) ->
  exists l' k', J s' l' k' /\ s_vars (s_o s') = s_vars (s_o s) /\ s_mode (s_o s') = s_mode (s_o s).
Proof.
  intros H V T Lo Nr E. assert (Lg := step_legal o s l k s' r (J_I _ _ _ H) V T Lo (J_legal _ _ _ H) E).
  assert (Gr := step_grows o s s' r E). destruct Gr as (_ & Mo & _ & _ & Oi). specialize (Oi (J_ok _ _ _ H)).
  destruct o as [vs|f x ns|ns|n t v|old new t v]; cbn [step no_register] in *; [contradiction|..].
  - destruct (J_write f x ns s l k H) as (l' & k' & H' & V'). rewrite E in H', V'. cbn [fst] in *. exists l', k'. auto.
  - destruct (read_same ns s) as [A B]. rewrite E in A, B. cbn [fst] in *. exists l, k. split; [|rewrite A; auto].
    destruct H as [H Lg0 St Ok_ D]. constructor; [|exact Lg| |exact Oi|exact D]; [|intros w; rewrite A; apply St]. destruct H. constructor; rewrite ?A, ?B; auto.
  - destruct (wga_spec n t v s l k (J_I _ _ _ H) V) as (s1 & r1 & E1 & H1 & _ & R). rewrite E in E1. injection E1 as <- <-.
    assert (Vs : s_vars (s_o s') = s_vars (s_o s)).
    { unfold write_global_attribute, add_attribute in E. rewrite bind_obj in E. destruct (s_gdef (s_o s)); [injection E as <- <-; reflexivity|]. destruct (negb _); [injection E as <- <-; reflexivity|].
      rewrite bind_obj in E. destruct (has_att _ _); injection E as <- <-; reflexivity. }
    exists l, k. split; [|auto]. constructor; [exact H1|exact Lg|intros w; rewrite Vs; apply (J_set _ _ _ H)|exact Oi|exact (J_def _ _ _ H)].
  - assert (T' : new = old \/ legal_name new = true /\ ~ In new (map m_name (s_atts (s_o s)))) by exact T.
    destruct (update_spec s l k old new t v (J_I _ _ _ H) V T') as (s1 & r1 & l1 & E1 & H1 & (SV & _) & _ & _ & F & _). rewrite E in E1. injection E1 as <- <-.
    exists l1, k. split; [|auto]. constructor; [exact H1|exact Lg|intros w; rewrite <- SV; apply (J_set _ _ _ H)|exact Oi|exact (I_data _ _ _ H1 F)].
Qed.
Lemma J_runs s h s' : tidy_runs s h s' -> Forall (fun p => legal_op (fst p) /\ no_register (fst p)) h -> forall l k, J s l k ->
  exists l' k', J s' l' k' /\ s_vars (s_o s') = s_vars (s_o s).
Proof.
  induction 1 as [s|s o s1 r h s2 Ho Ht E Hr IH]; intros F l k H; [exists l, k; auto|]. inversion F as [|? ? [F1 F2] F']; subst. cbn [fst] in *.
  destruct (J_step o s l k s1 r H Ho Ht F1 F2 E) as (l1 & k1 & H1 & V1 & _). destruct (IH F' l1 k1 H1) as (l2 & k2 & H2 & V2). exists l2, k2. split; [exact H2|congruence].
Qed.
Lemma legal_runs s h s' : tidy_runs s h s' -> Forall (fun p => legal_op (fst p)) h -> forall l k, I s l k -> all_legal s ->
  exists l' k', I s' l' k' /\ all_legal s' /\ s_mode (s_o s') = s_mode (s_o s).
Proof.
  induction 1 as [s|s o s1 r h s2 Ho Ht E Hr IH]; intros F l k H Lg; [exists l, k; auto|]. inversion F as [|? ? F1 F']; subst. cbn [fst] in *.
  destruct (step_spec o s l k H Ho Ht) as (s1' & r' & l1 & k1 & E' & H1 & M1 & _). rewrite E in E'. injection E' as <- <-.
  destruct (IH F' l1 k1 H1 (step_legal o s l k s1 r H Ho Ht F1 Lg E)) as (l2 & k2 & H2 & Lg2 & M2). exists l2, k2. split; [exact H2|]. split; [exact Lg2|congruence].
Qed.
