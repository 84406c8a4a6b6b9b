(** Theorems about attributes, open modes and the two modes of NetCDF files
    (properties C106 to C114), each with a concrete case beside it. *)
From Coq Require Import String.
From Verif Require Import Base AttModel AttSpec LayoutProofs AttProofs AttProofs2 AttProofs3 AttProofs4 AttProofs5 AttProofs6 AttProofs7 AttProofs8 AttProofs9 AttProofs10 AttProofs11 AttProofs12 AttProofs13 NameSpec AttProofs14.
Local Open Scope string_scope.
Local Open Scope Z_scope.
Local Open Scope list_scope.

(** *** Concrete sessions for the examples *)
Definition date0 : bytes := repeat 48 18.
Definition time0 : bytes := repeat 48 16.
Definition start (m : omode) (disk : option content) : st :=
  match fst (open m [] [] [] [] date0 time0 disk) with Ok s => s | _ => mk_st (mk_session m MUndefined false false [] []) None None end.
Fixpoint perform (s : st) (os : list op) : list (op * res unit) * st :=
  match os with
  | [] => ([], s)
  | o :: r => let (h, s') := perform (fst (step o s)) r in ((o, snd (step o s)) :: h, s')
  end.
Lemma perform_runs os : forall s, runs s (fst (perform s os)) (snd (perform s os)).
Proof.
  induction os as [|o os IH]; intros s; cbn [perform]; [constructor|]. specialize (IH (fst (step o s))). destruct (perform (fst (step o s)) os) as [h s']. cbn [fst snd] in *.
  econstructor; [|exact IH]. destruct (step o s); reflexivity.
Qed.
Definition plain (o : op) : Prop := op_ok o /\ match o with UpdateAtt old new _ _ => new = old | _ => True end.
Lemma perform_tidy os : Forall plain os -> forall s, tidy_runs s (fst (perform s os)) (snd (perform s os)).
Proof.
  induction 1 as [|o os [P1 P2] _ IH]; intros s; cbn [perform]; [constructor|]. specialize (IH (fst (step o s))). destruct (perform (fst (step o s)) os) as [h s']. cbn [fst snd] in *.
  econstructor; [exact P1| | |exact IH]; [destruct o; cbn; auto|destruct (step o s); reflexivity].
Qed.
Lemma start_opened m disk : match fst (open m [] [] [] [] date0 time0 disk) with Ok _ => True | _ => False end -> opened m disk (start m disk).
Proof.
  unfold start, opened. intros H. destruct (open m [] [] [] [] date0 time0 disk) as [[s|e|] d] eqn:E; cbn [fst] in *; try contradiction.
  exists [], [], [], [], date0, time0, d. split; [split; reflexivity|exact E].
Qed.
(** Sets an attribute, registers a field, writes it, updates the attribute, tries
    to write an unknown field. *)
Definition work : list op :=
  [WriteAtt "note" TInt [1; 0; 0; 0]; Register [("T", [75])]; Write 0 5 ["T"]; UpdateAtt "note" "note" TInt [2; 0; 0; 0]; Write 1 7 ["T"]; Write 0 9 ["U"]].
Lemma work_plain : Forall plain work.
Proof. repeat constructor; try (exists 1%nat; reflexivity). Qed.
Definition closed (s : st) : option content := s_disk (fst (close date0 time0 s)).
Definition file1 : content := match closed (snd (perform (start OWrite None) work)) with Some c => c | None => nothing end.

(** ** C106 *)
Theorem C106_new_file m disk s0 h s1 date time s2 : writes m = true -> opened m disk s0 -> tidy_runs s0 h s1 -> close date time s1 = (s2, Ok tt) ->
  (List.length (read_global_attribute_names s1) <= 30)%nat ->
  exists c, s_disk s2 = Some c /\ readable c /\ forall i a d b e t, exists s3, open ORead i a d b e t (Some c) = (Ok s3, Some c) /\
    read_global_attribute_names s3 = read_global_attribute_names s1 /\ forall n, ~ In n stamps -> shown s3 n = after h (shown s0) n.
Proof. intros W O. destruct (opened_new m disk s0 W O) as (l & H & _). exact (session_atts s0 l 0 h s1 date time s2 H). Qed.
Print Assumptions C106_new_file.
Example C106_case : let s0 := start OWrite None in let h := fst (perform s0 work) in let s1 := snd (perform s0 work) in
  opened OWrite None s0 /\ tidy_runs s0 h s1 /\ snd (close date0 time0 s1) = Ok tt /\ map snd h = [Ok tt; Ok tt; Ok tt; Ok tt; Ok tt; Err FileIOError] /\
  List.length (read_global_attribute_names s1) = 9%nat /\ after h (shown s0) "note" = Some (TInt, [2; 0; 0; 0]) /\
  match fst (open ORead [] [] [] [] date0 time0 (closed s1)) with Ok s3 => shown s3 "note" | _ => None end = Some (TInt, [2; 0; 0; 0]).
Proof. cbn zeta. split; [apply start_opened; exact Logic.I|]. split; [apply perform_tidy, work_plain|]. vm_compute. auto 10. Qed.
Theorem C106_appended c0 s0 h s1 date time s2 : readable c0 -> (List.length (c_gatts c0) <= 30)%nat -> opened OAppend (Some c0) s0 -> tidy_runs s0 h s1 -> close date time s1 = (s2, Ok tt) ->
  (List.length (read_global_attribute_names s1) <= 30)%nat ->
  exists c, s_disk s2 = Some c /\ readable c /\ forall i a d b e t, exists s3, open ORead i a d b e t (Some c) = (Ok s3, Some c) /\
    read_global_attribute_names s3 = read_global_attribute_names s1 /\ forall n, ~ In n stamps -> shown s3 n = after h (stored_atts c0) n.
Proof.
  intros R L O T C Le. destruct (opened_append c0 s0 R L O) as (l & H & _ & A & _). destruct (session_atts s0 l _ h s1 date time s2 H T C Le) as (c & D & Rd & X).
  exists c. split; [exact D|]. split; [exact Rd|]. intros i a d b e t. destruct (X i a d b e t) as (s3 & E & N & Sh). exists s3. split; [exact E|]. split; [exact N|].
  intros n Hn. rewrite (Sh n Hn). apply after_ext. intros k. rewrite shown_seen, A. reflexivity.
Qed.
Print Assumptions C106_appended.
Definition more : list op := [Register [("T", [75])]; Write 0 8 ["T"]; UpdateAtt "note" "note" TInt [3; 0; 0; 0]].
Lemma more_plain : Forall plain more.
Proof. repeat constructor; try (exists 1%nat; reflexivity). Qed.
Lemma file1_readable : readable file1.
Proof.
  split; [vm_compute; repeat (constructor; [cbn; intuition discriminate|]); constructor|].
  assert (E : c_gatts file1 = [mk_att "creation_date" TChar date0; mk_att "creation_time" TChar time0; mk_att "last_modified_date" TChar date0; mk_att "last_modified_time" TChar time0;
    mk_att "muGrid_version_info" TChar []; mk_att "muGrid_git_hash" TChar []; mk_att "muGrid_description" TChar []; mk_att "muGrid_git_branch_is_dirty" TChar []; mk_att "note" TInt [2; 0; 0; 0]]) by (vm_compute; reflexivity).
  rewrite E. repeat (constructor; [split; [reflexivity|cbn [a_type a_val]; first [apply char_ok|split; [reflexivity|exists 1%nat; reflexivity]]]|]). constructor.
Qed.
Example C106_append_case : let s0 := start OAppend (Some file1) in let h := fst (perform s0 more) in let s1 := snd (perform s0 more) in
  readable file1 /\ opened OAppend (Some file1) s0 /\ tidy_runs s0 h s1 /\ snd (close date0 time0 s1) = Ok tt /\ map snd h = [Ok tt; Ok tt; Ok tt] /\
  stored_atts file1 "note" = Some (TInt, [2; 0; 0; 0]) /\ after h (stored_atts file1) "note" = Some (TInt, [3; 0; 0; 0]).
Proof. cbn zeta. split; [exact file1_readable|]. split; [apply start_opened; vm_compute; exact Logic.I|]. split; [apply perform_tidy, more_plain|]. vm_compute. auto 10. Qed.

(** Closing sets the time stamps of a file that was changed. *)
Theorem C106_stamps m disk s0 h s1 date time s2 : (writes m = true \/ m = OAppend /\ exists c, disk = Some c /\ readable c /\ (List.length (c_gatts c) <= 30)%nat) -> opened m disk s0 -> tidy_runs s0 h s1 ->
  close date time s1 = (s2, Ok tt) -> (List.length (read_global_attribute_names s1) <= 30)%nat -> Exists (fun p => alters m (fst p) /\ snd p = Ok tt) h ->
  exists c, s_disk s2 = Some c /\ stored_atts c "last_modified_date" = Some (TChar, date) /\ stored_atts c "last_modified_time" = Some (TChar, time).
Proof.
  intros Hm O R C L Ex. assert (X : exists l k, I s0 l k /\ s_mode (s_o s0) = m).
  { destruct Hm as [W|(-> & c & -> & Rd & L0)]; [destruct (opened_new m disk s0 W O) as (l & H & Mo & _); eauto|destruct (opened_append c s0 Rd L0 O) as (l & H & Mo & _); eauto]. }
  destruct X as (l & k & H & Mo). rewrite <- Mo in Ex. exact (session_stamps s0 l k h s1 date time s2 H R C L Ex).
Qed.
Print Assumptions C106_stamps.
Example C106_stamps_case : let h := fst (perform (start OAppend (Some file1)) more) in let s1 := snd (perform (start OAppend (Some file1)) more) in
  Exists (fun p => alters OAppend (fst p) /\ snd p = Ok tt) h /\
  match s_disk (fst (close (repeat 49 18) (repeat 50 16) s1)) with Some c => (stored_atts c "last_modified_date", stored_atts c "last_modified_time") | None => (None, None) end
  = (Some (TChar, repeat 49 18), Some (TChar, repeat 50 16)) /\ stored_atts file1 "last_modified_date" = Some (TChar, repeat 48 18).
Proof. cbn zeta. split; [vm_compute; right; left; auto|]. vm_compute. auto. Qed.

(** ** C107 *)
Theorem C107_new_file m disk s0 h s1 date time s2 n f : writes m = true -> opened m disk s0 -> runs s0 h s1 -> undisturbed h n f -> close date time s1 = (s2, Ok tt) ->
  exists c, s_disk s2 = Some c /\ sound c /\ held c n f = latest h n f None.
Proof.
  intros W O R U C. destruct (opened_P m disk s0 W O) as (l & H & V0 & Lc & _ & L). assert (Sd : sound (l_c l)) by (rewrite Lc; split; constructor).
  destruct (session_values s0 l h s1 date time s2 n f L (I_rw _ _ _ (P_I _ _ _ H)) V0 Sd R U C) as (c & D & Sc & Hc). exists c. split; [exact D|]. split; [exact Sc|]. rewrite Hc, Lc. reflexivity.
Qed.
Print Assumptions C107_new_file.
Theorem C107_appended c0 s0 h s1 date time s2 n f : sound c0 -> opened OAppend (Some c0) s0 -> runs s0 h s1 -> undisturbed h n f -> close date time s1 = (s2, Ok tt) ->
  exists c, s_disk s2 = Some c /\ sound c /\ held c n f = latest h n f (held c0 n f).
Proof.
  intros Sd O R U C. destruct (opened_old OAppend (Some c0) s0 (or_intror eq_refl) O) as (c' & X & L & V0 & _). injection X as <-.
  exact (session_values s0 _ h s1 date time s2 n f L eq_refl V0 Sd R U C).
Qed.
Print Assumptions C107_appended.
Example C107_case : let h := fst (perform (start OWrite None) work) in let h' := fst (perform (start OAppend (Some file1)) more) in
  undisturbed h "T" 0 /\ latest h "T" 0 None = Some 5 /\ latest h "T" 1 None = Some 7 /\ held file1 "T" 0 = Some 5 /\ held file1 "T" 1 = Some 7 /\ held file1 "U" 0 = None /\
  undisturbed h' "T" 0 /\ latest h' "T" 0 (held file1 "T" 0) = Some 8 /\
  match closed (snd (perform (start OAppend (Some file1)) more)) with Some c => (held c "T" 0, held c "T" 1) | None => (None, None) end = (Some 8, Some 7).
Proof. cbn zeta. unfold undisturbed. vm_compute. repeat split; repeat (constructor; auto). Qed.
(** Names are legal by these rules. *)
Theorem C107_names s : legal_name s = true <-> acceptable s.
Proof. exact (legal_acceptable s). Qed.
Print Assumptions C107_names.
Example C107_names_case : acceptable "_stress 2.5%" /\ ~ acceptable "stress " /\ ~ acceptable "a/b" /\ ~ acceptable " a" /\ ~ acceptable "".
Proof. rewrite <- !C107_names. vm_compute. repeat split; discriminate. Qed.
Theorem C107_accepted m disk s0 h s1 f x ns : writes m = true -> opened m disk s0 -> tidy_runs s0 h s1 -> Forall (fun p => legal_op (fst p)) h ->
  NoDup (registered h) -> Forall (fun n => legal_name n = true) (registered h) -> incl ns (registered h) -> exists s2, step (Write f x ns) s1 = (s2, Ok tt).
Proof.
  intros W O R F Nd Ln Hn. destruct (opened_P m disk s0 W O) as (l & H & V0 & _ & Mo & _). rewrite <- Mo in W.
  destruct (P_runs s0 h s1 R F l 0 H W) as (l1 & k1 & H1 & N1 & _); [rewrite V0; exact Nd|exact Ln|]. apply (P_write f x ns s1 l1 k1 H1). rewrite N1, V0. exact Hn.
Qed.
Print Assumptions C107_accepted.
Example C107_accepted_case : let s0 := start OOverwrite (Some file1) in let h := fst (perform s0 work) in
  opened OOverwrite (Some file1) s0 /\ tidy_runs s0 h (snd (perform s0 work)) /\ Forall (fun p => legal_op (fst p)) h /\ registered h = ["T"] /\ legal_name "T" = true /\
  snd (step (Write 2 4 ["T"]) (snd (perform s0 work))) = Ok tt.
Proof.
  cbn zeta. split; [apply start_opened; exact Logic.I|]. split; [apply perform_tidy, work_plain|]. split; [vm_compute; repeat (constructor; [try exact Logic.I; try reflexivity; try (intuition discriminate)|]); constructor|]. vm_compute. auto.
Qed.

(** ** C108 *)
Theorem C108_tidy_partial m disk s0 h s1 o s2 e : (writes m = true \/ m = OAppend /\ exists c, disk = Some c /\ readable c /\ (List.length (c_gatts c) <= 30)%nat) -> opened m disk s0 -> tidy_runs s0 h s1 ->
  op_ok o -> tidy s1 o -> step o s1 = (s2, Err e) -> forall n, shown s2 n = shown s1 n.
Proof.
  intros Hm O R Vo T E n. assert (X : exists l k, I s0 l k).
  { destruct Hm as [W|(-> & c & -> & Rd & L)]; [destruct (opened_new m disk s0 W O) as (l & H & _); eauto|destruct (opened_append c s0 Rd L O) as (l & H & _); eauto]. }
  destruct X as (l & k & H). destruct (runs_spec s0 h s1 R l k H) as (l1 & k1 & H1 & _). destruct (step_spec o s1 l1 k1 H1 Vo T) as (s2' & r & l2 & k2 & E2 & _ & _ & Sh).
  rewrite E in E2. injection E2 as <- <-. exact (Sh n).
Qed.
Print Assumptions C108_tidy_partial.
Example C108_tidy_case : let s1 := snd (perform (start OWrite None) work) in
  tidy s1 (UpdateAtt "note" "note" TInt (repeat 0 8)) /\ snd (step (UpdateAtt "note" "note" TInt (repeat 0 8)) s1) = Err FileIOError /\ shown s1 "note" = Some (TInt, [2; 0; 0; 0]).
Proof. vm_compute. auto. Qed.
(** Renaming an attribute to a name in use, or to a name the library refuses. *)
Theorem C108_rename_refuted : exists s0 h s1 s2 s3, opened OWrite None s0 /\ runs s0 h s1 /\
  step (UpdateAtt "note" "unit" TInt [2; 0; 0; 0]) s1 = (s2, Err FileIOError) /\ shown s1 "note" = Some (TInt, [1; 0; 0; 0]) /\ shown s2 "note" = None /\
  step (UpdateAtt "note" "a/b" TInt [2; 0; 0; 0]) s1 = (s3, Err FileIOError) /\ shown s3 "note" = None /\ shown s3 "a/b" = Some (TInt, [2; 0; 0; 0]).
Proof.
  set (os := [WriteAtt "note" TInt [1; 0; 0; 0]; WriteAtt "unit" TInt [9; 0; 0; 0]; Register []; Write 0 0 []]). set (s1 := snd (perform (start OWrite None) os)).
  exists (start OWrite None), (fst (perform (start OWrite None) os)), s1, (fst (step (UpdateAtt "note" "unit" TInt [2; 0; 0; 0]) s1)), (fst (step (UpdateAtt "note" "a/b" TInt [2; 0; 0; 0]) s1)).
  split; [apply start_opened; exact Logic.I|]. split; [apply perform_runs|]. vm_compute. auto 10.
Qed.
Print Assumptions C108_rename_refuted.

(** ** C109 *)
Theorem C109_only_length m c s n u u' i v : m = ORead \/ m = OAppend -> opened m (Some c) s -> nth_error (c_vars c) i = Some v -> NoDup (map v_name (c_vars c)) -> v_name v = n ->
  v_atts v = [mk_att "unit" TChar u] -> snd (step (Register [(n, u')]) s) = if (List.length u' <? List.length u)%nat then UB else Ok tt.
Proof. exact (register_unit m c s n u u' i v). Qed.
Print Assumptions C109_only_length.
(** Kelvin in the file, metres in the field: accepted; a longer unit in the file
    than in the field: written beyond the end of a buffer. *)
Theorem C109_mismatch_refuted : exists c s, opened ORead (Some c) s /\ c_vars c = [mk_var "T" [mk_att "unit" TChar [75]]] /\
  snd (step (Register [("T", [109])]) s) = Ok tt /\ snd (step (Register [("T", [])]) s) = UB.
Proof.
  exists file1, (start ORead (Some file1)). split; [apply start_opened; vm_compute; exact Logic.I|]. vm_compute. auto.
Qed.
Print Assumptions C109_mismatch_refuted.

(** ** C110 *)
Theorem C110_new_partial m disk s0 h s1 date time : writes m = true -> opened m disk s0 -> clock date time -> tidy_runs s0 h s1 -> Forall (fun p => legal_op (fst p)) h ->
  exists s2, close date time s1 = (s2, Ok tt).
Proof.
  intros W O C R F. destruct (opened_new m disk s0 W O) as (l & H & _ & Lg). destruct (opened_stamps m disk s0 W O) as (d & t & S1 & S2 & L1 & L2).
  apply (session_closes s0 l 0 h s1 d t date time H Lg S1 S2); auto; lia.
Qed.
Print Assumptions C110_new_partial.
Theorem C110_append_partial c s0 h s1 d t date time : readable c -> (List.length (c_gatts c) <= 30)%nat -> stored_atts c "last_modified_date" = Some (TChar, d) -> stored_atts c "last_modified_time" = Some (TChar, t) ->
  (18 <= List.length d)%nat -> (16 <= List.length t)%nat -> opened OAppend (Some c) s0 -> clock date time -> tidy_runs s0 h s1 -> Forall (fun p => legal_op (fst p)) h ->
  exists s2, close date time s1 = (s2, Ok tt).
Proof.
  intros Rd L S1 S2 L1 L2 O C R F. destruct (opened_append c s0 Rd L O) as (l & H & _ & A & Lg & _).
  apply (session_closes s0 l _ h s1 d t date time H Lg); auto; rewrite shown_seen, A; assumption.
Qed.
Print Assumptions C110_append_partial.
Theorem C110_reader c s0 h s1 date time : opened ORead (Some c) s0 -> runs s0 h s1 -> exists s2, close date time s1 = (s2, Ok tt) /\ s_disk s2 = Some c.
Proof. exact (reader_closes s0 h s1 c date time). Qed.
Print Assumptions C110_reader.
Example C110_case : clock date0 time0 /\ snd (close date0 time0 (snd (perform (start OWrite None) work))) = Ok tt /\
  stored_atts file1 "last_modified_date" = Some (TChar, date0) /\ stored_atts file1 "last_modified_time" = Some (TChar, time0) /\
  snd (close date0 time0 (snd (perform (start OAppend (Some file1)) more))) = Ok tt /\
  snd (close date0 time0 (snd (perform (start ORead (Some file1)) more))) = Ok tt.
Proof. split; [split; reflexivity|]. vm_compute. auto. Qed.
(** A name with a slash is accepted and found out when closing. *)
Theorem C110_illegal_name_refuted : exists s0 s1 s2, opened OWrite None s0 /\ step (WriteAtt "a/b" TInt [1; 0; 0; 0]) s0 = (s1, Ok tt) /\ close date0 time0 s1 = (s2, Err FileIOError) /\ s_disk s2 = Some nothing.
Proof.
  exists (start OWrite None). eexists _, _. split; [apply start_opened; exact Logic.I|]. split; [vm_compute; reflexivity|]. vm_compute. split; reflexivity.
Qed.
Print Assumptions C110_illegal_name_refuted.
(** The user may shorten or rename the two attributes that closing rewrites. *)
Theorem C110_stamp_refuted : exists s0 h s1, opened OWrite None s0 /\ runs s0 h s1 /\ Forall (fun p => snd p = Ok tt) h /\
  (exists s2 s3, step (UpdateAtt "last_modified_date" "last_modified_date" TChar [48]) s1 = (s2, Ok tt) /\ close date0 time0 s2 = (s3, Err FileIOError)) /\
  (exists s2 s3, step (UpdateAtt "last_modified_date" "date" TChar date0) s1 = (s2, Ok tt) /\ close date0 time0 s2 = (s3, Err FileIOError)).
Proof.
  set (os := [Register [("T", [75])]; Write 0 5 ["T"]]). exists (start OWrite None), (fst (perform (start OWrite None) os)), (snd (perform (start OWrite None) os)).
  split; [apply start_opened; exact Logic.I|]. split; [apply perform_runs|]. split; [vm_compute; repeat (constructor; [reflexivity|]); constructor|].
  split; eexists _, _; (split; [vm_compute; reflexivity|]); vm_compute; reflexivity.
Qed.
Print Assumptions C110_stamp_refuted.
(** Files of other programs have no such attributes. *)
Theorem C110_foreign_refuted : exists c s0 h s1 s2, opened OAppend (Some c) s0 /\ runs s0 h s1 /\ Forall (fun p => snd p = Ok tt) h /\ c_gatts c = [] /\ close date0 time0 s1 = (s2, Err FileIOError) /\ s_disk s2 = Some c.
Proof.

  set (c' := mk_content [] [mk_var "T" [mk_att "unit" TChar [75]]] []). set (os' := [Register [("T", [75])]; Write 0 5 ["T"]]).
  exists c', (start OAppend (Some c')), (fst (perform (start OAppend (Some c')) os')), (snd (perform (start OAppend (Some c')) os')). eexists.
  split; [apply start_opened; exact Logic.I|]. split; [apply perform_runs|]. split; [vm_compute; repeat (constructor; [reflexivity|]); constructor|]. split; [reflexivity|]. split; [vm_compute; reflexivity|]. reflexivity.
Qed.
Print Assumptions C110_foreign_refuted.

(** ** C111 *)
Theorem C111_write_refuses i a d b e t c : open OWrite i a d b e t (Some c) = (Err FileIOError, Some c).
Proof. reflexivity. Qed.
Print Assumptions C111_write_refuses.
Theorem C111_missing m i a d b e t : m = ORead \/ m = OAppend -> open m i a d b e t None = (Err FileIOError, None).
Proof. intros [-> | ->]; reflexivity. Qed.
Print Assumptions C111_missing.
Theorem C111_overwrite_empties disk s0 : opened OOverwrite disk s0 -> s_disk s0 = Some nothing /\ exists l, s_lib s0 = Some l /\ l_c l = nothing.
Proof.
  intros O. destruct (opened_P OOverwrite disk s0 eq_refl O) as (l & _ & _ & Lc & _ & L). split; [|eauto]. destruct O as (i & a & d & b & e & t & x & _ & E). injection E as <- _. reflexivity.
Qed.
Print Assumptions C111_overwrite_empties.
Theorem C111_until_close s h s' : runs s h s' -> s_disk s' = s_disk s.
Proof. exact (runs_disk s h s'). Qed.
Print Assumptions C111_until_close.
Theorem C111_reader_changes_nothing c s0 h s1 date time : opened ORead (Some c) s0 -> runs s0 h s1 ->
  Forall (fun p => match fst p with WriteAtt _ _ _ | UpdateAtt _ _ _ _ => snd p = Err FileIOError | Write _ _ ns => ns <> [] -> snd p = Err FileIOError | _ => True end) h /\
  s_disk s1 = Some c /\ exists s2, close date time s1 = (s2, Ok tt) /\ s_disk s2 = Some c.
Proof.
  intros O R. destruct (opened_old ORead (Some c) s0 (or_introl eq_refl) O) as (c' & X & L & _ & Mo & _). injection X as <-.
  split; [exact (reader_refuses s0 h s1 R c Mo L)|]. split; [apply (reader s0 h s1 c O R)|exact (reader_closes s0 h s1 c date time O R)].
Qed.
Print Assumptions C111_reader_changes_nothing.
Theorem C111_append_keeps c s0 h s1 date time s2 : opened OAppend (Some c) s0 -> runs s0 h s1 -> close date time s1 = (s2, Ok tt) ->
  exists c', s_disk s2 = Some c' /\ c_vars c' = c_vars c /\ exists e, c_data c' = c_data c ++ e.
Proof. exact (appender s0 h s1 date time s2 c). Qed.
Print Assumptions C111_append_keeps.
Example C111_case : let r := perform (start ORead (Some file1)) more in let a := perform (start OAppend (Some file1)) more in
  opened ORead (Some file1) (start ORead (Some file1)) /\ map snd (fst r) = [Ok tt; Err FileIOError; Err FileIOError] /\ closed (snd r) = Some file1 /\
  map snd (fst a) = [Ok tt; Ok tt; Ok tt] /\ s_disk (snd a) = Some file1 /\ match closed (snd a) with Some c => c_data c | None => [] end = [(0%nat, 0, 5); (0%nat, 1, 7); (0%nat, 0, 8)] /\
  c_data file1 = [(0%nat, 0, 5); (0%nat, 1, 7)] /\ s_disk (start OOverwrite (Some file1)) = Some nothing.
Proof. cbn zeta. split; [apply start_opened; vm_compute; exact Logic.I|]. vm_compute. auto 10. Qed.

(** ** C112 *)
Theorem C112_new_names_partial m disk s0 h s1 vs : writes m = true -> opened m disk s0 -> tidy_runs s0 h s1 -> Forall (fun p => legal_op (fst p)) h ->
  NoDup (registered h ++ map fst vs) -> Forall (fun n => legal_name n = true) (registered h ++ map fst vs) -> exists s2, step (Register vs) s1 = (s2, Ok tt).
Proof.
  intros W O R F Nd Ln. destruct (opened_P m disk s0 W O) as (l & H & V0 & _ & Mo & _). rewrite <- Mo in W. apply Forall_app in Ln. destruct Ln as [Ln1 Ln2].
  destruct (P_runs s0 h s1 R F l 0 H W) as (l1 & k1 & H1 & N1 & W1); [rewrite V0; exact (NoDup_app_l _ _ Nd)|exact Ln1|].
  rewrite Forall_map in Ln2. destruct (register_ok vs s1 l1 k1 (P_I _ _ _ H1) (P_V _ _ _ H1) W1) as (s2 & l2 & E & _); [rewrite N1, V0; exact Nd|exact Ln2|]. exists s2. exact E.
Qed.
Print Assumptions C112_new_names_partial.
Example C112_case : let s1 := snd (perform (start OWrite None) work) in let h := fst (perform (start OWrite None) work) in
  NoDup (registered h ++ ["E"; "S"]) /\ snd (step (Register [("E", []); ("S", [])]) s1) = Ok tt /\ snd (step (Register [("T", [])]) s1) = Err FileIOError.
Proof. cbn zeta. split; [vm_compute; repeat (constructor; [cbn; intuition discriminate|]); constructor|]. vm_compute. auto. Qed.
(** A registration that fails leaves its variables behind: a reader that asks for
    a missing variable can no longer register one that exists; a writer that uses a
    bad name can register nothing any more. *)
Theorem C112_retry_refuted : exists c s0 s1 s2, opened ORead (Some c) s0 /\ step (Register [("U", [])]) s0 = (s1, Err FileIOError) /\ snd (step (Register [("T", [75])]) s0) = Ok tt /\ step (Register [("T", [75])]) s1 = (s2, Err FileIOError).
Proof.
  exists file1, (start ORead (Some file1)). eexists _, _. split; [apply start_opened; vm_compute; exact Logic.I|]. split; [vm_compute; reflexivity|]. split; [vm_compute; reflexivity|]. vm_compute. reflexivity.
Qed.
Print Assumptions C112_retry_refuted.
Theorem C112_bad_name_refuted : exists s0 s1 s2, opened OWrite None s0 /\ step (Register [("a/b", [])]) s0 = (s1, Err FileIOError) /\ snd (step (Register [("T", [75])]) s0) = Ok tt /\ step (Register [("T", [75])]) s1 = (s2, Err FileIOError).
Proof.
  exists (start OWrite None). eexists _, _. split; [apply start_opened; exact Logic.I|]. split; [vm_compute; reflexivity|]. split; [vm_compute; reflexivity|]. vm_compute. reflexivity.
Qed.
Print Assumptions C112_bad_name_refuted.

(** ** C113 *)
Theorem C113_readable_partial c i a d b e t : readable c -> (List.length (c_gatts c) <= 30)%nat ->
  exists s, open ORead i a d b e t (Some c) = (Ok s, Some c) /\ (forall n, shown s n = stored_atts c n) /\ read_global_attribute_names s = map a_name (c_gatts c).
Proof.
  intros R L. rewrite (open_readable ORead c), firstn_all2 by auto. eexists. split; [reflexivity|]. split; [|unfold read_global_attribute_names; pj; apply names_loaded].
  intros n. rewrite shown_seen. pj. rewrite to_att_loaded. reflexivity.
Qed.
Print Assumptions C113_readable_partial.
Example C113_case : readable file1 /\ List.length (c_gatts file1) = 9%nat /\ stored_atts file1 "note" = Some (TInt, [2; 0; 0; 0]).
Proof. split; [exact file1_readable|]. vm_compute. auto. Qed.
(** The thirty-first attribute is not there; updating it fails, too. *)
Definition digit (n : nat) : string := String (Ascii.ascii_of_nat (97 + n / 6)) (String (Ascii.ascii_of_nat (97 + n mod 6)) EmptyString).
Definition many : content := mk_content (map (fun n => mk_att (digit n) TInt [0; 0; 0; 0]) (seq 0 31)) [] [].
Theorem C113_thirty_refuted : exists c s, readable c /\ opened OAppend (Some c) s /\ stored_atts c (digit 30) = Some (TInt, [0; 0; 0; 0]) /\ shown s (digit 30) = None /\
  snd (step (UpdateAtt (digit 30) (digit 30) TInt [1; 0; 0; 0]) s) = Err FileIOError.
Proof.
  exists many, (start OAppend (Some many)). split.
  - split; [vm_compute; repeat (constructor; [cbn; intuition discriminate|]); constructor|]. unfold many, c_gatts. rewrite Forall_map. apply Forall_forall. intros n Hn. split.
    + apply in_seq in Hn. cbn [a_name]. assert (X : forallb (fun n => legal_name (digit n)) (seq 0 31) = true) by (vm_compute; reflexivity). rewrite forallb_forall in X. apply X. apply in_seq. exact Hn.
    + split; [reflexivity|]. exists 1%nat. reflexivity.
  - split; [apply start_opened; vm_compute; exact Logic.I|]. vm_compute. auto.
Qed.
Print Assumptions C113_thirty_refuted.
(** One attribute of type float or short and the file cannot be opened at all. *)
Theorem C113_types_refuted ty v i a d b e t : In ty [TByte; TUByte; TShort; TUShort; TFloat; TUInt64] -> open ORead i a d b e t (Some (mk_content [mk_att "scale" ty v] [] [])) = (Err FileIOError, Some (mk_content [mk_att "scale" ty v] [] [])).
Proof. cbn [In]. intros [<-|[<-|[<-|[<-|[<-|[<-|[]]]]]]]; reflexivity. Qed.
Print Assumptions C113_types_refuted.
(** The name of an attribute of a variable may have 256 characters; the buffer
    has no room for its terminating zero. *)
Fixpoint letters (n : nat) : string := match n with O => EmptyString | Datatypes.S m => String (Ascii.ascii_of_nat 97) (letters m) end.
Theorem C113_long_name_refuted : exists c s, opened ORead (Some c) s /\ legal_name (letters 256) = true /\ c_vars c = [mk_var "T" [mk_att (letters 256) TInt [0; 0; 0; 0]]] /\ snd (step (Register [("T", [75])]) s) = UB.
Proof.
  exists (mk_content [] [mk_var "T" [mk_att (letters 256) TInt [0; 0; 0; 0]]] []), (start ORead (Some (mk_content [] [mk_var "T" [mk_att (letters 256) TInt [0; 0; 0; 0]]] []))).
  split; [apply start_opened; exact Logic.I|]. split; [vm_compute; reflexivity|]. split; [reflexivity|]. vm_compute. reflexivity.
Qed.
Print Assumptions C113_long_name_refuted.

(** ** C114 *)
Theorem C114_register_first_partial c s0 h1 s1 vs s2 h2 s3 f x ns : readable c -> (List.length (c_gatts c) <= 30)%nat -> opened OAppend (Some c) s0 ->
  tidy_runs s0 h1 s1 -> Forall (fun p => no_update (fst p)) h1 -> step (Register vs) s1 = (s2, Ok tt) ->
  tidy_runs s2 h2 s3 -> Forall (fun p => no_register (fst p)) h2 -> incl ns (map fst vs) -> exists s4, step (Write f x ns) s3 = (s4, Ok tt).
Proof. exact (append_writes c s0 h1 s1 vs s2 h2 s3 f x ns). Qed.
Print Assumptions C114_register_first_partial.
Example C114_case : let s1 := snd (perform (start OAppend (Some file1)) [Read []]) in snd (step (Register [("T", [75])]) s1) = Ok tt /\
  let s3 := snd (perform (fst (step (Register [("T", [75])]) s1)) [UpdateAtt "note" "note" TInt [3; 0; 0; 0]; Write 0 8 ["T"]]) in snd (step (Write 2 1 ["T"]) s3) = Ok tt.
Proof. vm_compute. auto. Qed.
(** An attribute updated before the fields are registered: nothing can be written. *)
Theorem C114_update_first_refuted : exists s0 h s1 s2, opened OAppend (Some file1) s0 /\ runs s0 h s1 /\ Forall (fun p => snd p = Ok tt) h /\
  map fst h = [UpdateAtt "note" "note" TInt [3; 0; 0; 0]; Register [("T", [75])]] /\ step (Write 0 8 ["T"]) s1 = (s2, Err FileIOError).
Proof.
  set (os := [UpdateAtt "note" "note" TInt [3; 0; 0; 0]; Register [("T", [75])]]). exists (start OAppend (Some file1)), (fst (perform (start OAppend (Some file1)) os)), (snd (perform (start OAppend (Some file1)) os)). eexists.
  split; [apply start_opened; vm_compute; exact Logic.I|]. split; [apply perform_runs|]. split; [vm_compute; repeat (constructor; [reflexivity|]); constructor|]. split; [vm_compute; reflexivity|]. vm_compute. reflexivity.
Qed.
Print Assumptions C114_update_first_refuted.
