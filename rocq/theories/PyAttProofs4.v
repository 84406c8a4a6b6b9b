(** Proofs about attributes in Python programs: when attributes can be updated. *)
From Coq Require Import String.
From Verif Require Import Base AttModel AttSpec LayoutProofs AttProofs AttProofs2 AttProofs3 AttProofs4 AttProofs5 PyAttModel PyAttSpec PyAttProofs PyAttProofs2 PyAttProofs3.
Local Open Scope Z_scope.
Local Open Scope list_scope.

(** Attributes that were defined stay so. *)
Definition kg (s s' : st) : Prop := s_gdef (s_o s) = true -> s_gdef (s_o s') = true.
Lemma kg_refl s : kg s s. Proof. intros H. exact H. Qed.
Definition Kg {A} (m : M A) : Prop := forall s, kg s (fst (m s)).
Lemma Kg_ret {A} (a : A) : Kg (ret a). Proof. intros s. apply kg_refl. Qed.
Lemma Kg_throw {A} : Kg (@throw A). Proof. intros s. apply kg_refl. Qed.
Lemma Kg_lift {A} (r : res A) : Kg (lift r). Proof. intros s. apply kg_refl. Qed.
Lemma Kg_obj : Kg obj. Proof. intros s. apply kg_refl. Qed.
Lemma Kg_inquire {A} (g : content -> A) : Kg (inquire g). Proof. intros s. unfold inquire. destruct (s_lib s); apply kg_refl. Qed.
Lemma Kg_bind {A B} (m : M A) (k : A -> M B) : Kg m -> (forall a, Kg (k a)) -> Kg (mbind m k).
Proof. intros Hm Hk s. specialize (Hm s). unfold mbind. destruct (m s) as [s1 [a|e|]]; cbn [fst] in *; auto. intros G. apply Hk, Hm, G. Qed.
Lemma Kg_call f : Kg (call f). Proof. intros s. unfold call. destruct (s_lib s) as [l|]; [|apply kg_refl]. destruct (f l); intros G; exact G. Qed.
Lemma Kg_check f : Kg (check f). Proof. apply Kg_bind; [apply Kg_call|]. intros [e|]; [apply Kg_throw|apply Kg_ret]. Qed.
Lemma Kg_each {A} (f : A -> M unit) l : (forall a, Kg (f a)) -> Kg (each f l).
Proof. intros H. induction l as [|a l IH]; cbn [each]; [apply Kg_ret|]. apply Kg_bind; auto. Qed.
Lemma Kg_flag x : Kg (set_flag x). Proof. intros s G. exact G. Qed.
Lemma Kg_changed : Kg set_changed. Proof. intros s G. exact G. Qed.
Lemma Kg_gdef : Kg set_gdef. Proof. intros s G. reflexivity. Qed.
Lemma Kg_atts x : Kg (set_atts x). Proof. intros s G. exact G. Qed.
Lemma Kg_vars x : Kg (set_vars x). Proof. intros s G. exact G. Qed.
Ltac kgt := repeat first
  [ apply Kg_ret | apply Kg_throw | apply Kg_lift | apply Kg_obj | apply Kg_inquire | apply Kg_check | apply Kg_call | apply Kg_flag | apply Kg_changed | apply Kg_gdef | apply Kg_atts | apply Kg_vars
  | apply Kg_bind; [|intros] | apply Kg_each; intros | match goal with |- Kg (match ?x with _ => _ end) => destruct x end ].
Lemma Kg_changes : Kg netcdf_file_changes. Proof. unfold netcdf_file_changes. kgt. Qed.
Lemma Kg_define : Kg define_global_attributes_save_call.
Proof. unfold define_global_attributes_save_call, define_global_attributes, define_one. kgt. Qed.
Lemma Kg_step o : Kg (step o).
Proof.
  destruct o; cbn [step].
  - unfold register_field_collection, add_var, define_var, define_vatts, register_var_id, register_vatts. cbn zeta. kgt; apply Kg_changes.
  - unfold write. apply Kg_bind; [apply Kg_define|]. intros _. unfold get_variable. kgt; apply Kg_changes.
  - unfold read, get_variable. kgt.
  - unfold write_global_attribute, add_attribute. kgt.
  - unfold update_global_attribute. kgt; apply Kg_changes.
Qed.
Lemma Kg_pystep o s : kg s (fst (pystep o s)).
Proof. unfold pystep. destruct (lower o) as [c|]; [|apply kg_refl]. assert (X := Kg_step c s). destruct (step c s) as [s' [a|e|]]; exact X. Qed.
Lemma Kg_pyruns P s h s' : pyruns P s h s' -> kg s s'.
Proof. induction 1 as [s|s o s1 r h s2 A B C D IH]; [apply kg_refl|]. assert (X := Kg_pystep o s). rewrite C in X. intros G. apply IH, X, G. Qed.

Lemma write_defines s l k f x ns s' : I s l k -> writes (s_mode (s_o s)) = true -> write f x ns s = (s', Ok tt) -> s_gdef (s_o s') = true.
Proof.
  intros H W E. unfold write in E. destruct (save_call s l k H) as (s1 & r & E1 & D). unfold defined_result in D. destruct D as (_ & _ & _ & l' & k' & _ & D).
  unfold mbind at 1 in E. rewrite E1 in E. destruct D as [(-> & G & _)|(-> & _)]; [|discriminate].
  assert (X : Kg (run each (fun n : string => do w <- get_variable n; check (lib_put_var (w_id w) f x)) ns; netcdf_file_changes)) by (unfold get_variable; kgt; apply Kg_changes).
  specialize (X s1). rewrite E in X. exact (X (G W)).
Qed.
(** After a run in which values were written, all attributes are in the file. *)
Lemma saved s h s' : pyruns wf s h s' -> forall l k, I s l k -> writes (s_mode (s_o s)) = true -> Exists (fun p => match fst p with PySave _ _ _ => snd p = PyOk tt | _ => False end) h -> s_gdef (s_o s') = true.
Proof.
  induction 1 as [s|s o s1 r h s2 A B C D IH]; intros l k H W Ex; [inversion Ex|].
  inversion Ex as [? ? Hd|? ? Tl]; subst.
  - cbn [fst snd] in Hd. destruct o as [| | |f x ns|]; try contradiction. subst r. apply (Kg_pyruns _ _ _ _ D).
    unfold pystep in C. cbn [lower step] in C. destruct (write f x ns s) as [s'' [[]|e|]] eqn:E; try discriminate. injection C as <-. exact (write_defines s l k f x ns s'' H W E).
  - assert (X := pystep_low o s s1 r C). destruct (lower o) as [c|] eqn:L.
    + destruct X as (q & E & _). destruct (step_spec c s l k H (lower_ok o c A L) (lower_tidy s o c B L)) as (s1' & r' & l1 & k1 & E' & H1 & M1 & _). rewrite E in E'. injection E' as <- <-.
      apply (IH l1 k1 H1); [congruence|exact Tl].
    + destruct X as (-> & _). exact (IH l k H W Tl).
Qed.

(** Attributes of new files: accepted before the first values are written. *)
Lemma write_only s h s' : pyruns wf s h s' -> Forall (fun p => match fst p with PyWrite _ _ => True | _ => False end) h -> s_gdef (s_o s') = s_gdef (s_o s) /\ s_mode (s_o s') = s_mode (s_o s).
Proof.
  induction 1 as [s|s o s1 r h s2 A B C D IH]; intros F; [auto|]. apply Forall_cons_iff in F. destruct F as [F1 F2]. destruct (IH F2) as [G1 G2]. rewrite G1, G2. cbn [fst] in F1.
  destruct o as [n v| | | |]; try contradiction. clear - C. unfold pystep in C. cbn [lower] in C. destruct (resolve v) as [[t b]|]; [|injection C as <- _; auto].
  cbn [step] in C. unfold write_global_attribute, add_attribute in C. rewrite bind_obj in C.
  destruct (s_gdef (s_o s)) eqn:G; [injection C as <- _; auto|]. destruct (writes (s_mode (s_o s))); cbn [negb] in C; [|injection C as <- _; auto].
  rewrite bind_obj in C. destruct (has_att n (s_atts (s_o s))); injection C as <- _; auto.
Qed.
Lemma new_accepted m disk s0 h s1 n v : writes m = true -> opened m disk s0 -> pyruns wf s0 h s1 -> Forall (fun p => match fst p with PyWrite _ _ => True | _ => False end) h ->
  faithful v -> ~ In n (read_global_attribute_names s1) -> exists s2, pystep (PyWrite n v) s1 = (s2, PyOk tt).
Proof.
  intros W O R F V Hn. destruct (write_only s0 h s1 R F) as [G Mo]. destruct (opened_new m disk s0 W O) as (l & H & M0 & _).
  assert (G0 : s_gdef (s_o s0) = false). { destruct O as (i & a & d & b & e & t & x & _ & E). unfold open in E. destruct m; try discriminate; [destruct disk; [discriminate|]|]; injection E as <- _; reflexivity. }
  destruct (resolve_faithful v V) as (t & b & E). unfold pystep. cbn [lower]. rewrite E. cbn [step]. unfold write_global_attribute, add_attribute. rewrite bind_obj, G, G0, Mo, M0, W. cbn [negb]. rewrite bind_obj.
  assert (X : has_att n (s_atts (s_o s1)) = false).
  { unfold has_att. destruct (existsb _ _) eqn:Q; [|reflexivity]. exfalso. apply Hn. apply existsb_exists in Q. destruct Q as (q & Hq & Eq). apply String.eqb_eq in Eq. subst n. apply in_map. exact Hq. }
  rewrite X. eexists. reflexivity.
Qed.
