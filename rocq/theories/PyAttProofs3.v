(** Proofs about attributes in Python programs: whole programs. *)
From Coq Require Import String.
From Verif Require Import Base AttModel AttSpec LayoutProofs AttProofs AttProofs2 AttProofs3 AttProofs4 AttProofs5 AttProofs12 PyAttModel PyAttSpec PyAttProofs PyAttProofs2.
Local Open Scope Z_scope.
Local Open Scope list_scope.

(** The calls of the C++ functions. *)
Definition low1 (p : pyop * pyout unit) : list (op * res unit) :=
  match lower (fst p), snd p with
  | Some c, PyOk _ => [(c, Ok tt)]
  | Some c, PyExn e => [(c, Err e)]
  | Some c, PyUB => [(c, UB)]
  | _, _ => []
  end.
Definition low (h : list (pyop * pyout unit)) : list (op * res unit) := flat_map low1 h.

Lemma lower_ok o c : pyop_ok wf o -> lower o = Some c -> op_ok c.
Proof.
  intros W E. destruct o as [n v|a b v|vs|f x ns|ns]; cbn [lower pyop_ok] in *; try (injection E as <-; exact Logic.I);
    destruct (resolve v) as [[t y]|] eqn:R; try discriminate; injection E as <-; exact (resolve_op v t y W R).
Qed.
Lemma lower_tidy s o c : pytidy s o -> lower o = Some c -> tidy s c.
Proof.
  intros T E. destruct o as [n v|a b v|vs|f x ns|ns]; cbn [lower pytidy] in *; try (injection E as <-; exact Logic.I);
    destruct (resolve v) as [[t y]|] eqn:R; try discriminate; injection E as <-; exact T.
Qed.
Lemma pystep_low o s s1 r : pystep o s = (s1, r) ->
  match lower o with
  | None => s1 = s /\ r = PyType /\ low1 (o, r) = []
  | Some c => exists q, step c s = (s1, q) /\ low1 (o, r) = [(c, q)] /\ (q = Ok tt <-> r = PyOk tt) /\ (r = PyOk tt \/ (exists e, r = PyExn e) \/ r = PyUB)
  end.
Proof.
  unfold pystep, low1. cbn [fst snd]. destruct (lower o) as [c|]; [|intros E; injection E as <- <-; auto].
  destruct (step c s) as [s' [[]|e|]]; intros E; injection E as <- <-; eexists; (split; [reflexivity|]; split; [reflexivity|]; split; [split; congruence|eauto]).
Qed.
Lemma pyruns_mono (P Q : pyval -> Prop) s h s' : (forall v, P v -> Q v) -> pyruns P s h s' -> pyruns Q s h s'.
Proof. intros X. induction 1 as [|s o s1 r h s2 A B C D IH]; econstructor; eauto. destruct o; cbn in *; auto. Qed.
Lemma pyruns_tidy s h s' : pyruns wf s h s' -> tidy_runs s (low h) s'.
Proof.
  induction 1 as [s|s o s1 r h s2 A B C D IH]; [constructor|]. unfold low. cbn [flat_map]. fold (low h).
  assert (X := pystep_low o s s1 r C). destruct (lower o) as [c|] eqn:L.
  - destruct X as (q & E & -> & _). cbn [app]. econstructor; [exact (lower_ok o c A L)|exact (lower_tidy s o c B L)|exact E|exact IH].
  - destruct X as (-> & _ & ->). exact IH.
Qed.

(** *** Dictionaries *)
Definition dec (o : option (nctype * bytes)) : pyout pyval := match o with Some (t, b) => decode t b | None => PyExn FileIOError end.
Lemma pyshown_dec s n : pyshown s n = dec (shown s n).
Proof. unfold pyshown, py_read_global_attribute, shown. destruct (read_global_attribute n s); [apply cast_decode|reflexivity]. Qed.
Lemma pystored_dec c n : pystored c n = dec (stored_atts c n).
Proof. unfold pystored, stored_atts. destruct (find_att n (c_gatts c)); reflexivity. Qed.
Lemma same_refl v : same v v.
Proof. destruct v as [u|l]; cbn; [reflexivity|]. induction l; constructor; auto. left. reflexivity. Qed.
Lemma agrees_refl a : agrees a a.
Proof. destruct a; cbn; auto. apply same_refl. Qed.

Lemma after_agrees s h s' : pyruns faithful s h s' -> forall d pd, (forall n, agrees (dec (d n)) (pd n)) -> forall n, agrees (dec (after (low h) d n)) (pyafter h pd n).
Proof.
  assert (V : forall v t b, faithful v -> resolve v = Some (t, b) -> agrees (decode t b) (PyOk v)).
  { intros v t b F R. destruct (resolve_spec v t b (proj1 F) R) as (_ & _ & _ & w & D & _ & S). rewrite D. cbn. apply S. exact F. }
  induction 1 as [s|s o s1 r h s2 A B C D IH]; intros d pd H n; [exact (H n)|]. unfold low. cbn [flat_map]. fold (low h).
  assert (X := pystep_low o s s1 r C). destruct (lower o) as [c|] eqn:L; [|destruct X as (_ & -> & ->); exact (IH d pd H n)].
  destruct X as (q & _ & -> & Q & R). cbn [app after pyafter].
  destruct R as [->|[(e & ->)| ->]].
  - assert (q = Ok tt) as -> by (apply Q; reflexivity). apply IH. intros k.
    destruct o as [m v|a b v|vs|f x ns|ns]; cbn [lower pyop_ok] in *; try (injection L as <-; exact (H k));
      (destruct (resolve v) as [[t y]|] eqn:E; [|discriminate]); injection L as <-; cbn [effect pyeffect].
    + unfold set, pyset. destruct (String.eqb k m); [apply V; auto|apply H].
    + unfold set, pyset. destruct (String.eqb k b); [apply V; auto|]. destruct (String.eqb k a); [reflexivity|apply H].
  - destruct q as [[]|e'|]; [assert (X : @PyExn unit e = PyOk tt) by (apply Q; reflexivity); discriminate|exact (IH d pd H n)..].
  - destruct q as [[]|e'|]; [assert (X : @PyUB unit = PyOk tt) by (apply Q; reflexivity); discriminate|exact (IH d pd H n)..].
Qed.

(** *** Updates *)
Lemma update_accepted s l k n v w t b x : I s l k -> k = List.length (s_atts (s_o s)) -> shown s n = Some (t, w) -> resolve v = Some (t, b) -> (List.length b <= List.length w)%nat ->
  x = pystep (PyUpdate n n v) s -> snd x = PyOk tt.
Proof.
  intros H Hk Sh R Le ->. unfold pystep. cbn [lower]. rewrite R. destruct (update_fits s l k n t b w H Hk Sh Le) as (s' & E). cbn [step]. rewrite E. reflexivity.
Qed.
Lemma update_other_type s l k n v w t t' b : I s l k -> shown s n = Some (t, w) -> resolve v = Some (t', b) -> t' <> t ->
  snd (pystep (PyUpdate n n v) s) = PyExn FileIOError.
Proof.
  intros H Sh R Ne. unfold pystep. cbn [lower step]. rewrite R. cbn [step].
  assert (E : exists s', update_global_attribute n n t' b s = (s', Err FileIOError)).
  { unfold update_global_attribute. rewrite bind_obj. destruct (match s_mode (s_o s) with ORead => true | _ => false end); [eexists; reflexivity|].
    destruct (to_data_spec s l k H) as (s1 & l1 & E1 & H1 & F1 & D1 & S1 & A1 & M1 & C1 & G1). unfold to_data in E1.
    rewrite (bind_ok _ _ _ _ _ E1), bind_obj, <- A1. unfold shown, read_global_attribute in Sh.
    destruct (find (fun m => String.eqb (m_name m) n) (s_atts (s_o s))) as [m|] eqn:Fm; [|discriminate]. injection Sh as Et Ew.
    destruct (find_position _ _ _ Fm) as (i & -> & Hi). rewrite Hi. destruct (negb (m_written m)); [eexists; reflexivity|].
    unfold update_matt. destruct (nctype_eqb (m_type m) t') eqn:Q; [apply nctype_eqb_eq in Q; congruence|]. cbn [negb]. eexists. reflexivity. }
  destruct E as (s' & E). rewrite E. reflexivity.
Qed.
