(** Theorems about attributes in Python programs (properties C134 to C137), each
    with a concrete case beside it. *)
From Coq Require Import String.
From Verif Require Import Base AttModel AttSpec LayoutProofs AttProofs AttProofs2 AttProofs3 AttProofs4 AttProofs5 AttProofs12 PyAttModel PyAttSpec PyAttProofs PyAttProofs2 PyAttProofs3 PyAttProofs4.
Local Open Scope string_scope.
Local Open Scope Z_scope.
Local Open Scope list_scope.

(** *** Concrete programs for the examples *)
Definition date1 : bytes := repeat 48 18.
Definition time1 : bytes := repeat 48 16.
Definition begin (m : omode) (disk : option content) : st :=
  match fst (open m [] [] [] [] date1 time1 disk) with Ok s => s | _ => mk_st (mk_session m MUndefined false false [] []) None None end.
Lemma begin_opened m disk : match fst (open m [] [] [] [] date1 time1 disk) with Ok _ => True | _ => False end -> opened m disk (begin m disk).
Proof.
  unfold begin, opened. intros H. destruct (open m [] [] [] [] date1 time1 disk) as [[s|e|] d] eqn:E; cbn [fst] in *; try contradiction.
  exists [], [], [], [], date1, time1, d. split; [split; reflexivity|exact E].
Qed.
Fixpoint pyperform (s : st) (os : list pyop) : list (pyop * pyout unit) * st :=
  match os with
  | [] => ([], s)
  | o :: r => let (h, s') := pyperform (fst (pystep o s)) r in ((o, snd (pystep o s)) :: h, s')
  end.
Lemma pyperform_runs P os : Forall (fun o => pyop_ok P o /\ match o with PyUpdate a b _ => b = a | _ => True end) os -> forall s, pyruns P s (fst (pyperform s os)) (snd (pyperform s os)).
Proof.
  induction 1 as [|o os [P1 P2] _ IH]; intros s; cbn [pyperform]; [constructor|]. specialize (IH (fst (pystep o s))). destruct (pyperform (fst (pystep o s)) os) as [h s']. cbn [fst snd] in *.
  econstructor; [exact P1| | |exact IH]; [destruct o; cbn; auto|destruct (pystep o s); reflexivity].
Qed.
Definition half : Z := 1022 * 2 ^ 52.
(** A string, a list of integers that needs 64 bits, and a list of an integer and
    a float; then a field is written and one attribute updated. *)
Definition script : list pyop :=
  [PyWrite "who" (PStr [195; 169; 97]); PyWrite "ids" (PList [PInt (-1); PInt (2 ^ 40); PBool true]); PyWrite "mix" (PList [PInt 3; PFloat half]);
   PyRegister [("T", [75])]; PySave 0 5 ["T"]; PyUpdate "mix" "mix" (PList [PFloat half; PInt (- 2 ^ 53)]); PyWrite "late" (PList [])].
Lemma small_mix l : Forall (fun e => e <> POther /\ match e with PFloat x => 0 <= x < 2 ^ 64 | _ => True end /\ forall n, integer e = Some n -> Z.abs n <= 2 ^ 53) l -> faithful (PList l).
Proof.
  intros H. split; [eapply Forall_impl; [|exact H]; intros e (_ & X & _); exact X|]. right. split; (eapply Forall_impl; [|exact H]); intros e (A & _ & B); [exact A|].
  intros n E. apply representable_small, B, E.
Qed.
Ltac small := apply small_mix; repeat (apply Forall_cons; [split; [discriminate|split; [first [exact Logic.I|vm_compute; split; [discriminate|reflexivity]]|intros ? E; vm_compute in E; try discriminate; injection E as <-; vm_compute; discriminate]]|]); apply Forall_nil.
Lemma script_ok : Forall (fun o => pyop_ok faithful o /\ match o with PyUpdate a b _ => b = a | _ => True end) script.
Proof.
  unfold script. repeat (apply Forall_cons; [split; [|try exact Logic.I; try reflexivity]|]); [..|apply Forall_nil]; cbn [pyop_ok]; try exact Logic.I.
  - split; [reflexivity|exact Logic.I].
  - split; [repeat constructor|]. left. apply Forall_cons; [exists (-1); split; [reflexivity|lia]|]. apply Forall_cons; [exists (2 ^ 40); split; [reflexivity|lia]|]. apply Forall_cons; [exists 1; split; [reflexivity|lia]|]. apply Forall_nil.
  - small.
  - small.
  - small.
Qed.
Definition pyclosed (s : st) : option content := s_disk (fst (close date1 time1 s)).
Definition reread (n : string) (disk : option content) : pyout pyval := py_read_global_attribute n (begin ORead disk).

(** ** C134 *)
Theorem C134_new_file m disk s0 h s1 date time s2 : writes m = true -> opened m disk s0 -> pyruns faithful s0 h s1 -> close date time s1 = (s2, Ok tt) ->
  (List.length (read_global_attribute_names s1) <= 30)%nat ->
  exists c, s_disk s2 = Some c /\ forall i a d b e t, exists s3, open ORead i a d b e t (Some c) = (Ok s3, Some c) /\
    read_global_attribute_names s3 = read_global_attribute_names s1 /\ forall n, ~ In n stamps -> agrees (py_read_global_attribute n s3) (pyafter h (pyshown s0) n).
Proof.
  intros W O R C L. destruct (opened_new m disk s0 W O) as (l & H & _).
  destruct (session_atts s0 l 0 (low h) s1 date time s2 H (pyruns_tidy _ _ _ (pyruns_mono _ _ _ _ _ (fun v F => proj1 F) R)) C L) as (c & D & _ & X).
  exists c. split; [exact D|]. intros i a d b e t. destruct (X i a d b e t) as (s3 & E & N & Sh). exists s3. split; [exact E|]. split; [exact N|].
  intros n Hn. change (py_read_global_attribute n s3) with (pyshown s3 n). rewrite pyshown_dec, (Sh n Hn). apply (after_agrees s0 h s1 R). intros k. rewrite pyshown_dec. apply agrees_refl.
Qed.
Print Assumptions C134_new_file.
Theorem C134_appended c0 s0 h s1 date time s2 : readable c0 -> (List.length (c_gatts c0) <= 30)%nat -> opened OAppend (Some c0) s0 -> pyruns faithful s0 h s1 -> close date time s1 = (s2, Ok tt) ->
  (List.length (read_global_attribute_names s1) <= 30)%nat ->
  exists c, s_disk s2 = Some c /\ forall i a d b e t, exists s3, open ORead i a d b e t (Some c) = (Ok s3, Some c) /\
    read_global_attribute_names s3 = read_global_attribute_names s1 /\ forall n, ~ In n stamps -> agrees (py_read_global_attribute n s3) (pyafter h (pystored c0) n).
Proof.
  intros Rd L0 O R C L. destruct (opened_append c0 s0 Rd L0 O) as (l & H & _ & A & _).
  destruct (session_atts s0 l _ (low h) s1 date time s2 H (pyruns_tidy _ _ _ (pyruns_mono _ _ _ _ _ (fun v F => proj1 F) R)) C L) as (c & D & _ & X).
  exists c. split; [exact D|]. intros i a d b e t. destruct (X i a d b e t) as (s3 & E & N & Sh). exists s3. split; [exact E|]. split; [exact N|].
  intros n Hn. change (py_read_global_attribute n s3) with (pyshown s3 n). rewrite pyshown_dec, (Sh n Hn). apply (after_agrees s0 h s1 R). intros k. rewrite pystored_dec, shown_seen, A. apply agrees_refl.
Qed.
Print Assumptions C134_appended.
Example C134_case : let s0 := begin OWrite None in let h := fst (pyperform s0 script) in let s1 := snd (pyperform s0 script) in
  opened OWrite None s0 /\ pyruns faithful s0 h s1 /\ snd (close date1 time1 s1) = Ok tt /\
  map snd h = [PyOk tt; PyOk tt; PyOk tt; PyOk tt; PyOk tt; PyOk tt; PyExn FileIOError] /\ List.length (read_global_attribute_names s1) = 11%nat /\
  reread "who" (pyclosed s1) = PyOk (PStr [195; 169; 97]) /\ reread "ids" (pyclosed s1) = PyOk (PList [PInt (-1); PInt (2 ^ 40); PInt 1]) /\
  reread "mix" (pyclosed s1) = PyOk (PList [PFloat half; PFloat (2 ^ 63 + 1076 * 2 ^ 52)]) /\ reread "late" (pyclosed s1) = PyExn FileIOError /\
  pyafter h (pyshown s0) "mix" = PyOk (PList [PFloat half; PInt (- 2 ^ 53)]) /\ same (PList [PFloat half; PFloat (2 ^ 63 + 1076 * 2 ^ 52)]) (PList [PFloat half; PInt (- 2 ^ 53)]).
Proof.
  cbn zeta. split; [apply begin_opened; exact Logic.I|]. split; [apply pyperform_runs, script_ok|]. split; [vm_compute; reflexivity|]. split; [vm_compute; reflexivity|]. split; [vm_compute; reflexivity|].
  split; [vm_compute; reflexivity|]. split; [vm_compute; reflexivity|]. split; [vm_compute; reflexivity|]. split; [vm_compute; reflexivity|]. split; [vm_compute; reflexivity|].
  constructor; [left; reflexivity|]. constructor; [|constructor]. right. eexists. split; [vm_compute; reflexivity|]. vm_compute. reflexivity.
Qed.
(** Such values are accepted until the first values of fields are written. *)
Theorem C134_accepted m disk s0 h s1 n v : writes m = true -> opened m disk s0 -> pyruns wf s0 h s1 -> Forall (fun p => match fst p with PyWrite _ _ => True | _ => False end) h ->
  faithful v -> ~ In n (read_global_attribute_names s1) -> exists s2, pystep (PyWrite n v) s1 = (s2, PyOk tt).
Proof. exact (new_accepted m disk s0 h s1 n v). Qed.
Print Assumptions C134_accepted.
Example C134_accepted_case : snd (pystep (PyWrite "x" (PList [PInt 3; PFloat half])) (snd (pyperform (begin OOverwrite (Some nothing)) (firstn 3 script)))) = PyOk tt /\
  snd (pystep (PyWrite "x" (PList [PInt 3; POther])) (begin OWrite None)) = PyType /\ snd (pystep (PyWrite "x" (PList [PInt (2 ^ 1024)])) (begin OWrite None)) = PyType.
Proof. vm_compute. auto. Qed.
(** The type of the attribute depends on the values only. *)
Theorem C134_type v s n : wf v -> (forall t b, lower (PyWrite n v) = Some (WriteAtt n t b) -> stored_as v t /\ List.length b = (size v * tsize t)%nat) /\
  (faithful v -> exists t b, lower (PyWrite n v) = Some (WriteAtt n t b)) /\ (lower (PyWrite n v) = None -> pystep (PyWrite n v) s = (s, PyType)).
Proof.
  intros W. cbn [lower]. split; [|split].
  - intros t b E. destruct (resolve v) as [[t' b']|] eqn:R; [|discriminate]. injection E as -> ->. destruct (resolve_spec v t b W R) as (S & _ & L & _). auto.
  - intros F. destruct (resolve_faithful v F) as (t & b & E). exists t, b. rewrite E. reflexivity.
  - intros E. unfold pystep. cbn [lower]. rewrite E. reflexivity.
Qed.
Print Assumptions C134_type.
Example C134_type_case : lower (PyWrite "a" (PList [PInt 1; PInt (2 ^ 31)])) = Some (WriteAtt "a" TUInt [1; 0; 0; 0; 0; 0; 0; 128]) /\
  lower (PyWrite "a" (PList [PInt (-1)])) = Some (WriteAtt "a" TInt [255; 255; 255; 255]) /\
  lower (PyWrite "a" (PList [PInt (-1); PInt (2 ^ 31)])) = Some (WriteAtt "a" TInt64 [255; 255; 255; 255; 255; 255; 255; 255; 0; 0; 0; 128; 0; 0; 0; 0]) /\
  lower (PyWrite "a" (PList [PFloat half; PInt 1])) = Some (WriteAtt "a" TDouble [0; 0; 0; 0; 0; 0; 224; 63; 0; 0; 0; 0; 0; 0; 240; 63]).
Proof. vm_compute. auto. Qed.
(** The dictionary of all attributes has what reading them one by one gives. *)
Theorem C134_dictionary s : (forall n, In n (read_global_attribute_names s) -> exists v, py_read_global_attribute n s = PyOk v) ->
  exists d, py_read_global_attributes s = PyOk d /\ map fst d = read_global_attribute_names s /\ forall n v, In (n, v) d -> py_read_global_attribute n s = PyOk v.
Proof.
  unfold py_read_global_attributes. induction (read_global_attribute_names s) as [|n ns IH]; intros H; cbn [collect].
  - exists []. repeat split. intros n v [].
  - destruct (H n (or_introl eq_refl)) as (v & E). rewrite E. destruct IH as (d & D & N & X); [intros k Hk; apply H; right; exact Hk|]. rewrite D.
    exists ((n, v) :: d). split; [reflexivity|]. split; [cbn [map fst]; rewrite N; reflexivity|]. intros k w [Q|Q]; [injection Q as <- <-; exact E|exact (X k w Q)].
Qed.
Print Assumptions C134_dictionary.
Example C134_dictionary_case : match py_read_global_attributes (begin ORead (pyclosed (snd (pyperform (begin OWrite None) script)))) with
  | PyOk d => map fst (skipn 8 d) = ["who"; "ids"; "mix"] /\ map snd (firstn 1 (skipn 8 d)) = [PStr [195; 169; 97]] | _ => False end.
Proof. vm_compute. auto. Qed.

(** ** C135 *)
(** Reading back gives an equal value exactly for faithful values. *)
Theorem C135_iff_partial m disk s0 n v s1 date time s2 : writes m = true -> opened m disk s0 -> wf v -> pystep (PyWrite n v) s0 = (s1, PyOk tt) -> close date time s1 = (s2, Ok tt) -> ~ In n stamps ->
  exists c, s_disk s2 = Some c /\ forall i a d b e t, exists s3, open ORead i a d b e t (Some c) = (Ok s3, Some c) /\
    exists w, py_read_global_attribute n s3 = PyOk w /\ size w = size v /\ (same w v <-> faithful v).
Proof.
  intros W O V E C Hn. destruct (opened_new m disk s0 W O) as (l & H & _).
  assert (R : pyruns wf s0 [(PyWrite n v, PyOk tt)] s1) by (econstructor; [exact V|exact Logic.I|exact E|constructor]).
  assert (L : (List.length (read_global_attribute_names s1) <= 30)%nat).
  { assert (L0 : List.length (read_global_attribute_names s0) = 8%nat). { destruct O as (i & a & d & b & e & t & x & _ & Eo). unfold open in Eo. destruct m; try discriminate; [destruct disk; [discriminate|]|]; injection Eo as <- _; reflexivity. }
    unfold pystep in E. cbn [lower] in E. destruct (resolve v) as [[t b]|]; [|discriminate]. cbn [step] in E. unfold write_global_attribute, add_attribute in E. rewrite bind_obj in E.
    destruct (s_gdef (s_o s0)); [discriminate|]. destruct (negb _); [discriminate|]. rewrite bind_obj in E. destruct (has_att n _); [discriminate|]. injection E as <-.
    unfold read_global_attribute_names in *. cbn [fst s_o s_atts]. unfold set_atts, upd_obj. cbn [fst s_o s_atts]. rewrite map_app, app_length, L0. cbn. lia. }
  destruct (session_atts s0 l 0 _ s1 date time s2 H (pyruns_tidy _ _ _ R) C L) as (c & D & _ & X).
  exists c. split; [exact D|]. intros i a d b e t. destruct (X i a d b e t) as (s3 & E3 & N & Sh). exists s3. split; [exact E3|].
  change (py_read_global_attribute n s3) with (pyshown s3 n). rewrite pyshown_dec, (Sh n Hn).
  unfold pystep in E. cbn [lower] in E. destruct (resolve v) as [[ty y]|] eqn:Rs; [|discriminate].
  unfold low, low1. cbn [flat_map fst snd lower]. rewrite Rs. cbn [app after effect]. unfold set. rewrite String.eqb_refl. cbn [dec].
  destruct (resolve_spec v ty y V Rs) as (_ & _ & _ & w & Dw & Sz & Sm). exists w. auto.
Qed.
Print Assumptions C135_iff_partial.
(** Integers up to 2^53 have the value of a float. *)
Theorem C135_small_partial l : Forall (fun e => e <> POther /\ match e with PFloat x => 0 <= x < 2 ^ 64 | _ => True end /\ forall n, integer e = Some n -> Z.abs n <= 2 ^ 53) l -> faithful (PList l).
Proof. exact (small_mix l). Qed.
Print Assumptions C135_small_partial.
Example C135_case : faithful (PList [PFloat half; PInt (- 2 ^ 53); PBool true]).
Proof. small. Qed.
(** Integers beyond 64 bits, and large integers beside a float, are accepted and
    rounded. *)
Theorem C135_rounded_refuted : exists s0, opened OWrite None s0 /\
  (forall v, In v [PList [PInt (2 ^ 63 + 1)]; PList [PInt (2 ^ 53 + 1); PFloat half]] -> wf v /\ exists s1 s2 c w, pystep (PyWrite "n" v) s0 = (s1, PyOk tt) /\ close date1 time1 s1 = (s2, Ok tt) /\
     s_disk s2 = Some c /\ reread "n" (Some c) = PyOk w /\ ~ same w v).
Proof.
  exists (begin OWrite None). split; [apply begin_opened; exact Logic.I|]. intros v Hv.
  assert (X : forall (w v : pyval), match w, v with PList (PFloat x :: _), PList (PInt n :: _) => match number (PFloat x) with Some y => y <> n * 2 ^ 1074 | None => False end | _, _ => False end -> ~ same w v).
  { intros w u. destruct w as [|[|[|b|x|] l]]; try contradiction. destruct u as [|[|[n|b|y|] r]]; try contradiction. intros Hx S. cbn [same] in S. inversion S as [|? ? ? ? S1 _]; subst.
    destruct S1 as [S1|(z & A & B)]; [discriminate|]. rewrite A in Hx. apply Hx. injection B as <-. reflexivity. }
  destruct Hv as [<-|[<-|[]]]; (split; [repeat constructor; discriminate|]).
  - eexists _, _, _, _. split; [vm_compute; reflexivity|]. split; [vm_compute; reflexivity|]. split; [vm_compute; reflexivity|]. split; [vm_compute; reflexivity|]. apply X. vm_compute. discriminate.
  - eexists _, _, _, _. split; [vm_compute; reflexivity|]. split; [vm_compute; reflexivity|]. split; [vm_compute; reflexivity|]. split; [vm_compute; reflexivity|]. apply X. vm_compute. discriminate.
Qed.
Print Assumptions C135_rounded_refuted.

(** ** C136 *)
(** An attribute in the file can be updated with a value of the same type that is
    not longer; another type is refused. *)
Theorem C136_same_type_partial m disk s0 h s1 n t w v : (writes m = true /\ Exists (fun p => match fst p with PySave _ _ _ => snd p = PyOk tt | _ => False end) h \/ m = OAppend /\ exists c, disk = Some c /\ readable c /\ (List.length (c_gatts c) <= 30)%nat) ->
  opened m disk s0 -> pyruns wf s0 h s1 -> shown s1 n = Some (t, w) -> faithful v ->
  (stored_as v t -> (size v * tsize t <= List.length w)%nat -> snd (pystep (PyUpdate n n v) s1) = PyOk tt) /\
  (~ stored_as v t -> snd (pystep (PyUpdate n n v) s1) = PyExn FileIOError).
Proof.
  intros Hm O R Sh F. destruct (resolve_faithful v F) as (t' & b & E). destruct (resolve_spec v t' b (proj1 F) E) as (St & _ & Ln & _).
  assert (X : exists l k, I s1 l k /\ k = List.length (s_atts (s_o s1))).
  { destruct Hm as [[W Ex]|(-> & c & -> & Rd & L)].
    - destruct (opened_new m disk s0 W O) as (l & H & Mo & _). destruct (runs_spec _ _ _ (pyruns_tidy _ _ _ R) l 0%nat H) as (l1 & k1 & H1 & _). exists l1, k1. split; [exact H1|].
      apply (I_def _ _ _ H1). apply (saved s0 h s1 R l 0%nat H); [congruence|exact Ex].
    - destruct (opened_append c s0 Rd L O) as (l & H & Mo & _). destruct (runs_spec _ _ _ (pyruns_tidy _ _ _ R) l _ H) as (l1 & k1 & H1 & M1 & _). exists l1, k1. split; [exact H1|].
      apply (I_app _ _ _ H1). congruence. }
  destruct X as (l & k & H & Hk). split.
  - intros St' Le. assert (t' = t).
    { destruct v as [u|ls]; [cbn in St, St'; congruence|].
      assert (M1 : forall l0, ints_in (- 2 ^ 31) (2 ^ 31 - 1) l0 -> ints_in (- 2 ^ 63) (2 ^ 63 - 1) l0) by (intros; eapply ints_in_mono; [| |eassumption]; lia).
      assert (M2 : forall l0, ints_in 0 (2 ^ 32 - 1) l0 -> ints_in (- 2 ^ 63) (2 ^ 63 - 1) l0) by (intros; eapply ints_in_mono; [| |eassumption]; lia).
      specialize (M1 ls). specialize (M2 ls). destruct t, t'; cbn [stored_as] in St, St'; try contradiction; try reflexivity; tauto. }
    subst t'. apply (update_accepted s1 l k n v w t b _ H Hk Sh E); [lia|reflexivity].
  - intros Ns. apply (update_other_type s1 l k n v w t t' b H Sh E). intros ->. contradiction.
Qed.
Print Assumptions C136_same_type_partial.
(** A list of floats cannot be updated with integers, nor small integers with
    large ones. *)
Theorem C136_kind_refuted : exists s0 h s1, opened OWrite None s0 /\ pyruns faithful s0 h s1 /\ Forall (fun p => snd p = PyOk tt) h /\
  pyshown s1 "dt" = PyOk (PList [PFloat half]) /\ snd (pystep (PyUpdate "dt" "dt" (PList [PInt 1])) s1) = PyExn FileIOError /\
  pyshown s1 "n" = PyOk (PList [PInt 7]) /\ snd (pystep (PyUpdate "n" "n" (PList [PInt (2 ^ 31)])) s1) = PyExn FileIOError /\ snd (pystep (PyUpdate "n" "n" (PList [PInt 8])) s1) = PyOk tt.
Proof.
  set (os := [PyWrite "dt" (PList [PFloat half]); PyWrite "n" (PList [PInt 7]); PyRegister []; PySave 0 0 []]). exists (begin OWrite None), (fst (pyperform (begin OWrite None) os)), (snd (pyperform (begin OWrite None) os)).
  split; [apply begin_opened; exact Logic.I|]. split.
  { apply pyperform_runs. unfold os. repeat (apply Forall_cons; [split; [|try exact Logic.I; try reflexivity]|]); [..|apply Forall_nil]; cbn [pyop_ok]; try exact Logic.I; small. }
  split; [vm_compute; repeat (constructor; [reflexivity|]); constructor|]. vm_compute. auto 10.
Qed.
Print Assumptions C136_kind_refuted.

(** ** C137 *)
(** The text of an attribute does not depend on the attribute: it is printed to
    standard output, and the text returned is what can be read from there. *)
Theorem C137_text_refuted show m m' c : supported (m_type m) = true -> supported (m_type m') = true ->
  snd (get_value_as_string show m c) = snd (get_value_as_string show m' c) /\ (k_input c = [] -> snd (get_value_as_string show m c) = Ok []).
Proof. intros S S'. unfold get_value_as_string. rewrite S, S'. cbn [snd]. split; [reflexivity|intros ->; reflexivity]. Qed.
Print Assumptions C137_text_refuted.
Lemma chunks_concat k es : (0 < k)%nat -> Forall (fun e : bytes => List.length e = k) es -> forall f, (List.length (concat es) <= f)%nat -> chunks f k (concat es) = es.
Proof.
  intros K. induction 1 as [|e es E _ IH]; intros f F; [now destruct f|]. cbn [concat] in *. rewrite app_length in F. destruct f as [|f]; [lia|].
  destruct (e ++ concat es) as [|b r] eqn:Q; [destruct e; cbn in *; [lia|discriminate]|]. cbn [chunks]. rewrite <- Q, <- E, firstn_app, skipn_app, Nat.sub_diag, firstn_all, skipn_all.
  cbn [firstn skipn List.app]. rewrite app_nil_r, E, IH by lia. reflexivity.
Qed.
Lemma joined_cons show e es : joined show (e :: es) = show e ++ flat_map (fun x => 44 :: 32 :: show x) es.
Proof. revert e. induction es as [|x es IH]; intros e; [cbn; now rewrite app_nil_r|]. change (joined show (e :: x :: es)) with (show e ++ [44; 32] ++ joined show (x :: es)). rewrite IH. reflexivity. Qed.
(** Printed are the elements in parentheses, with a comma and a blank before each but
    the first; an attribute of another type prints nothing and is refused. *)
Theorem C137_printed show m c e es : List.concat (e :: es) = m_val m -> Forall (fun x => List.length x = tsize (m_type m)) (e :: es) ->
  k_printed (fst (get_value_as_string show m c)) =
  if supported (m_type m) then k_printed c ++ 40 :: show (m_type m) e ++ flat_map (fun x => 44 :: 32 :: show (m_type m) x) es ++ [41] else k_printed c.
Proof.
  intros V F. unfold get_value_as_string. destruct (supported (m_type m)); [|reflexivity]. cbn [fst k_printed]. unfold print_vector.
  rewrite <- V, chunks_concat, joined_cons; [|destruct (m_type m); cbn; lia|exact F|lia]. cbn [List.app]. now rewrite <- app_assoc.
Qed.
Print Assumptions C137_printed.
Theorem C137_refused show m c : supported (m_type m) = false -> get_value_as_string show m c = (c, Err FileIOError).
Proof. intros S. unfold get_value_as_string. now rewrite S. Qed.
Print Assumptions C137_refused.
Example C137_case : get_value_as_string (fun _ b => b) (mk_matt "unit" TChar 2 [107; 103] true true) (mk_console [] []) = (mk_console [40; 107; 44; 32; 103; 41] [], Ok []).
Proof. reflexivity. Qed.
