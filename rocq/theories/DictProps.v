(** Properties of option dictionaries (C31) and refuted extensions (C62, C63). *)
From Coq Require Import String.
From Verif Require Import Base RegistryModel RegistryProofs LayoutProofs DictModel DictSpec DictProofs DictProofs2.
Local Open Scope Z_scope.
Local Open Scope list_scope.

(** ** C31: adding *)
Theorem C31_add_existing {R M} (s : dstate R M) v key ks : observe s v [] = Ok (OKeys ks) -> In key ks ->
  (forall x, dstep s (DAdd v key x) = (s, Err KeyError)) /\ (forall w, usable s w -> dstep s (DAddDict v key w) = (s, Err KeyError)).
Proof. intros O I. split; intros; [eapply add_value_existing|eapply add_dict_existing]; eassumption. Qed.
Print Assumptions C31_add_existing.

Theorem C31_add_to_value {R M} (s : dstate R M) v key y : observe s v [] = Ok (OVal y) ->
  (forall x, dstep s (DAdd v key x) = (s, Err ValueError)) /\ (forall w, usable s w -> dstep s (DAddDict v key w) = (s, Err ValueError)).
Proof. intros O. split; [intros x; now apply (add_not_dict s v key x y)|exact (proj2 (add_not_dict s v key y y O))]. Qed.
Print Assumptions C31_add_to_value.

(** A new key: exactly this key appears, with exactly this value; every value
    that could be read before reads the same, and the key list of no other
    dictionary changes. *)
Theorem C31_add_new {R M} (s : dstate R M) v key x ks : dreachable s -> observe s v [] = Ok (OKeys ks) -> ~ In key ks ->
  let s' := fst (dstep s (DAdd v key x)) in
  snd (dstep s (DAdd v key x)) = Ok tt /\ observe s' v [key] = Ok (OVal x) /\
  (exists ks', observe s' v [] = Ok (OKeys ks') /\ Permutation ks' (key :: ks)) /\
  (forall w path y, observe s w path = Ok (OVal y) -> observe s' w path = Ok (OVal y)) /\
  (forall w path ks0, observe s w path = Ok (OKeys ks0) -> observe s' w path = Ok (OKeys ks0) \/ ks0 = ks /\ observe s' w path = observe s' v []).
Proof.
  intros D O I. destruct (add_value_new s v key x ks D O I) as (H1 & H2 & a & b & A & G). cbv zeta. split; [exact H1|]. split; [exact H2|]. eapply gained_observe; eassumption.
Qed.
Print Assumptions C31_add_new.

(** A nested dictionary is shared, not copied. *)
Theorem C31_add_nested {R M} (s : dstate R M) v key w ks : dreachable s -> observe s v [] = Ok (OKeys ks) -> ~ In key ks -> usable s w ->
  let s' := fst (dstep s (DAddDict v key w)) in
  snd (dstep s (DAddDict v key w)) = Ok tt /\ (forall path, observe s' v (key :: path) = observe s' w path) /\
  (exists ks', observe s' v [] = Ok (OKeys ks') /\ Permutation ks' (key :: ks)) /\
  (forall u path y, observe s u path = Ok (OVal y) -> observe s' u path = Ok (OVal y)) /\
  (forall u path ks0, observe s u path = Ok (OKeys ks0) -> observe s' u path = Ok (OKeys ks0) \/ ks0 = ks /\ observe s' u path = observe s' v []).
Proof.
  intros D O I U. destruct (add_dict_new s v key w ks O I U) as (H1 & H2 & a & b & A & G). cbv zeta. split; [exact H1|]. split; [exact H2|]. eapply gained_observe; eassumption.
Qed.
Print Assumptions C31_add_nested.

(** ** C31: types *)
Theorem C31_typed_getters {R M} (s : dstate R M) v t : get_value_type s v = Ok t ->
  (t = TInt -> exists i, get_int s v = Ok i /\ observe s v [] = Ok (OVal (VInt i))) /\ (t <> TInt -> get_int s v = Err ValueError) /\
  (t = TReal -> exists r, get_real s v = Ok r /\ observe s v [] = Ok (OVal (VReal r))) /\ (t <> TReal -> get_real s v = Err ValueError) /\
  (t = TMat -> exists m, get_matrix s v = Ok m /\ observe s v [] = Ok (OVal (VMat m))) /\ (t <> TMat -> get_matrix s v = Err ValueError) /\
  (t = TDict <-> exists ks, observe s v [] = Ok (OKeys ks)).
Proof. apply getters. Qed.
Print Assumptions C31_typed_getters.

(** Python's [d[key]] gives the value of the entry; entries that are
    dictionaries are refused.  What was assigned to an entry is read back. *)
Theorem C31_python_getitem {R M} (s : dstate R M) a v key x : addr s v = Ok a ->
  (py_getitem s a key = Ok x <-> observe s v [key] = Ok (OVal x)) /\
  (forall ks, observe s v [key] = Ok (OKeys ks) -> py_getitem s a key = Err RuntimeError) /\
  (forall e, observe s v [key] = Err e -> py_getitem s a key = Err e).
Proof.
  intros A. unfold py_getitem, observe. rewrite A. cbn [bind walk]. destruct (child s a key) as [b| |]; cbn [bind].
  - destruct (node_at s b) as [[y|m]| |]; cbn [bind]; (split; [split; intros H; try discriminate; injection H as ->; reflexivity|]; split; intros ? H; try discriminate; try reflexivity; now injection H as ->).
  - split; [split; discriminate|]. split; intros ? H; try discriminate. now injection H as ->.
  - split; [split; discriminate|]. split; intros ? H; discriminate.
Qed.
Print Assumptions C31_python_getitem.
Theorem C31_python_setitem {R M} (s : dstate R M) v a b key x : dreachable s -> addr s v = Ok a -> child s a key = Ok b -> a <> b ->
  (forall i, x = VInt i -> (- 2 ^ 31 <= i < 2 ^ 31)%Z) ->
  let p := match x with VInt i => PInt i | VReal r => PReal r | VMat m => PMat m end in
  py_setitem s a key p = dstep s (DAssignAt v key x) /\ snd (py_setitem s a key p) = Ok tt /\
  py_getitem (fst (py_setitem s a key p)) a key = Ok x.
Proof.
  intros D A C N Rg. cbv zeta. assert (E : py_setitem s a key (match x with VInt i => PInt i | VReal r => PReal r | VMat m => PMat m end) = dstep s (DAssignAt v key x)) by (cbn [dstep]; rewrite A; cbn [bind]; destruct x as [i| |]; try reflexivity; cbn [py_setitem]; now rewrite (proj2 (cast_int_iff i) (Rg i eq_refl))).
  rewrite E. split; [reflexivity|]. destruct (assign_at_spec s v key x a b D A C N) as (H1 & H2 & H3 & _). split; [exact H1|].
  assert (A' : addr (fst (dstep s (DAssignAt v key x))) v = Ok a) by (unfold addr in *; now rewrite H2).
  exact (proj2 (proj1 (C31_python_getitem _ a v key x A')) H3).
Qed.
Print Assumptions C31_python_setitem.
Definition demo : list (dop Z Z) :=
  [DNew 0; DAdd 0 "n"%string (VInt 3); DNewWith 1 "tol"%string (VReal 7); DAddDict 0 "solver"%string 1; DCopy 2 1; DAssignAt 2 "tol"%string (VMat 9)].
Example C31_python_case : let s := drun empty_state demo in
  py_getitem s 0 "n"%string = Ok (VInt 3) /\ observe s 0 ["n"%string] = Ok (OVal (VInt 3)) /\
  py_setitem s 0 "n"%string (PReal 7) = dstep s (DAssignAt 0 "n"%string (VReal 7)) /\ py_getitem (fst (py_setitem s 0 "n"%string (PReal 7))) 0 "n"%string = Ok (VReal 7).
Proof. vm_compute. repeat split; reflexivity. Qed.

(** ** C31: assignment *)

(** Assigning a value replaces what the handle's node held, for all handles
    and dictionaries sharing it, and changes nothing that is read on a path
    avoiding this node. *)
Theorem C31_assign {R M} (s : dstate R M) v x a : dreachable s -> addr s v = Ok a ->
  let s' := fst (dstep s (DAssign v x)) in
  snd (dstep s (DAssign v x)) = Ok tt /\ d_vars s' = d_vars s /\ observe s' v [] = Ok (OVal x) /\
  forall w c path, addr s w = Ok c -> ~ In a (visited s c path) -> observe s' w path = observe s w path.
Proof. apply assign_spec. Qed.
Print Assumptions C31_assign.

Theorem C31_assign_missing_key {R M} (s : dstate R M) v key x ks : observe s v [] = Ok (OKeys ks) -> ~ In key ks ->
  dstep s (DAssignAt v key x) = (s, Err OutOfRange).
Proof. apply assign_at_missing. Qed.
Print Assumptions C31_assign_missing_key.

(** ** C31: sharing *)

(** A copied handle sees what the original sees, whatever happens, until one
    of the two is given a new meaning. *)
Theorem C31_copies_observe {R M} (s : dstate R M) v w h path : usable s w -> Forall (fun o => rebinds v o = false /\ rebinds w o = false) h ->
  observe (drun s (DCopy v w :: h)) v path = observe (drun s (DCopy v w :: h)) w path.
Proof.
  intros (a & U) F. apply observe_same_handle. change (drun s (DCopy v w :: h)) with (drun (fst (dstep s (DCopy v w))) h).
  rewrite (drun_vars h _ v), (drun_vars h _ w).
  - cbn [dstep]. rewrite U. cbn. unfold set_var. rewrite Nat.eqb_refl. destruct (Nat.eqb w v); [reflexivity|now rewrite U].
  - eapply Forall_impl; [|exact F]. now intros o [_ H].
  - eapply Forall_impl; [|exact F]. now intros o [H _].
Qed.
Print Assumptions C31_copies_observe.

(** So does a handle to a nested entry, as long as the entry is not replaced
    in its parent; in particular an assignment through it is seen there. *)
Theorem C31_indexed_handle {R M} (s : dstate R M) v w key b : dreachable s -> v <> w -> (let! a := addr s w in child s a key) = Ok b ->
  let s1 := fst (dstep s (DIndex v w key)) in
  snd (dstep s (DIndex v w key)) = Ok tt /\ (forall path, observe s1 v path = observe s w (key :: path)) /\
  (d_vars s w <> At b -> forall x, observe (fst (dstep s1 (DAssign v x))) w [key] = Ok (OVal x)).
Proof.
  intros D N C. cbv zeta. cbn [dstep]. rewrite C. cbn [lift fst snd]. destruct (addr s w) as [a| |] eqn:A; try discriminate. cbn [bind] in C.
  pose proof (dreachable_closed s D) as Cl. split; [reflexivity|]. split.
  - intros path. unfold observe. replace (addr (bind_var s v (At b)) v) with (@Ok nat b) by (unfold addr; cbn; unfold set_var; now rewrite Nat.eqb_refl). rewrite A. cbn [bind walk]. rewrite C. cbn [bind].
    replace (walk (bind_var s v (At b)) b path) with (walk s b path); [reflexivity|]. clear. revert b. induction path as [|k r IH]; intros b; [reflexivity|]. cbn.
    replace (child (bind_var s v (At b)) b k) with (child s b k) by reflexivity. generalize (child s b k). intros [c| |]; [|reflexivity|reflexivity]. cbn [bind]. clear IH. revert c.
    induction r as [|k' r IH]; intros c; [reflexivity|]. cbn. generalize (eq_refl : child (bind_var s v (At b)) c k' = child s c k'). intros ->. destruct (child s c k'); [apply IH|reflexivity|reflexivity].
  - intros Ne x. replace (addr (bind_var s v (At b)) v) with (@Ok nat b) by (unfold addr; cbn; unfold set_var; now rewrite Nat.eqb_refl). cbn [bind].
    destruct (node_ok s b (child_bound s a key b Cl C)) as (n & Nb). replace (node_at (bind_var s v (At b)) b) with (node_at s b) by reflexivity. rewrite Nb. cbn [bind lift fst]. unfold assign_value.
    assert (Nab : a <> b) by (intros ->; apply Ne; now apply addr_var).
    unfold observe. replace (addr _ w) with (addr s w). 2:{ unfold addr; cbn; unfold set_var. destruct (Nat.eqb_spec w v); [congruence|reflexivity]. }
    rewrite A. cbn [bind walk]. rewrite child_node, set_node_other by auto. rewrite <- child_node. change (child (bind_var s v (At b)) a key) with (child s a key). rewrite C. cbn [bind].
    rewrite set_node_same by (cbn; eapply child_bound; eassumption). reflexivity.
Qed.
Print Assumptions C31_indexed_handle.

(** ** C31: failures and safety *)
Theorem C31_failures_have_no_effect {R M} (s : dstate R M) o e : snd (dstep s o) = Err e -> fst (dstep s o) = s.
Proof. apply dstep_failed. Qed.
Print Assumptions C31_failures_have_no_effect.

(** Everything is defined unless a moved-from variable is used or a matrix is
    assigned to the node it is read from. *)
Theorem C31_safe {R M} (s : dstate R M) o : dreachable s -> (forall v, In v (reads o) -> usable s v) ->
  snd (dstep s o) = UB -> exists v w m, o = DAssignOf v w /\ d_vars s v = d_vars s w /\ get_matrix s w = Ok m.
Proof. apply dstep_safe. Qed.
Print Assumptions C31_safe.

(** Keys are listed once, and every entry of a reachable dictionary can be read. *)
Theorem C31_keys_unique {R M} (s : dstate R M) v path ks : dreachable s -> observe s v path = Ok (OKeys ks) ->
  NoDup ks /\ (forall k, In k ks <-> is_ok (observe s v (path ++ [k])) = true).
Proof.
  intros D H. apply dreachable_closed in D. unfold observe in *. destruct (addr s v) as [a| |] eqn:A; try discriminate. cbn [bind] in *.
  destruct (walk s a path) as [b| |] eqn:W; try discriminate. cbn [bind] in H. destruct (node_at s b) as [[x|m]| |] eqn:N; try discriminate. cbn [bind] in H. apply Ok_inj in H. injection H as <-.
  split; [apply ordered_NoDup; destruct D as (_ & _ & O); eauto|]. intros k. rewrite keys_in.
  assert (W2 : forall p c d, walk s c p = Ok d -> walk s c (p ++ [k]) = child s d k).
  { induction p as [|k0 p IH]; intros c d Hw; cbn in *; [apply Ok_inj in Hw; subst; now destruct (child s d k)|]. destruct (child s c k0) as [e| |]; try discriminate. cbn [bind] in *. now apply IH. }
  rewrite (W2 _ _ _ W), child_node, N. destruct (lookup k m) as [c|] eqn:L; cbn [bind is_ok]; [|split; congruence].
  destruct D as (_ & C & _). destruct (node_ok s c (C _ _ _ _ N L)) as (n & ->). cbn [bind]. split; [reflexivity|discriminate].
Qed.
Print Assumptions C31_keys_unique.

(** ** C31: conversion from Python *)

(** The new dictionary holds a copy of every nested value under the same keys
    and no other keys; what existed is not touched. *)
Theorem C31_convert {R M} (s : dstate R M) l : convertible (PDict l) ->
  exists s' a, convert s (PDict l) = (s', Ok a) /\ holds_copy s' (PDict l) a.
Proof. intros H. destruct (convert_spec s l H) as (s' & a & E & _ & K). eauto. Qed.
Print Assumptions C31_convert.
(** All others are refused: keys that are not strings, integers of more than 32 bits,
    other values, at any depth. *)
Theorem C31_convert_refused {R M} (s : dstate R M) l : once (PDict l) -> ~ convertible (PDict l) -> snd (convert s (PDict l)) = Err RuntimeError.
Proof. apply convert_refused. Qed.
Print Assumptions C31_convert_refused.
Theorem C31_python_setitem_refused {R M} (s : dstate R M) a key i : ~ (- 2 ^ 31 <= i < 2 ^ 31)%Z -> py_setitem s a key (PInt i) = (s, Err RuntimeError).
Proof. intros N. cbn [py_setitem]. destruct (cast_int i) eqn:C; [apply cast_int_iff in C; contradiction|reflexivity]. Qed.
Print Assumptions C31_python_setitem_refused.
Theorem C31_convert_keeps {R M} (s : dstate R M) x w path : dreachable s -> observe (fst (convert s x)) w path = observe s w path.
Proof. intros D. apply extends_observe; [exact D|]. apply convert_extends. Qed.
Print Assumptions C31_convert_keeps.

Local Open Scope string_scope.
Example C31_case : let s := drun empty_state demo in
  observe s 0 [] = Ok (OKeys ["n"; "solver"]) /\ observe s 0 ["solver"; "tol"] = Ok (OVal (VMat 9)) /\ observe s 1 ["tol"] = Ok (OVal (VMat 9)) /\
  snd (dstep s (DAdd 0 "n" (VInt 4))) = Err KeyError /\ get_int s 0 = Err ValueError /\ snd (dstep s (DAssignAt 0 "m" (VInt 4))) = Err OutOfRange /\
  get_value_type s 0 = Ok TDict.
Proof. vm_compute. repeat split; reflexivity. Qed.
Example C31_convert_case : let '(s, o) := convert (@empty_state Z Z) (PDict [(Some "a", PInt 1); (Some "b", PDict [(Some "c", PMat 5); (Some "a", PReal 2)])]) in
  o = Ok 0%nat /\ py_getitem s 0 "a" = Ok (VInt 1) /\ (let! b := child s 0 "b" in py_getitem s b "c") = Ok (VMat 5) /\
  (let! b := child s 0 "b" in py_getitem s b "a") = Ok (VReal 2) /\ py_getitem s 0 "c" = Err OutOfRange /\
  snd (convert s (PDict [(Some "a", POther)])) = Err RuntimeError /\ snd (convert s (PDict [(None, PInt 1)])) = Err RuntimeError /\
  snd (convert s (PDict [(Some "d", PDict [(Some "e", PInt 2147483648)])])) = Err RuntimeError.
Proof. vm_compute. repeat split; reflexivity. Qed.

(** ** C62: assignment to entries *)

(** Values are stored. *)
Theorem C62_assign_value_partial {R M} (s : dstate R M) v key x a b : dreachable s -> addr s v = Ok a -> child s a key = Ok b -> a <> b ->
  let s' := fst (dstep s (DAssignAt v key x)) in
  snd (dstep s (DAssignAt v key x)) = Ok tt /\ d_vars s' = d_vars s /\ observe s' v [key] = Ok (OVal x) /\
  forall w c path, addr s w = Ok c -> ~ In b (visited s c path) -> observe s' w path = observe s w path.
Proof. apply assign_at_spec. Qed.
Print Assumptions C62_assign_value_partial.

(** A dictionary assigned to an entry is silently lost, from C++ and from Python. *)
Theorem C62_assign_dictionary_refuted {R M} (s : dstate R M) v key w : fst (dstep s (DAssignDictAt v key w)) = s.
Proof. cbn [dstep]. unfold lift. now destruct (let! a := addr s v in let! b := addr s w in child s a key). Qed.
Print Assumptions C62_assign_dictionary_refuted.
Theorem C62_setitem_dictionary_refuted {R M} (s : dstate R M) a key l w path : dreachable s ->
  observe (fst (py_setitem s a key (PDict l))) w path = observe s w path.
Proof. intros D. apply extends_observe; [exact D|]. apply setitem_dict_lost. Qed.
Print Assumptions C62_setitem_dictionary_refuted.
(** An entry containing its own dictionary cannot be assigned without losing
    the dictionary, which is the reason for [a <> b] above. *)
Example C62_case : let s := drun empty_state demo in
  snd (dstep s (DAssignDictAt 0 "n" 1)) = Ok tt /\ observe (fst (dstep s (DAssignDictAt 0 "n" 1))) 0 ["n"] = Ok (OVal (VInt 3)) /\
  snd (py_setitem s 0 "x" (PDict [])) = Err OutOfRange /\ snd (py_setitem s 0 "n" (PDict [(Some "k", PInt 2)])) = Ok tt /\
  py_getitem (fst (py_setitem s 0 "n" (PDict [(Some "k", PInt 2)]))) 0 "n" = Ok (VInt 3) /\
  py_getitem (fst (py_setitem s 0 "n" (PInt 5))) 0 "n" = Ok (VInt 5) /\
  let s2 := drun s [DAddDict 0 "self" 0; DAssignAt 0 "self" (VInt 1)] in observe s2 0 [] = Ok (OVal (VInt 1)).
Proof. vm_compute. repeat split; reflexivity. Qed.

(** ** C63: self-assignment and RuntimeValue assignment *)
Theorem C63_matrix_self_assignment_refuted {R M} (s : dstate R M) v m : get_matrix s v = Ok m -> snd (dstep s (DAssignOf v v)) = UB.
Proof.
  unfold get_matrix, get_with. cbn [dstep]. destruct (addr s v) as [a| |]; try discriminate. cbn [bind]. destruct (node_at s a) as [n| |]; try discriminate. cbn [bind lift fst snd].
  intros H. destruct n as [[]|]; try discriminate. now rewrite Nat.eqb_refl.
Qed.
Print Assumptions C63_matrix_self_assignment_refuted.
Theorem C63_runtime_value_refuted {R M} (dst : node R M) m l : rv_assign dst (NVal (VMat m)) = UB /\ rv_assign dst (NDict l) = UB /\ rv_assign_map dst l = UB.
Proof. repeat split. Qed.
Print Assumptions C63_runtime_value_refuted.
Theorem C63_runtime_value_partial {R M} (dst : node R M) i r : rv_assign dst (NVal (VInt i)) = Ok (NVal (VInt i)) /\ rv_assign dst (NVal (VReal r)) = Ok (NVal (VReal r)).
Proof. split; reflexivity. Qed.
Print Assumptions C63_runtime_value_partial.
(** Between different nodes the value is copied; so are integers and reals in
    any case. *)
Theorem C63_assign_of_partial {R M} (s : dstate R M) v w a b x : addr s v = Ok a -> addr s w = Ok b -> node_at s b = Ok (NVal x) ->
  is_ok (node_at s a) = true -> (a <> b \/ type_of (NVal x) <> TMat) -> snd (dstep s (DAssignOf v w)) = Ok tt /\ node_at (fst (dstep s (DAssignOf v w))) a = Ok (NVal x).
Proof.
  intros A B N K D. destruct (node_at s a) as [n| |] eqn:Na; try discriminate. pose proof (node_bound _ _ _ Na) as Ba. cbn [dstep]. rewrite A, B. cbn [bind]. rewrite Na, N. cbn [bind lift fst snd]. unfold assign_value.
  destruct x as [i|r|m]; cbn [type_of] in D.
  - split; [reflexivity|]. cbn [fst]. now apply set_node_same.
  - split; [reflexivity|]. cbn [fst]. now apply set_node_same.
  - destruct (Nat.eqb_spec a b) as [->|Ne]; [destruct D as [D|D]; congruence|]. split; [reflexivity|]. cbn [fst]. now apply set_node_same.
Qed.
Print Assumptions C63_assign_of_partial.
Example C63_case : let s := drun empty_state (demo ++ [DIndex 3 1 "tol"; DIndex 4 0 "n"]) in
  get_matrix s 3 = Ok 9 /\ snd (dstep s (DAssignOf 3 3)) = UB /\ snd (dstep s (DAssignOf 4 4)) = Ok tt /\
  observe (fst (dstep s (DAssignOf 4 3))) 0 ["n"] = Ok (OVal (VMat 9)).
Proof. vm_compute. repeat split; reflexivity. Qed.
