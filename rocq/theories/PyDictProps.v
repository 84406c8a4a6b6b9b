(** Properties of option dictionaries in Python. *)
From Coq Require Import String.
From Verif Require Import Base RegistryModel LayoutProofs DictModel DictSpec DictProofs DictProofs2 PyCommModel PyDictModel PyDictSpec PyDictProofs.
Local Open Scope Z_scope.
Local Open Scope list_scope.

(** ** C164 *)
(** [d = Dictionary(x)] works for every such dictionary, and every value can be read
    with [d[k]]; dictionaries in it cannot. *)
Theorem C164_dictionary s l : kept_dict (ODict l) -> exists s' a, make_dict s (ODict l) = (s', Ok a) /\
  forall k y, In (Some k, y) l -> (kept y -> get_item s' a k = Ok (comes_back y)) /\ (forall r, y = ODict r -> get_item s' a k = Err RuntimeError).
Proof.
  intros K. destruct (convert_spec s (map (fun e => (fst e, item (snd e))) l) (kept_convertible _ K)) as (s' & a & E & _ & C). exists s', a. split; [exact E|].
  intros k y I. destruct (copy_item s' l a k y C I) as (b & Ch & Cb). unfold get_item, py_getitem. rewrite Ch. cbn [bind]. split.
  - intros Ky. destruct (copy_value s' y b Ky Cb) as (v & N & G). rewrite N. cbn [bind]. now rewrite G.
  - intros r ->. rewrite item_dict in Cb. cbn [holds_copy] in Cb. destruct Cb as (m & N & _). rewrite N. reflexivity.
Qed.
Print Assumptions C164_dictionary.
(** [d.add(k, x); d[k]] for a new key, and [Dictionary(k, x)[k]] *)
Theorem C164_add (s : dstate Z matrix) a key x m : kept x -> node_at s a = Ok (NDict m) -> lookup key m = None ->
  exists s', add_item s a key x = Some (s', Ok tt) /\ get_item s' a key = Ok (comes_back x).
Proof.
  intros K N L. destruct (kept_value x K) as (v & _ & O & G & _). unfold add_item. rewrite O. cbn [option_map].
  pose proof (add_new s a key v m N L) as A. destruct (add_value s a key v) as [s' r]. destruct A as [-> A]. exists s'. split; [reflexivity|]. unfold get_item. rewrite A. cbn [bind]. now rewrite G.
Qed.
Print Assumptions C164_add.
Theorem C164_new s key x : kept x -> exists s' a, new_dict s key x = Some (s', a) /\ get_item s' a key = Ok (comes_back x).
Proof.
  intros K. destruct (kept_value x K) as (v & _ & O & G & _). unfold new_dict. rewrite O. cbn [option_map alloc]. eexists _, _. split; [reflexivity|].
  unfold get_item, py_getitem, child, node_at. cbn [d_heap]. rewrite nth_error_app2 by lia. rewrite Nat.sub_diag. cbn [nth_error bind lookup].
  rewrite String.eqb_refl. cbn [bind]. rewrite <- app_assoc. rewrite nth_error_app2 by lia. rewrite Nat.sub_diag. cbn [nth_error app bind]. now rewrite G.
Qed.
Print Assumptions C164_new.
(** [d[k] = x; d[k]] for a key that is there, unless the entry is the dictionary itself *)
Theorem C164_set (s : dstate Z matrix) v a b key x : kept x -> dreachable s -> addr s v = Ok a -> child s a key = Ok b -> a <> b ->
  snd (set_item s a key x) = Ok tt /\ get_item (fst (set_item s a key x)) a key = Ok (comes_back x).
Proof.
  intros K D A C N. destruct (kept_value x K) as (w & V & _ & G & R). destruct (assign_at_spec s v key w a b D A C N) as (H1 & H2 & H3 & _).
  assert (E : set_item s a key x = dstep s (DAssignAt v key w)).
  { unfold set_item. cbn [dstep]. rewrite A. cbn [bind]. unfold value_of in V. destruct (item x) as [i| | | |]; try discriminate V; injection V as <-; cbn [py_setitem]; try reflexivity.
    now rewrite (proj2 (cast_int_iff i) (R i eq_refl)). }
  rewrite E. split; [exact H1|]. unfold get_item, py_getitem. unfold observe in H3.
  assert (A' : addr (fst (dstep s (DAssignAt v key w))) v = Ok a) by (unfold addr in *; now rewrite H2).
  rewrite A' in H3. cbn [bind walk] in H3. destruct (child (fst (dstep s (DAssignAt v key w))) a key) as [c| |]; try discriminate H3. cbn [bind] in *.
  destruct (node_at (fst (dstep s (DAssignAt v key w))) c) as [[y|y]| |]; try discriminate H3. cbn [bind] in *. injection H3 as ->. now rewrite G.
Qed.
Print Assumptions C164_set.

(** Other arrays with more than one element are refused. *)
Theorem C164_arrays_refused a : (2 <= length (n_entries a))%nat -> n_real a = false \/ n_writeable a = false \/ n_reversed a = true \/ ~ (1 <= length (n_dims a) <= 2)%nat ->
  (forall s b key, add_item s b key (OArray a) = None) /\ (forall s key, new_dict s key (OArray a) = None) /\
  (forall s key, snd (make_dict s (ODict [(Some key, OArray a)])) = Err RuntimeError) /\ (forall s b key, set_item s b key (OArray a) = (s, Err RuntimeError)).
Proof.
  intros L H. assert (M : load_matrix a = None).
  { unfold load_matrix. destruct (n_real a), (n_writeable a), (n_reversed a); try reflexivity. cbn [andb negb]. destruct H as [H|[H|[H|H]]]; try discriminate H.
    destruct (n_dims a) as [|x [|y [|z l]]]; try reflexivity; exfalso; apply H; cbn; lia. }
  assert (O : overload (OArray a) = None).
  { unfold overload. rewrite M. cbn [number_of]. destruct (n_real a); [|reflexivity]. destruct (n_entries a) as [|x [|y l]]; [reflexivity|cbn in L; lia|reflexivity]. }
  unfold add_item, new_dict, make_dict, set_item. rewrite O. cbn [item map fst snd]. rewrite M. repeat split.
Qed.
Print Assumptions C164_arrays_refused.

Local Open Scope string_scope.
Definition grid : narray := mk_narray true [2; 3]%nat [1; 2; 3; 4; 5; 6] true false.
Example C164_case : let x := ODict [(Some "n", OInt (-7)); (Some "flag", OBool true); (Some "sub", ODict [(Some "tol", OFloat 5)]); (Some "m", OArray grid)] in
  let '(s, r) := make_dict empty_state x in r = Ok 0%nat /\
  get_item s 0 "n" = Ok (OInt (-7)) /\ get_item s 0 "flag" = Ok (OInt 1) /\ get_item s 0 "m" = Ok (OArray grid) /\ get_item s 0 "sub" = Err RuntimeError /\
  get_item (fst (set_item s 0 "n" (OArray grid))) 0 "n" = Ok (OArray grid) /\
  match add_item s 0 "t" (OFloat 9) with Some (s1, r) => r = Ok tt /\ get_item s1 0 "t" = Ok (OFloat 9) | None => False end /\
  match add_item s 0 "n" (OFloat 9) with Some (_, r) => r = Err KeyError | None => False end.
Proof. vm_compute. repeat split; reflexivity. Qed.
Local Close Scope string_scope.

(** ** C165: other values *)
(** A vector comes back as a column; large integers are refused in dictionaries, and
    become floats with [add]; [numpy.float32(2.5)] becomes 2 with [add] and is refused
    in dictionaries; integers of numpy are taken by [add] only; arrays that cannot be
    written or have negative strides are refused, and with [add] one of a single element becomes an integer;
    [add] takes no dictionaries. *)
Theorem C165_vectors_refuted s key n e : exists s' a, new_dict s key (OArray (mk_narray true [n] e true false)) = Some (s', a) /\
  get_item s' a key = Ok (OArray (mk_narray true [n; 1]%nat e true false)).
Proof.
  unfold new_dict, overload, load_matrix. cbn [n_real n_writeable n_dims n_entries n_reversed andb negb option_map alloc]. eexists _, _. split; [reflexivity|].
  unfold get_item, py_getitem, child, node_at. cbn [d_heap]. rewrite nth_error_app2 by lia. rewrite Nat.sub_diag. cbn [nth_error bind lookup].
  rewrite String.eqb_refl. cbn [bind]. rewrite <- app_assoc. rewrite nth_error_app2 by lia. rewrite Nat.sub_diag. reflexivity.
Qed.
Print Assumptions C165_vectors_refuted.
Theorem C165_integers_refuted : (forall s a key n, ~ - 2 ^ 31 <= n < 2 ^ 31 -> set_item s a key (OInt n) = (s, Err RuntimeError)) /\
  (forall s k n, ~ - 2 ^ 31 <= n < 2 ^ 31 -> snd (make_dict s (ODict [(Some k, OInt n)])) = Err RuntimeError) /\
  overload (OInt (2 ^ 53 + 1)) = Some (VReal (1076 * 2 ^ 52)) /\ (forall s k n, snd (make_dict s (ODict [(Some k, ONumpyInt n)])) = Err RuntimeError) /\
  (forall n, - 2 ^ 31 <= n < 2 ^ 31 -> overload (ONumpyInt n) = Some (VInt n)).
Proof.
  split; [|split; [|split; [reflexivity|split; [reflexivity|]]]].
  - intros s a key n N. unfold set_item. cbn [item py_setitem]. destruct (cast_int n) eqn:C; [apply cast_int_iff in C; contradiction|reflexivity].
  - intros s k n N. unfold make_dict. rewrite item_dict. apply convert_refused.
    + cbn. repeat constructor. intros [].
    + cbn [map fst snd item convertible]. intros (_ & _ & H & _). contradiction.
  - intros n R. unfold overload. cbn [number_of]. unfold sum_types. rewrite (PyCommProofs.choose_int_first _ _ n); [reflexivity|now left|exact R].
Qed.
Print Assumptions C165_integers_refuted.
Theorem C165_others_refuted : overload (OReal 4612811918334230528) = Some (VInt 2) /\ (forall s k r, snd (make_dict s (ODict [(Some k, OReal r)])) = Err RuntimeError) /\
  (forall s k d e, snd (make_dict s (ODict [(Some k, OArray (mk_narray true d e false false))])) = Err RuntimeError) /\
  (forall s k d e w, snd (make_dict s (ODict [(Some k, OArray (mk_narray true d e w true))])) = Err RuntimeError) /\
  overload (OArray (mk_narray true [1]%nat [4612811918334230528] false false)) = Some (VInt 2) /\ (forall l, overload (ODict l) = None) /\ (forall r i, overload (OComplex r i) = None).
Proof.
  split; [reflexivity|]. split; [reflexivity|]. split; [reflexivity|]. split; [|split; [reflexivity|split; reflexivity]].
  intros s k d e w. unfold make_dict. cbn [item map fst snd load_matrix n_real n_writeable n_reversed andb negb]. destruct w; reflexivity.
Qed.
Print Assumptions C165_others_refuted.
Example C165_case : overload (OArray (mk_narray true [2; 2; 1]%nat [1; 2; 3; 4] true false)) = None /\ overload (OArray (mk_narray true [3]%nat [7; 8; 9] true false)) = Some (VMat (mk_matrix 3 1 [7; 8; 9])) /\
  overload (OInt (2 ^ 40)) = Some (VReal ((1023 + 40) * 2 ^ 52)).
Proof. vm_compute. repeat split; reflexivity. Qed.
