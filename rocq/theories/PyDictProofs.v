(** Proofs about option dictionaries in Python. *)
From Coq Require Import String.
From Verif Require Import Base RegistryModel RegistryProofs LayoutProofs DictModel DictSpec DictProofs DictProofs2 PyCommModel PyCommSpec PyCommProofs PyDictModel PyDictSpec.
Local Open Scope Z_scope.
Local Open Scope list_scope.

Definition value_of (x : pyobj) : option (dval Z matrix) :=
  match item x with PInt n => Some (VInt n) | PReal r => Some (VReal r) | PMat m => Some (VMat m) | _ => None end.
Lemma kept_matrix a : n_real a = true -> n_writeable a = true -> n_reversed a = false -> length (n_dims a) = 2%nat -> exists m, load_matrix a = Some m /\ given_back (VMat m) = OArray a.
Proof.
  intros R W V D. unfold load_matrix. rewrite R, W, V. cbn [andb negb]. destruct a as [r dims e w v]. cbn [n_dims n_entries n_real n_writeable n_reversed] in *. subst r w v.
  destruct dims as [|x [|y [|? ?]]]; try discriminate D. eexists. split; reflexivity.
Qed.
Lemma kept_value x : kept x -> exists v, value_of x = Some v /\ overload x = Some v /\ given_back v = comes_back x /\ (forall i, v = VInt i -> - 2 ^ 31 <= i < 2 ^ 31).
Proof.
  unfold value_of. destruct x as [n|b|n|r|r|r i|a|l|]; cbn [kept]; try contradiction.
  - intros R. exists (VInt n). split; [reflexivity|]. split; [|split; [reflexivity|intros i [= <-]; exact R]].
    unfold overload. cbn [number_of]. unfold sum_types. rewrite (choose_int_first _ _ n); [reflexivity|now left|exact R].
  - intros _. exists (VInt (Z.b2z b)). split; [reflexivity|]. split; [|split; [now destruct b|intros i [= <-]; destruct b; cbn; lia]].
    unfold overload. cbn [number_of]. unfold sum_types. rewrite (choose_int_first _ _ (Z.b2z b)); [reflexivity| |destruct b; unfold int_range; cbn; lia].
    right. exists b. now destruct b.
  - intros _. exists (VReal r). repeat split; discriminate.
  - intros (R & W & V & D). destruct (kept_matrix a R W V D) as (m & L & G). exists (VMat m). cbn [item]. unfold overload. rewrite L. split; [reflexivity|]. split; [reflexivity|]. split; [exact G|discriminate].
Qed.
Lemma add_new (s : dstate Z matrix) a key v m : node_at s a = Ok (NDict m) -> lookup key m = None ->
  let '(s', r) := add_value s a key v in r = Ok tt /\ py_getitem s' a key = Ok v.
Proof.
  intros N L. destruct (add_value_fresh s a key v m N L) as (s' & E & _ & N' & V & _). rewrite E. split; [reflexivity|].
  unfold py_getitem, child. rewrite N'. cbn [bind]. rewrite lookup_insert_same. cbn [bind]. rewrite V. reflexivity.
Qed.

(** Nested dictionaries *)
Lemma obj_nested (P : pyobj -> Prop) : (forall x, (forall l, x <> ODict l) -> P x) -> (forall l, Forall (fun e => P (snd e)) l -> P (ODict l)) -> forall x, P x.
Proof.
  intros H1 H2. fix IH 1. intros [n|b|n|r|r|r i|a|l|]; try (apply H1; discriminate). apply H2. induction l as [|[k y] l IHl]; constructor; [apply IH|exact IHl].
Qed.
Lemma kept_dict_items l : kept_dict (ODict l) <-> NoDup (map fst l) /\ forall k y, In (k, y) l -> k <> None /\ kept_dict y.
Proof.
  cbn [kept_dict]. split; intros [ND H]; (split; [exact ND|]); clear ND.
  - induction l as [|[k y] l IH]; [intros ? ? []|]. destruct H as (H1 & H2 & H3). intros k' y' [[= <- <-]|I]; [auto|]. now apply IH.
  - induction l as [|[k y] l IH]; [exact I|]. split; [now apply (H k y (or_introl eq_refl))|]. split; [now apply (H k y (or_introl eq_refl))|]. apply IH. intros k' y' I. apply H. now right.
Qed.
Lemma item_dict l : item (ODict l) = PDict (map (fun e => (fst e, item (snd e))) l).
Proof. reflexivity. Qed.
Lemma item_keys l : map fst (map (fun e : option string * pyobj => (fst e, item (snd e))) l) = map fst l.
Proof. rewrite map_map. apply map_ext. reflexivity. Qed.
Lemma kept_convertible x : kept_dict x -> convertible (item x).
Proof.
  induction x as [x N|l IH] using obj_nested.
  - intros K. assert (Kx : kept x) by (destruct x; try exact K; now destruct (N l)). clear K N. destruct x; cbn [kept] in Kx; try contradiction; cbn [item convertible]; auto.
    + destruct b; cbn; lia.
    + destruct Kx as (R & W & V & D). destruct (kept_matrix a R W V D) as (m & -> & _). exact I.
  - intros K. apply kept_dict_items in K as [ND K]. rewrite item_dict. apply convertible_dict. rewrite item_keys. split; [exact ND|].
    intros k y I. apply in_map_iff in I as ([k' y'] & E & I). cbn [fst snd] in E. injection E as <- <-. destruct (K k' y' I) as [K1 K2]. split; [exact K1|].
    rewrite Forall_forall in IH. exact (IH _ I K2).
Qed.
(** What the entries of a converted dictionary hold. *)
Lemma copy_item (s : dstate Z matrix) l a k y : holds_copy s (item (ODict l)) a -> In (Some k, y) l ->
  exists b, child s a k = Ok b /\ holds_copy s (item y) b.
Proof.
  rewrite item_dict. cbn [holds_copy]. intros (m & N & _ & C) I. unfold child. rewrite N. cbn [bind]. clear N.
  induction l as [|[k' y'] l IH]; [destruct I|]. cbn [map fst snd] in C. destruct k' as [k'|]; [|contradiction]. destruct C as [(b & L & Cb) C]. destruct I as [[= <- <-]|I].
  - rewrite L. now exists b.
  - exact (IH C I).
Qed.
Lemma copy_value (s : dstate Z matrix) x b : kept x -> holds_copy s (item x) b -> exists v, node_at s b = Ok (NVal v) /\ given_back v = comes_back x.
Proof.
  intros K H. destruct (kept_value x K) as (v & V & _ & G & _). exists v. split; [|exact G]. unfold value_of in V. destruct (item x); try discriminate V; injection V as <-; exact H.
Qed.
