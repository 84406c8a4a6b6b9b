(** Proofs about option dictionaries. *)
From Coq Require Import String.
From Verif Require Import Base RegistryModel RegistryProofs LayoutProofs DictModel DictSpec.
Local Open Scope list_scope.

Section P.
Context {R M : Type}.
Implicit Types (s : dstate R M) (o : dop R M) (n : node R M).

Lemma nth_upd_same' {B} (l : list B) : forall a x, (a < length l)%nat -> nth_error (upd l a x) a = Some x.
Proof. induction l as [|y l IH]; intros [|a] x H; cbn in *; try lia; auto. apply IH. lia. Qed.
Lemma nth_upd_other' {B} (l : list B) : forall a b x, a <> b -> nth_error (upd l a x) b = nth_error l b.
Proof. induction l as [|y l IH]; intros [|a] [|b] x H; cbn in *; auto; try congruence. Qed.

Lemma node_bound s a n : node_at s a = Ok n -> (a < length (d_heap s))%nat.
Proof. unfold node_at. destruct (nth_error (d_heap s) a) eqn:E; [|discriminate]. intros _. apply nth_error_Some. congruence. Qed.
Lemma node_ok s a : (a < length (d_heap s))%nat -> exists n, node_at s a = Ok n.
Proof. intros H. unfold node_at. destruct (nth_error (d_heap s) a) eqn:E; [eauto|]. apply nth_error_None in E. lia. Qed.
Lemma set_node_same s a n : (a < length (d_heap s))%nat -> node_at (set_node s a n) a = Ok n.
Proof. intros H. unfold node_at, set_node; cbn. now rewrite nth_upd_same'. Qed.
Lemma set_node_other s a b n : a <> b -> node_at (set_node s a n) b = node_at s b.
Proof. intros H. unfold node_at, set_node; cbn. now rewrite nth_upd_other'. Qed.
Lemma alloc_old s n a : (a < length (d_heap s))%nat -> node_at (fst (alloc s n)) a = node_at s a.
Proof. intros H. unfold node_at, alloc; cbn. now rewrite nth_error_app1. Qed.
Lemma alloc_new s n : node_at (fst (alloc s n)) (length (d_heap s)) = Ok n.
Proof. unfold node_at, alloc; cbn. rewrite nth_error_app2, Nat.sub_diag by lia. reflexivity. Qed.
Lemma bind_node s v h a : node_at (bind_var s v h) a = node_at s a.
Proof. reflexivity. Qed.
Lemma child_node s a k : child s a k = match node_at s a with Ok (NDict m) => match lookup k m with Some b => Ok b | None => Err OutOfRange end | Ok (NVal _) => Err ValueError | Err e => Err e | UB => UB end.
Proof. unfold child. destruct (node_at s a) as [[]| |]; reflexivity. Qed.

(** ** Closed heaps *)
Definition closed s : Prop :=
  (forall v a, d_vars s v = At a -> (a < length (d_heap s))%nat) /\
  (forall a m k b, node_at s a = Ok (NDict m) -> lookup k m = Some b -> (b < length (d_heap s))%nat) /\
  (forall a m, node_at s a = Ok (NDict m) -> ordered m).

Lemma node_set s a n b x : node_at (set_node s a n) b = Ok x -> (b = a /\ x = n) \/ (b <> a /\ node_at s b = Ok x).
Proof.
  intros H. destruct (Nat.eq_dec b a) as [->|N].
  - left. split; [reflexivity|]. pose proof (node_bound _ _ _ H) as B. unfold set_node in B; cbn in B. rewrite upd_length in B. rewrite set_node_same in H by exact B. now apply Ok_inj in H.
  - right. rewrite set_node_other in H by auto. auto.
Qed.
Lemma node_alloc s n b x : node_at (fst (alloc s n)) b = Ok x -> (b = length (d_heap s) /\ x = n) \/ node_at s b = Ok x.
Proof.
  intros H. pose proof (node_bound _ _ _ H) as B. cbn in B. rewrite app_length in B; cbn in B. destruct (Nat.eq_dec b (length (d_heap s))) as [->|N].
  - left. split; [reflexivity|]. rewrite alloc_new in H. now apply Ok_inj in H.
  - right. rewrite alloc_old in H by lia. exact H.
Qed.

Lemma closed_alloc s n : closed s -> (forall m k b, n = NDict m -> lookup k m = Some b -> (b < length (d_heap s))%nat) ->
  (forall m, n = NDict m -> ordered m) -> closed (fst (alloc s n)).
Proof.
  intros (V & C & O) Hn Ho. split; [|split].
  - intros v a E. cbn in *. rewrite app_length; cbn. specialize (V _ _ E). lia.
  - intros a m k b E L. apply node_alloc in E. cbn. rewrite app_length; cbn. destruct E as [[-> <-]|E]; [specialize (Hn _ _ _ eq_refl L)|specialize (C _ _ _ _ E L)]; lia.
  - intros a m E. apply node_alloc in E. destruct E as [[_ <-]|E]; eauto.
Qed.
Lemma closed_set s a n : closed s -> (forall m k b, n = NDict m -> lookup k m = Some b -> (b < length (d_heap s))%nat) ->
  (forall m, n = NDict m -> ordered m) -> closed (set_node s a n).
Proof.
  intros (V & C & O) Hn Ho. split; [|split].
  - intros v b E. cbn in *. rewrite upd_length. eauto.
  - intros b m k c E L. apply node_set in E. cbn. rewrite upd_length. destruct E as [[_ <-]|[_ E]]; eauto.
  - intros b m E. apply node_set in E. destruct E as [[_ <-]|[_ E]]; eauto.
Qed.
Lemma closed_bind s v h : closed s -> (forall a, h = At a -> (a < length (d_heap s))%nat) -> closed (bind_var s v h).
Proof.
  intros (V & C & O) H. split; [|split; [exact C|exact O]]. intros w a E. cbn in E. unfold set_var in E. destruct (Nat.eqb w v); cbn; eauto.
Qed.
Lemma addr_var s v a : addr s v = Ok a <-> d_vars s v = At a.
Proof. unfold addr. destruct (d_vars s v); split; intros H; try discriminate; congruence. Qed.
Lemma child_bound s a k b : closed s -> child s a k = Ok b -> (b < length (d_heap s))%nat.
Proof.
  intros (_ & C & _) H. rewrite child_node in H. destruct (node_at s a) as [[|m]| |] eqn:E; try discriminate. destruct (lookup k m) eqn:L; [|discriminate].
  apply Ok_inj in H; subst. eauto.
Qed.

Lemma add_node_closed s a k b : closed s -> (b < length (d_heap s))%nat -> closed (fst (add_node s a k b)).
Proof.
  intros C B. unfold add_node. destruct (node_at s a) as [[|m]| |] eqn:E; try exact C. destruct (lookup k m) eqn:L; [exact C|]. cbn [fst].
  apply closed_set; [exact C| |].
  - intros m' k' c [= <-] L'. rewrite lookup_insert in L'. destruct (String.eqb k' k); [injection L' as <-; exact B|]. destruct C as (_ & C & _). eauto.
  - intros m' [= <-]. apply insert_ordered. destruct C as (_ & _ & O). eauto.
Qed.
Lemma add_value_closed s a k x : closed s -> closed (fst (add_value s a k x)).
Proof.
  intros C. unfold add_value. destruct (node_at s a) as [[|m]| |] eqn:E; try exact C. destruct (lookup k m) eqn:L; [exact C|].
  assert (C1 : closed (fst (alloc s (NVal x)))) by (apply closed_alloc; [exact C|discriminate|discriminate]).
  unfold alloc in *; cbn [fst] in *. apply closed_set; [exact C1| |].
  - intros m' k' c [= <-] L'. rewrite lookup_insert in L'. cbn. rewrite app_length; cbn. destruct (String.eqb k' k); [injection L' as <-; lia|].
    destruct C as (_ & C & _). specialize (C _ _ _ _ E L'). lia.
  - intros m' [= <-]. apply insert_ordered. destruct C as (_ & _ & O). eauto.
Qed.

Lemma dstep_closed s o : closed s -> closed (fst (dstep s o)).
Proof.
  intros C. destruct o; cbn [dstep].
  - cbn [alloc fst]. apply closed_bind; [apply (closed_alloc s (NDict [])); [exact C| |]|].
    + intros m k b [= <-]. discriminate.
    + intros m [= <-]. constructor.
    + intros a [= <-]. cbn. rewrite app_length; cbn. lia.
  - assert (C1 : closed (fst (alloc s (NVal x)))) by (apply closed_alloc; [exact C|discriminate|discriminate]).
    assert (C2 : closed (fst (alloc (fst (alloc s (NVal x))) (NDict [(key, length (d_heap s))])))).
    { apply closed_alloc; [exact C1| |].
      - intros m k b [= <-] L. cbn in L. destruct (String.eqb k key); [|discriminate]. injection L as <-. cbn. rewrite app_length; cbn. lia.
      - intros m [= <-]. repeat constructor. }
    cbn [alloc fst] in *. apply closed_bind; [exact C2|]. intros a [= <-]. cbn. rewrite !app_length; cbn. lia.
  - destruct (d_vars s w) eqn:E; cbn [fst]; [exact C|apply closed_bind; [exact C|discriminate]|].
    apply closed_bind; [exact C|]. intros b [= <-]. destruct C as (V & _). eauto.
  - destruct (d_vars s w) eqn:E; cbn [fst]; [exact C| |]; (apply closed_bind; [apply closed_bind; [exact C|discriminate]|]); [discriminate|].
    intros b [= <-]. cbn. destruct C as (V & _). eauto.
  - unfold lift. destruct (addr s w) as [a| |]; cbn [bind]; [|exact C|exact C]. destruct (child s a key) as [b| |] eqn:E; [|exact C|exact C]. cbn [fst].
    apply closed_bind; [exact C|]. intros c [= <-]. eapply child_bound; eassumption.
  - unfold lift. destruct (addr s v) as [a| |]; [|exact C|exact C]. now apply add_value_closed.
  - unfold lift. destruct (addr s v) as [a| |]; cbn [bind]; [|exact C|exact C]. destruct (addr s w) as [b| |] eqn:E; cbn [bind]; [|exact C|exact C]. cbn [fst snd].
    apply add_node_closed; [exact C|]. apply addr_var in E. destruct C as (V & _). eauto.
  - unfold lift. destruct (addr s v) as [a| |]; cbn [bind]; [|exact C|exact C]. destruct (node_at s a) as [n| |]; cbn [bind]; [|exact C|exact C]. apply closed_set; [exact C|discriminate|discriminate].
  - unfold lift. destruct (addr s v) as [a| |]; cbn [bind]; [|exact C|exact C]. destruct (child s a key) as [b| |]; [|exact C|exact C]. apply closed_set; [exact C|discriminate|discriminate].
  - unfold lift. destruct (addr s v) as [a| |]; cbn [bind]; [|exact C|exact C]. destruct (node_at s a) as [n| |]; cbn [bind]; [|exact C|exact C].
    destruct (addr s w) as [b| |]; cbn [bind]; [|exact C|exact C]. destruct (node_at s b) as [[[]|]| |]; cbn [bind fst snd]; try exact C; try (apply closed_set; [exact C|discriminate|discriminate]).
    destruct (Nat.eqb a b); [exact C|]. apply closed_set; [exact C|discriminate|discriminate].
  - unfold lift. destruct (addr s v) as [a| |]; cbn [bind]; [|exact C|exact C]. destruct (addr s w) as [b| |]; cbn [bind]; [|exact C|exact C]. destruct (child s a key); exact C.
Qed.

Lemma drun_closed h : forall s, closed s -> closed (drun s h).
Proof. induction h as [|o h IH]; intros s C; cbn; [exact C|]. apply IH. now apply dstep_closed. Qed.
Lemma dreachable_closed s : dreachable s -> closed s.
Proof.
  intros (h & ->). apply drun_closed. split; [|split]; cbn; [discriminate| |]; intros a ?; unfold node_at; cbn; destruct a; discriminate.
Qed.

(** ** Safety: nothing undefined but moved-from variables and self-assignment *)
Lemma walk_safe s a k : closed s -> (a < length (d_heap s))%nat -> child s a k <> UB.
Proof. intros C B. rewrite child_node. destruct (node_ok s a B) as [[|m] ->]; [discriminate|]. destruct (lookup k m); discriminate. Qed.

Lemma var_node s v a : closed s -> addr s v = Ok a -> exists n, node_at s a = Ok n.
Proof. intros (V & _) H. apply addr_var in H. apply node_ok. eauto. Qed.
Lemma usable_addr s v : usable s v -> exists a, addr s v = Ok a.
Proof. intros (a & H). exists a. now apply addr_var. Qed.

Lemma dstep_safe s o : dreachable s -> (forall v, In v (reads o) -> usable s v) ->
  snd (dstep s o) = UB -> exists v w m, o = DAssignOf v w /\ d_vars s v = d_vars s w /\ get_matrix s w = Ok m.
Proof.
  intros D U. apply dreachable_closed in D. destruct o; cbn [dstep reads] in *.
  - discriminate.
  - discriminate.
  - destruct (U w ltac:(now left)) as (a & ->). discriminate.
  - destruct (U w ltac:(now left)) as (a & ->). discriminate.
  - destruct (usable_addr s w (U w ltac:(now left))) as (a & E). rewrite E. cbn [bind]. destruct (child s a key) eqn:Ec; cbn; try discriminate.
    exfalso. revert Ec. apply walk_safe; [exact D|]. apply addr_var in E. destruct D as (V & _). eauto.
  - destruct (usable_addr s v (U v ltac:(now left))) as (a & E). rewrite E. cbn [lift]. unfold add_value. destruct (var_node s v a D E) as (n & ->).
    destruct n as [|m]; [discriminate|]. destruct (lookup key m); discriminate.
  - destruct (usable_addr s v (U v ltac:(now left))) as (a & E). rewrite E. destruct (usable_addr s w (U w ltac:(right; now left))) as (b & E'). rewrite E'. cbn [lift bind fst snd].
    unfold add_node. destruct (var_node s v a D E) as (n & ->). destruct n as [|m]; [discriminate|]. destruct (lookup key m); discriminate.
  - destruct (usable_addr s v (U v ltac:(now left))) as (a & E). rewrite E. cbn [bind]. destruct (var_node s v a D E) as (n & ->). discriminate.
  - destruct (usable_addr s v (U v ltac:(now left))) as (a & E). rewrite E. cbn [bind]. destruct (child s a key) eqn:Ec; cbn; try discriminate.
    exfalso. revert Ec. apply walk_safe; [exact D|]. apply addr_var in E. destruct D as (V & _). eauto.
  - destruct (usable_addr s v (U v ltac:(now left))) as (a & E). rewrite E. destruct (usable_addr s w (U w ltac:(right; now left))) as (b & E'). rewrite E'. cbn [bind].
    destruct (var_node s v a D E) as (n & ->). destruct (var_node s w b D E') as (n' & En'). rewrite En'. cbn [bind lift fst snd].
    destruct n' as [[i|r|m]|m]; try discriminate. destruct (Nat.eqb_spec a b) as [->|N]; [|discriminate]. intros _. exists v, w, m. split; [reflexivity|].
    apply addr_var in E. split; [apply addr_var in E'; congruence|]. unfold get_matrix, get_with. rewrite E'. cbn [bind]. now rewrite En'.
  - destruct (usable_addr s v (U v ltac:(now left))) as (a & E). rewrite E. destruct (usable_addr s w (U w ltac:(right; now left))) as (b & E'). rewrite E'. cbn [bind].
    destruct (child s a key) eqn:Ec; cbn; try discriminate.
    exfalso. revert Ec. apply walk_safe; [exact D|]. apply addr_var in E. destruct D as (V & _). eauto.
Qed.

(** ** Failures have no effect *)
Lemma dstep_failed s o e : snd (dstep s o) = Err e -> fst (dstep s o) = s.
Proof.
  destruct o; cbn [dstep]; try discriminate; unfold lift.
  - destruct (d_vars s w); discriminate.
  - destruct (d_vars s w); discriminate.
  - destruct (let! a := addr s w in child s a key); [discriminate|reflexivity|discriminate].
  - destruct (addr s v); [|reflexivity|discriminate]. unfold add_value. destruct (node_at s a) as [[|m]| |]; try reflexivity. destruct (lookup key m); [reflexivity|discriminate].
  - destruct (let! a := addr s v in let! b := addr s w in Ok (a, b)) as [[a b]| |]; [|reflexivity|discriminate]. unfold add_node. cbn [fst snd].
    destruct (node_at s a) as [[|m]| |]; try reflexivity. destruct (lookup key m); [reflexivity|discriminate].
  - match goal with |- context [match ?x with _ => _ end] => destruct x end; [discriminate|reflexivity|discriminate].
  - match goal with |- context [match ?x with _ => _ end] => destruct x end; [discriminate|reflexivity|discriminate].
  - destruct (let! a := addr s v in let! _ := node_at s a in let! b := addr s w in let! n := node_at s b in Ok (a, b, n)) as [[[a b] n]| |]; [|reflexivity|discriminate].
    cbn [fst snd]. destruct n as [[]|]; try discriminate; [|reflexivity]. destruct (Nat.eqb a b); discriminate.
  - match goal with |- context [match ?x with _ => _ end] => destruct x end; [discriminate|reflexivity|discriminate].
Qed.

(** ** Adding *)
Lemma observe_keys s v ks : observe s v [] = Ok (OKeys ks) <-> exists a m, addr s v = Ok a /\ node_at s a = Ok (NDict m) /\ ks = keys m.
Proof.
  unfold observe. destruct (addr s v) as [a| |] eqn:E; cbn [bind walk].
  - destruct (node_at s a) as [[x|m]| |] eqn:N; cbn [bind]; split; intros H; try discriminate.
    + destruct H as (b & m & H & H1 & _). apply Ok_inj in H; subst. congruence.
    + apply Ok_inj in H. injection H as <-. eauto.
    + destruct H as (b & m' & H & H1 & ->). apply Ok_inj in H; subst b. rewrite N in H1. apply Ok_inj in H1. now injection H1 as ->.
    + destruct H as (b & m' & H & H1 & _). apply Ok_inj in H; subst. congruence.
    + destruct H as (b & m' & H & H1 & _). apply Ok_inj in H; subst. congruence.
  - split; [discriminate|]. intros (b & m & H & _). discriminate.
  - split; [discriminate|]. intros (b & m & H & _). discriminate.
Qed.
Lemma observe_val s v x : observe s v [] = Ok (OVal x) <-> exists a, addr s v = Ok a /\ node_at s a = Ok (NVal x).
Proof.
  unfold observe. destruct (addr s v) as [a| |] eqn:E; cbn [bind walk].
  - destruct (node_at s a) as [[y|m]| |] eqn:N; cbn [bind]; split; intros H; try discriminate.
    + apply Ok_inj in H. injection H as <-. eauto.
    + destruct H as (b & H & H1). apply Ok_inj in H; subst b. rewrite N in H1. apply Ok_inj in H1. now injection H1 as ->.
    + destruct H as (b & H & H1). apply Ok_inj in H; subst. congruence.
    + destruct H as (b & H & H1). apply Ok_inj in H; subst. congruence.
    + destruct H as (b & H & H1). apply Ok_inj in H; subst. congruence.
  - split; [discriminate|]. intros (b & H & _). discriminate.
  - split; [discriminate|]. intros (b & H & _). discriminate.
Qed.

(** A dictionary node gained a key; everything else is as before. *)
Definition gained s s' a key b : Prop :=
  d_vars s' = d_vars s /\ (exists m, node_at s a = Ok (NDict m) /\ lookup key m = None /\ node_at s' a = Ok (NDict (insert key b m))) /\
  (forall c n, c <> a -> node_at s c = Ok n -> node_at s' c = Ok n).

Lemma gained_child s s' a key b c k d : gained s s' a key b -> child s c k = Ok d -> child s' c k = Ok d.
Proof.
  intros (_ & (m & N & L & N') & F) H. rewrite child_node in *. destruct (Nat.eq_dec c a) as [->|Ne].
  - rewrite N in H. rewrite N'. rewrite lookup_insert. destruct (String.eqb_spec k key) as [->|Nk]; [rewrite L in H; discriminate|exact H].
  - destruct (node_at s c) as [n| |] eqn:E; try discriminate. now rewrite (F c n Ne E).
Qed.
Lemma gained_walk s s' a key b path : forall c d, gained s s' a key b -> walk s c path = Ok d -> walk s' c path = Ok d.
Proof.
  induction path as [|k r IH]; intros c d G H; [exact H|]. cbn in *. destruct (child s c k) as [e| |] eqn:E; try discriminate. cbn [bind] in H.
  rewrite (gained_child _ _ _ _ _ _ _ _ G E). cbn [bind]. eauto.
Qed.

Lemma gained_observe s s' v a key b ks : gained s s' a key b -> addr s v = Ok a -> observe s v [] = Ok (OKeys ks) ->
  (exists ks', observe s' v [] = Ok (OKeys ks') /\ Permutation ks' (key :: ks)) /\
  (forall w path x, observe s w path = Ok (OVal x) -> observe s' w path = Ok (OVal x)) /\
  (forall w path ks0, observe s w path = Ok (OKeys ks0) -> observe s' w path = Ok (OKeys ks0) \/ ks0 = ks /\ observe s' w path = observe s' v []).
Proof.
  intros G A O. destruct G as (V & (m & N & L & N') & F).
  assert (G : gained s s' a key b) by (split; [exact V|split; [exists m; auto|exact F]]).
  assert (Ks : ks = keys m). { apply observe_keys in O. destruct O as (a' & m' & A' & N2 & ->). rewrite A in A'. apply Ok_inj in A'; subst a'. rewrite N in N2. apply Ok_inj in N2. now injection N2 as ->. }
  assert (A' : forall w, addr s' w = addr s w) by (intros w; unfold addr; now rewrite V).
  assert (Q : observe s' v [] = Ok (OKeys (keys (insert key b m)))) by (unfold observe; rewrite A', A; cbn [bind walk]; rewrite N'; reflexivity).
  split; [|split].
  - exists (keys (insert key b m)). split; [exact Q|]. rewrite Ks. apply insert_perm. exact L.
  - intros w path x H. unfold observe in *. rewrite A'. destruct (addr s w) as [c| |]; try discriminate. cbn [bind] in *. destruct (walk s c path) as [d| |] eqn:W; try discriminate. cbn [bind] in H.
    rewrite (gained_walk _ _ _ _ _ _ _ _ G W). cbn [bind]. destruct (node_at s d) as [n| |] eqn:E; try discriminate.
    destruct (Nat.eq_dec d a) as [->|Ne]; [rewrite N in E; apply Ok_inj in E; subst; discriminate|]. now rewrite (F d n Ne E).
  - intros w path ks0 H. unfold observe in H. destruct (addr s w) as [c| |] eqn:Ew; try discriminate. cbn [bind] in *. destruct (walk s c path) as [d| |] eqn:W; try discriminate. cbn [bind] in H.
    destruct (node_at s d) as [n| |] eqn:E; try discriminate. destruct (Nat.eq_dec d a) as [->|Ne].
    + right. rewrite N in E. apply Ok_inj in E; subst n. cbn [bind] in H. apply Ok_inj in H. injection H as H. split; [now rewrite Ks|]. rewrite Q. unfold observe. rewrite A', Ew. cbn [bind].
      rewrite (gained_walk _ _ _ _ _ _ _ _ G W). cbn [bind]. now rewrite N'.
    + left. unfold observe. rewrite A', Ew. cbn [bind]. rewrite (gained_walk _ _ _ _ _ _ _ _ G W). cbn [bind]. now rewrite (F d n Ne E).
Qed.

Lemma keys_in (m : list (string * nat)) k : In k (keys m) <-> lookup k m <> None.
Proof. apply lookup_keys. Qed.

Lemma add_value_existing s v key x ks : observe s v [] = Ok (OKeys ks) -> In key ks -> dstep s (DAdd v key x) = (s, Err KeyError).
Proof.
  intros O I. apply observe_keys in O. destruct O as (a & m & A & N & ->). apply keys_in in I. cbn [dstep lift]. rewrite A. cbn [lift]. unfold add_value. rewrite N.
  destruct (lookup key m); [reflexivity|congruence].
Qed.
Lemma add_dict_existing s v key w ks : observe s v [] = Ok (OKeys ks) -> In key ks -> usable s w -> dstep s (DAddDict v key w) = (s, Err KeyError).
Proof.
  intros O I U. apply observe_keys in O. destruct O as (a & m & A & N & ->). apply keys_in in I. destruct (usable_addr s w U) as (b & B). cbn [dstep]. rewrite A, B. cbn [bind lift fst snd]. unfold add_node. rewrite N.
  destruct (lookup key m); [reflexivity|congruence].
Qed.
Lemma add_not_dict s v key x y : observe s v [] = Ok (OVal y) -> dstep s (DAdd v key x) = (s, Err ValueError) /\ (forall w, usable s w -> dstep s (DAddDict v key w) = (s, Err ValueError)).
Proof.
  intros O. apply observe_val in O. destruct O as (a & A & N). cbn [dstep]. rewrite A. cbn [bind lift]. unfold add_value. rewrite N. split; [reflexivity|].
  intros w U. destruct (usable_addr s w U) as (b & B). rewrite B. cbn [bind lift fst snd]. unfold add_node. now rewrite N.
Qed.

Lemma add_value_new s v key x ks : dreachable s -> observe s v [] = Ok (OKeys ks) -> ~ In key ks ->
  let s' := fst (dstep s (DAdd v key x)) in
  snd (dstep s (DAdd v key x)) = Ok tt /\ observe s' v [key] = Ok (OVal x) /\ exists a b, addr s v = Ok a /\ gained s s' a key b.
Proof.
  intros D O I. apply dreachable_closed in D. pose proof (proj1 (observe_keys _ _ _) O) as (a & m & A & N & ->). cbv zeta. cbn [dstep]. rewrite A. cbn [lift]. unfold add_value. rewrite N.
  destruct (lookup key m) eqn:L; [exfalso; apply I, keys_in; congruence|]. cbn [alloc fst snd]. split; [reflexivity|].
  pose proof (node_bound _ _ _ N) as B.
  set (s1 := mk_dstate (d_heap s ++ [NVal x]) (d_vars s)). assert (S1 : s1 = fst (alloc s (NVal x))) by reflexivity.
  assert (N1 : node_at (set_node s1 a (NDict (insert key (length (d_heap s)) m))) a = Ok (NDict (insert key (length (d_heap s)) m))).
  { apply set_node_same. unfold s1; cbn. rewrite app_length; cbn; lia. }
  split.
  - unfold observe. replace (addr _ v) with (addr s v) by reflexivity. rewrite A. cbn [bind walk]. rewrite child_node, N1, lookup_insert_same. cbn [bind].
    rewrite set_node_other by lia. rewrite S1, alloc_new. reflexivity.
  - exists a, (length (d_heap s)). split; [reflexivity|]. split; [reflexivity|]. split; [exists m; auto|].
    intros c n Ne E. rewrite set_node_other by auto. rewrite S1, alloc_old by (eapply node_bound; eassumption). exact E.
Qed.
Lemma add_dict_new s v key w ks : observe s v [] = Ok (OKeys ks) -> ~ In key ks -> usable s w ->
  let s' := fst (dstep s (DAddDict v key w)) in
  snd (dstep s (DAddDict v key w)) = Ok tt /\ (forall path, observe s' v (key :: path) = observe s' w path) /\ exists a b, addr s v = Ok a /\ gained s s' a key b.
Proof.
  intros O I U. pose proof (proj1 (observe_keys _ _ _) O) as (a & m & A & N & ->). destruct (usable_addr s w U) as (b & B). cbv zeta. cbn [dstep]. rewrite A, B. cbn [bind lift fst snd]. unfold add_node. rewrite N.
  destruct (lookup key m) eqn:L; [exfalso; apply I, keys_in; congruence|]. cbn [fst snd]. split; [reflexivity|].
  pose proof (node_bound _ _ _ N) as Bd. pose proof (set_node_same s a (NDict (insert key b m)) Bd) as N1. split.
  - intros path. unfold observe. replace (addr _ v) with (addr s v) by reflexivity. replace (addr _ w) with (addr s w) by reflexivity. rewrite A, B. cbn [bind walk].
    rewrite child_node, N1, lookup_insert_same. reflexivity.
  - exists a, b. split; [reflexivity|]. split; [reflexivity|]. split; [exists m; auto|]. intros c n Ne E. now rewrite set_node_other by auto.
Qed.

(** ** Assignment *)
Lemma set_walk s a n path : forall c, ~ In a (visited s c path) -> walk (set_node s a n) c path = walk s c path /\
  (forall d, walk s c path = Ok d -> d <> a).
Proof.
  induction path as [|k r IH]; intros c H; cbn in *.
  - split; [reflexivity|]. intros d [= <-]. intros ->. apply H. now left.
  - assert (C : child (set_node s a n) c k = child s c k) by (rewrite !child_node, set_node_other; [reflexivity|intros ->; apply H; now left]).
    rewrite C. destruct (child s c k) as [e| |]; cbn [bind]; [|split; [reflexivity|discriminate]|split; [reflexivity|discriminate]]. apply IH. intros X. apply H. now right.
Qed.
Lemma set_observe s a n w path c : addr s w = Ok c -> ~ In a (visited s c path) -> observe (set_node s a n) w path = observe s w path.
Proof.
  intros A H. unfold observe. replace (addr (set_node s a n) w) with (addr s w) by reflexivity. rewrite A. cbn [bind].
  destruct (set_walk s a n path c H) as [-> Ne]. destruct (walk s c path) as [d| |]; [|reflexivity|reflexivity]. cbn [bind]. now rewrite set_node_other by (intros ->; now apply (Ne d)).
Qed.

Lemma assign_spec s v x a : dreachable s -> addr s v = Ok a ->
  let s' := fst (dstep s (DAssign v x)) in
  snd (dstep s (DAssign v x)) = Ok tt /\ d_vars s' = d_vars s /\ observe s' v [] = Ok (OVal x) /\
  forall w c path, addr s w = Ok c -> ~ In a (visited s c path) -> observe s' w path = observe s w path.
Proof.
  intros D A. apply dreachable_closed in D. destruct (var_node s v a D A) as (n & N). cbv zeta. cbn [dstep]. rewrite A. cbn [bind]. rewrite N. cbn [bind lift fst snd]. unfold assign_value.
  split; [reflexivity|]. split; [reflexivity|]. split.
  - apply observe_val. exists a. split; [exact A|]. apply set_node_same. eapply node_bound; eassumption.
  - intros w c path Aw V. eapply set_observe; eassumption.
Qed.
Lemma assign_at_spec s v key x a b : dreachable s -> addr s v = Ok a -> child s a key = Ok b -> a <> b ->
  let s' := fst (dstep s (DAssignAt v key x)) in
  snd (dstep s (DAssignAt v key x)) = Ok tt /\ d_vars s' = d_vars s /\ observe s' v [key] = Ok (OVal x) /\
  forall w c path, addr s w = Ok c -> ~ In b (visited s c path) -> observe s' w path = observe s w path.
Proof.
  intros D A C Ne. apply dreachable_closed in D. cbv zeta. cbn [dstep]. rewrite A. cbn [bind]. rewrite C. cbn [lift fst snd]. unfold assign_value.
  split; [reflexivity|]. split; [reflexivity|]. split.
  - unfold observe. replace (addr (set_node s b (NVal x)) v) with (addr s v) by reflexivity. rewrite A. cbn [bind walk].
    replace (child (set_node s b (NVal x)) a key) with (child s a key) by (rewrite !child_node, set_node_other; auto). rewrite C. cbn [bind].
    rewrite set_node_same by (eapply child_bound; eassumption). reflexivity.
  - intros w c path Aw V. eapply set_observe; eassumption.
Qed.
Lemma assign_at_missing s v key x ks : observe s v [] = Ok (OKeys ks) -> ~ In key ks -> dstep s (DAssignAt v key x) = (s, Err OutOfRange).
Proof.
  intros O I. apply observe_keys in O. destruct O as (a & m & A & N & ->). cbn [dstep]. rewrite A. cbn [bind]. rewrite child_node, N.
  destruct (lookup key m) eqn:L; [exfalso; apply I, keys_in; congruence|reflexivity].
Qed.

(** ** Getters *)
Lemma getters s v t : get_value_type s v = Ok t ->
  (t = TInt -> exists i, get_int s v = Ok i /\ observe s v [] = Ok (OVal (VInt i))) /\ (t <> TInt -> get_int s v = Err ValueError) /\
  (t = TReal -> exists r, get_real s v = Ok r /\ observe s v [] = Ok (OVal (VReal r))) /\ (t <> TReal -> get_real s v = Err ValueError) /\
  (t = TMat -> exists m, get_matrix s v = Ok m /\ observe s v [] = Ok (OVal (VMat m))) /\ (t <> TMat -> get_matrix s v = Err ValueError) /\
  (t = TDict <-> exists ks, observe s v [] = Ok (OKeys ks)).
Proof.
  unfold get_value_type, get_int, get_real, get_matrix, get_with, observe. destruct (addr s v) as [a| |]; try discriminate. cbn [bind walk].
  destruct (node_at s a) as [n| |]; try discriminate. cbn [bind]. intros H. apply Ok_inj in H. subst t.
  destruct n as [[i|r|m]|m]; cbn; repeat apply conj; intros H; try reflexivity; try discriminate; try (exfalso; now apply H); try (destruct H as (ks & H); discriminate H); eauto.
Qed.

(** ** Sharing *)
Lemma dstep_vars s o v : rebinds v o = false -> d_vars (fst (dstep s o)) v = d_vars s v.
Proof.
  destruct o; cbn [dstep rebinds]; intros H.
  - cbn. unfold set_var. now rewrite H.
  - cbn. unfold set_var. now rewrite H.
  - destruct (d_vars s w); cbn; unfold set_var; rewrite ?H; reflexivity.
  - apply orb_false_iff in H. destruct H as [H1 H2]. destruct (d_vars s w); cbn; unfold set_var; rewrite ?H1, ?H2; reflexivity.
  - unfold lift. destruct (let! a := addr s w in child s a key); cbn; unfold set_var; rewrite ?H; reflexivity.
  - unfold lift. destruct (addr s v0); [|reflexivity|reflexivity]. unfold add_value. destruct (node_at s a) as [[|m]| |]; try reflexivity. now destruct (lookup key m).
  - unfold lift. destruct (let! a := addr s v0 in let! b := addr s w in Ok (a, b)) as [[a b]| |]; [|reflexivity|reflexivity]. unfold add_node. cbn [fst snd]. destruct (node_at s a) as [[|m]| |]; try reflexivity. now destruct (lookup key m).
  - unfold lift. match goal with |- context [match ?x with _ => _ end] => destruct x end; reflexivity.
  - unfold lift. match goal with |- context [match ?x with _ => _ end] => destruct x end; reflexivity.
  - unfold lift. destruct (let! a := addr s v0 in let! _ := node_at s a in let! b := addr s w in let! n := node_at s b in Ok (a, b, n)) as [[[a b] n]| |]; [|reflexivity|reflexivity].
    cbn [fst snd]. destruct n as [[]|]; try reflexivity. now destruct (Nat.eqb a b).
  - unfold lift. match goal with |- context [match ?x with _ => _ end] => destruct x end; reflexivity.
Qed.
Lemma drun_vars h : forall s v, Forall (fun o => rebinds v o = false) h -> d_vars (drun s h) v = d_vars s v.
Proof. induction h as [|o h IH]; intros s v F; [reflexivity|]. inversion F; subst. change (drun s (o :: h)) with (drun (fst (dstep s o)) h). rewrite (IH (fst (dstep s o)) v) by assumption. now apply dstep_vars. Qed.
Lemma observe_same_handle s v w path : d_vars s v = d_vars s w -> observe s v path = observe s w path.
Proof. intros H. unfold observe, addr. now rewrite H. Qed.
End P.
