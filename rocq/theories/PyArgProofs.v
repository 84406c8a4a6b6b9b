(** Proofs about arguments of Python calls. *)
From Verif Require Import Base GridModel GridSpec GridProofs CoordModel RegistryModel PyCommModel PyCommProofs PyArgModel PyArgSpec.
Local Open Scope Z_scope.
Local Open Scope list_scope.

Lemma load64_int c n : index64 n -> load64 c (NInt n) = Some n.
Proof. intros R. unfold load64. cbn [load_scalar load_integer]. unfold index64 in R. rewrite within_yes by lia. reflexivity. Qed.
Lemma load64_not c x : not_int x -> load64 c x = None.
Proof.
  destruct x; cbn [not_int]; try contradiction; try reflexivity. intros N. unfold load64. cbn [load_scalar load_integer]. unfold within_type.
  destruct (- 2 ^ 63 <=? n) eqn:A, (n <=? 2 ^ 63 - 1) eqn:B; try reflexivity. exfalso. apply N. unfold index64. apply Z.leb_le in A, B. lia.
Qed.
Lemma load_all_ints c l : Forall index64 l -> load_all c (map NInt l) = Some l.
Proof. induction 1 as [|n l Hn _ IH]; [reflexivity|]. cbn [map load_all]. now rewrite load64_int, IH by exact Hn. Qed.
Lemma load_all_not c l : Exists not_int l -> load_all c l = None.
Proof. induction 1 as [x l H|x l _ IH]; cbn [load_all]; [now rewrite load64_not|]. rewrite IH. now destruct (load64 c x). Qed.
Lemma load_static_ints d c k l : Forall index64 l -> load_static d c (int_seq k l) = if (length l =? d)%nat then Some l else None.
Proof. intros R. unfold load_static, load_vector, int_seq. now rewrite load_all_ints. Qed.
Lemma static_overload {B} k l (g : bool -> option B) y : Forall index64 l -> g false = Some y -> (1 <= length l <= 3)%nat ->
  overloads (map (fun d c => pair_of (load_static d c (int_seq k l)) (g c)) [1; 2; 3]%nat) = Some (l, y).
Proof.
  intros R G D. unfold overloads. cbn [map first_fit]. rewrite !(load_static_ints _ _ _ _ R), G.
  destruct (length l) as [|[|[|[|m]]]] eqn:L; cbn [Nat.eqb pair_of]; try lia; reflexivity.
Qed.
Lemma domain_index_ints k1 k2 n c : Forall index64 n -> Forall index64 c -> (1 <= length n <= 3)%nat -> length c = length n ->
  domain_index (int_seq k1 n) (int_seq k2 c) = Some (get_index n (repeat 0 (length n)) c).
Proof.
  intros Rn Rc D L. unfold domain_index, overloads. cbn [map first_fit]. rewrite !(load_static_ints _ _ _ _ Rn), !(load_static_ints _ _ _ _ Rc), L.
  destruct (length n) as [|[|[|[|m]]]] eqn:E; cbn [Nat.eqb pair_of]; try lia; cbn [option_map fst snd]; now rewrite E.
Qed.
Lemma domain_ccoord_ints k n i : Forall index64 n -> index64 i -> (1 <= length n <= 3)%nat ->
  domain_ccoord (int_seq k n) (int_arg i) = Some (get_ccoord n (repeat 0 (length n)) i).
Proof.
  intros R Ri D. unfold domain_ccoord. rewrite (static_overload k n (fun c => load_index c (int_arg i)) i); [reflexivity|exact R| |exact D].
  cbn [load_index int_arg]. now apply load64_int.
Qed.
Lemma small_coords n c : Forall index64 n -> in_box n (repeat 0 (length n)) c -> Forall index64 c.
Proof.
  intros R [L B]. apply Forall_forall. intros x I. apply In_nth with (d := 0) in I as (j & Hj & <-). rewrite L in Hj. specialize (B j Hj).
  unfold zn in B. rewrite nth_repeat in B. assert (Rn : index64 (nth j n 0)) by (rewrite Forall_forall in R; apply R; now apply nth_In). unfold index64 in *. lia.
Qed.
