(** Proofs about collective operations in Python. *)
From Verif Require Import Base CIntModel PyAttModel CommModel PyCommModel PyCommSpec.
Local Open Scope Z_scope.
Local Open Scope list_scope.

Lemma within_yes lo hi n : lo <= n <= hi -> within_type lo hi n = Some (VZ n).
Proof. intros H. unfold within_type. destruct (Z.leb_spec lo n); [|lia]. destruct (Z.leb_spec n hi); [reflexivity|lia]. Qed.
Lemma within_no lo hi n : ~ (lo <= n <= hi) -> within_type lo hi n = None.
Proof. intros H. unfold within_type. destruct (Z.leb_spec lo n); [|reflexivity]. destruct (Z.leb_spec n hi); [lia|reflexivity]. Qed.

Lemma choose_int_first ts x n : denotes x n -> int_range n -> choose (CInt :: ts) x = Some (CInt, VZ n).
Proof.
  intros D R. unfold choose. unfold int_range in R.
  destruct D as [->|(b & -> & ->)]; cbn [first_of load_scalar load_integer]; [rewrite within_yes by lia; reflexivity|].
  destruct b; cbn [Z.b2z]; rewrite within_yes by lia; reflexivity.
Qed.
Lemma choose_int_second n : int_range n -> choose bcast_types (NInt n) = Some (CInt, VZ n).
Proof. intros R. unfold choose, bcast_types. cbn [first_of load_scalar load_integer]. unfold int_range in R. rewrite within_yes by lia. reflexivity. Qed.
Lemma choose_uint ts n : In ts [cumulative_types; bcast_types] -> uint_range n -> choose ts (NInt n) = Some (CUint, VZ n).
Proof.
  intros I R. unfold uint_range in R. destruct I as [<-|[<-|[]]]; unfold choose, cumulative_types, bcast_types; cbn [first_of load_scalar load_integer];
  (rewrite within_no by lia; rewrite within_yes by lia; reflexivity).
Qed.
Lemma choose_wide ts n : In ts [cumulative_types; bcast_types] -> wide_range n -> choose ts (NInt n) = Some (CIndex, VZ n).
Proof.
  intros I R. unfold wide_range in R. destruct I as [<-|[<-|[]]]; unfold choose, cumulative_types, bcast_types; cbn [first_of load_scalar load_integer];
  (rewrite within_no by lia; rewrite within_no by lia; rewrite within_yes by lia; reflexivity).
Qed.
Lemma choose_float ts r : In ts [sum_types; cumulative_types; bcast_types] -> choose ts (NFloat r) = Some (CReal, VR r).
Proof. intros [<-|[<-|[<-|[]]]]; reflexivity. Qed.
Lemma choose_complex ts r i : In ts [cumulative_types; bcast_types] -> choose ts (NComplex r i) = Some (CComplex, VC r i).
Proof. intros [<-|[<-|[]]]; reflexivity. Qed.

(** ** All processes choose one type *)
Lemma chosen_all {A} (f : A -> option (ctype * cval)) t (v : A -> cval) l : (forall x, In x l -> f x = Some (t, v x)) ->
  chosen (map f l) = Some (map (fun x => (t, v x)) l).
Proof.
  induction l as [|a l IH]; intros H; [reflexivity|]. cbn [map chosen]. rewrite (H a) by now left. cbn [chosen]. rewrite IH; [reflexivity|]. intros x I. apply H. now right.
Qed.
Lemma ctype_eqb_refl t : ctype_eqb t t = true. Proof. now destruct t. Qed.
Lemma together_same ts rule args t vs : args <> [] -> Forall2 (fun x v => choose ts x = Some (t, v)) args vs ->
  together_ ts rule args = all_results (map (rule t vs) (seq 0 (length args))).
Proof.
  intros N F. unfold together_. destruct F as [|x v l vs' H F]; [congruence|]. cbn [map]. rewrite H. cbn [forallb andb chosen].
  assert (C : chosen (map (choose ts) l) = Some (map (fun w => (t, w)) vs')).
  { clear - F. induction F as [|a w l vs H F IH]; [reflexivity|]. cbn [map chosen]. rewrite H. cbn [chosen]. rewrite IH. reflexivity. }
  rewrite C. cbn [option_map].
  assert (B : forallb (fun c : ctype * cval => ctype_eqb t (fst c)) (map (fun w => (t, w)) vs') = true).
  { clear. induction vs' as [|w l IH]; [reflexivity|]. cbn [map forallb fst]. now rewrite ctype_eqb_refl. }
  rewrite B. do 4 f_equal. rewrite map_map. cbn [snd]. now rewrite map_id.
Qed.
Lemma all_results_map {A} (f : A -> option cval) (g : A -> cval) l : (forall x, In x l -> f x = Some (g x)) -> all_results (map f l) = Returned (map (fun x => result (g x)) l).
Proof.
  induction l as [|a l IH]; intros H; [reflexivity|]. cbn [map all_results]. rewrite (H a) by now left. rewrite IH; [reflexivity|]. intros x I. apply H. now right.
Qed.

(** ** Sums *)
Lemma ints_of ns : ints (map VZ ns) = ns.
Proof. induction ns as [|n l IH]; [reflexivity|]. cbn. now rewrite <- IH at 2. Qed.
Lemma floats_of xs : floats (map VR xs) = xs.
Proof. induction xs as [|n l IH]; [reflexivity|]. cbn. now rewrite <- IH at 2. Qed.
Lemma complexes_of zs : complexes (map (fun z => VC (fst z) (snd z)) zs) = zs.
Proof. induction zs as [|[a b] l IH]; [reflexivity|]. cbn. now rewrite <- IH at 2. Qed.
Lemma split_perm {A} (p q : A -> bool) (l : list A) : (forall x, q x = negb (p x)) -> Permutation l (filter p l ++ filter q l).
Proof.
  intros H. induction l as [|a l IH]; [constructor|]. cbn [filter]. rewrite (H a). destruct (p a); cbn [negb app]; [now constructor|].
  now apply Permutation_cons_app.
Qed.
Lemma perm_zsum l l' : Permutation l l' -> zsum l = zsum l'.
Proof. unfold zsum. induction 1; cbn [fold_right] in *; lia. Qed.
Lemma safe_sums bits ns : no_overflow bits ns ->
  ((zsum (filter (fun x => 0 <=? x) ns) <? 2 ^ (bits - 1)) && (- 2 ^ (bits - 1) <=? zsum (filter (fun x => x <? 0) ns))) = true.
Proof.
  intros H. set (p := fun x : Z => 0 <=? x) in *. set (q := fun x : Z => x <? 0) in *.
  assert (Q : forall x, q x = negb (p x)) by (intros x; unfold p, q; destruct (Z.leb_spec 0 x); destruct (Z.ltb_spec x 0); try reflexivity; lia).
  assert (Q' : forall x, p x = negb (q x)) by (intros x; rewrite Q; now destruct (p x)).
  pose proof (H _ _ (split_perm p q ns Q)) as [_ H1]. pose proof (H _ _ (split_perm q p ns Q')) as [H2 _].
  apply andb_true_intro. split; [now apply Z.ltb_lt|now apply Z.leb_le].
Qed.
Lemma no_overflow_part bits ns part rest : no_overflow bits ns -> Permutation ns (part ++ rest) -> no_overflow bits part.
Proof.
  intros H P a b Q. apply (H a (b ++ rest)). rewrite P, Q, app_assoc. reflexivity.
Qed.
Lemma no_overflow_one bits ns n : no_overflow bits ns -> In n ns -> - 2 ^ (bits - 1) <= n < 2 ^ (bits - 1).
Proof.
  intros H I. apply in_split in I as (a & b & ->). specialize (H [n] (a ++ b)). cbn [zsum fold_right app] in H.
  assert (P : Permutation (a ++ n :: b) (n :: a ++ b)) by (symmetry; apply Permutation_middle). specialize (H P). unfold zsum in H. cbn [fold_right] in H. lia.
Qed.

Section S.
Variables (fsum : list Z -> Z) (csum : list (Z * Z) -> Z * Z).
Lemma add_ints t bits ns : (t, bits) = (CInt, 32) \/ (t, bits) = (CIndex, 64) -> no_overflow bits ns -> add_up fsum csum t (map VZ ns) = Some (VZ (zsum ns)).
Proof.
  intros T H. apply safe_sums in H. destruct T as [E|E]; injection E as -> ->; unfold add_up; rewrite ints_of, H; reflexivity.
Qed.
Lemma add_floats xs : add_up fsum csum CReal (map VR xs) = Some (VR (fsum xs)).
Proof. unfold add_up. now rewrite floats_of. Qed.
Lemma add_complexes zs : add_up fsum csum CComplex (map (fun z => VC (fst z) (snd z)) zs) = Some (VC (fst (csum zs)) (snd (csum zs))).
Proof. unfold add_up. now rewrite complexes_of. Qed.
Lemma add_uints ns : add_up fsum csum CUint (map VZ ns) = Some (VZ (zsum ns mod 2 ^ 32)).
Proof. unfold add_up. now rewrite ints_of. Qed.

Lemma choices_ints ts args ns : Forall2 denotes args ns -> Forall int_range ns -> Forall2 (fun x v => choose (CInt :: ts) x = Some (CInt, v)) args (map VZ ns).
Proof.
  intros F. induction F as [|x n l ns D F IH]; intros R; cbn [map]; constructor; inversion R; subst.
  - now apply choose_int_first.
  - now apply IH.
Qed.
Lemma choices {A} ts t (f : A -> pynum) (g : A -> cval) l : (forall x, In x l -> choose ts (f x) = Some (t, g x)) -> Forall2 (fun x v => choose ts x = Some (t, v)) (map f l) (map g l).
Proof. induction l as [|a l IH]; intros H; cbn [map]; constructor; [apply H; now left|apply IH; intros x I; apply H; now right]. Qed.
Lemma in_int_range ns : no_overflow 32 ns -> Forall int_range ns.
Proof. intros H. apply Forall_forall. intros n I. exact (no_overflow_one 32 ns n H I). Qed.
Lemma const_map {A} (x : A) n : map (fun _ : nat => x) (seq 0 n) = repeat x n.
Proof. generalize 0%nat. induction n as [|n IH]; intros s; [reflexivity|]. cbn. now rewrite IH. Qed.

Lemma sum_ints args ns : args <> [] -> Forall2 denotes args ns -> no_overflow 32 ns -> py_sum fsum csum args = Returned (repeat (NInt (zsum ns)) (length args)).
Proof.
  intros N F H. unfold py_sum, sum_types. rewrite (together_same _ _ args CInt (map VZ ns) N (choices_ints _ args ns F (in_int_range ns H))).
  rewrite (all_results_map _ (fun _ => VZ (zsum ns))); [now rewrite const_map|]. intros i _. apply (add_ints CInt 32); [now left|exact H].
Qed.
Lemma sum_floats xs : xs <> [] -> py_sum fsum csum (map NFloat xs) = Returned (repeat (NFloat (fsum xs)) (length xs)).
Proof.
  intros N. unfold py_sum. rewrite (together_same _ _ _ CReal (map VR xs)).
  - rewrite (all_results_map _ (fun _ => VR (fsum xs))); [now rewrite const_map, map_length|]. intros i _. apply add_floats.
  - now destruct xs.
  - apply choices. intros x _. now apply choose_float; left.
Qed.
Lemma part_first bits ns i : no_overflow bits ns -> no_overflow bits (firstn i ns).
Proof. intros H. apply (no_overflow_part bits ns _ (skipn i ns) H). rewrite firstn_skipn. reflexivity. Qed.
Lemma cumulative_ints args ns : args <> [] -> Forall2 denotes args ns -> no_overflow 32 ns ->
  py_cumulative_sum fsum csum args = Returned (map (fun i => NInt (zsum (up_to i ns))) (seq 0 (length args))).
Proof.
  intros N F H. unfold py_cumulative_sum, cumulative_types. rewrite (together_same _ _ args CInt (map VZ ns) N (choices_ints _ args ns F (in_int_range ns H))).
  rewrite (all_results_map _ (fun i => VZ (zsum (up_to i ns)))); [reflexivity|]. intros i _. rewrite firstn_map. apply (add_ints CInt 32); [now left|]. now apply part_first.
Qed.
Lemma cumulative_wide ns : ns <> [] -> Forall wide_range ns -> no_overflow 64 ns ->
  py_cumulative_sum fsum csum (map NInt ns) = Returned (map (fun i => NInt (zsum (up_to i ns))) (seq 0 (length ns))).
Proof.
  intros N W H. unfold py_cumulative_sum. rewrite (together_same _ _ _ CIndex (map VZ ns)).
  - rewrite (all_results_map _ (fun i => VZ (zsum (up_to i ns)))); [now rewrite map_length|]. intros i _. rewrite firstn_map. apply (add_ints CIndex 64); [now right|]. now apply part_first.
  - now destruct ns.
  - apply choices. intros x I. apply choose_wide; [now left|]. rewrite Forall_forall in W. now apply W.
Qed.
Lemma cumulative_uint ns : ns <> [] -> Forall uint_range ns ->
  py_cumulative_sum fsum csum (map NInt ns) = Returned (map (fun i => NInt (zsum (up_to i ns) mod 2 ^ 32)) (seq 0 (length ns))).
Proof.
  intros N W. unfold py_cumulative_sum. rewrite (together_same _ _ _ CUint (map VZ ns)).
  - rewrite (all_results_map _ (fun i => VZ (zsum (up_to i ns) mod 2 ^ 32))); [now rewrite map_length|]. intros i _. rewrite firstn_map. apply add_uints.
  - now destruct ns.
  - apply choices. intros x I. apply choose_uint; [now left|]. rewrite Forall_forall in W. now apply W.
Qed.
Lemma cumulative_floats xs : xs <> [] -> py_cumulative_sum fsum csum (map NFloat xs) = Returned (map (fun i => NFloat (fsum (up_to i xs))) (seq 0 (length xs))).
Proof.
  intros N. unfold py_cumulative_sum. rewrite (together_same _ _ _ CReal (map VR xs)).
  - rewrite (all_results_map _ (fun i => VR (fsum (up_to i xs)))); [now rewrite map_length|]. intros i _. rewrite firstn_map. apply add_floats.
  - now destruct xs.
  - apply choices. intros x _. now apply choose_float; right; left.
Qed.
Lemma cumulative_complexes zs : zs <> [] -> py_cumulative_sum fsum csum (map (fun z => NComplex (fst z) (snd z)) zs) =
  Returned (map (fun i => NComplex (fst (csum (up_to i zs))) (snd (csum (up_to i zs)))) (seq 0 (length zs))).
Proof.
  intros N. unfold py_cumulative_sum. rewrite (together_same _ _ _ CComplex (map (fun z => VC (fst z) (snd z)) zs)).
  - rewrite (all_results_map _ (fun i => VC (fst (csum (up_to i zs))) (snd (csum (up_to i zs))))); [now rewrite map_length|]. intros i _. rewrite firstn_map. apply add_complexes.
  - now destruct zs.
  - apply choices. intros x _. apply choose_complex. now left.
Qed.
End S.

(** ** Broadcast *)
Lemma bcast_map {A} (f : A -> pynum) (g : A -> cval) t root l x : (forall y, In y l -> choose bcast_types (f y) = Some (t, g y)) -> (forall y, result (g y) = f y) ->
  nth_error l root = Some x -> py_bcast root (map f l) = Returned (repeat (f x) (length (map f l))).
Proof.
  intros C R E. unfold py_bcast. rewrite (together_same _ _ _ t (map g l)).
  - rewrite (all_results_map _ (fun _ => g x)); [now rewrite const_map, R|]. intros i _. unfold bcast. now apply map_nth_error.
  - destruct l; [destruct root; discriminate|discriminate].
  - now apply choices.
Qed.
Lemma nth_error_map_inv {A B} (f : A -> B) l n y : nth_error (map f l) n = Some y -> exists x, nth_error l n = Some x /\ y = f x.
Proof. revert n. induction l as [|a l IH]; intros [|n] H; cbn in H; try discriminate; [injection H as <-; now exists a|]. now apply IH. Qed.
Lemma bcast_one_kind root args x : one_kind args -> nth_error args root = Some x -> py_bcast root args = Returned (repeat x (length args)).
Proof.
  intros [(xs & ->)|[(zs & ->)|(ns & -> & R)]] E; apply nth_error_map_inv in E as (y & E & ->).
  - apply (bcast_map NFloat VR CReal); [|reflexivity|exact E]. intros z _. apply choose_float. right; right; now left.
  - apply (bcast_map (fun z : Z * Z => NComplex (fst z) (snd z)) (fun z => VC (fst z) (snd z)) CComplex); [|reflexivity|exact E]. intros z _. apply choose_complex. right; now left.
  - assert (I : forall P : Z -> Prop, Forall P ns -> forall z, In z ns -> P z) by (intros P; apply Forall_forall).
    destruct R as [R|[R|R]].
    + apply (bcast_map NInt VZ CInt); [|reflexivity|exact E]. intros z Hz. apply choose_int_second. exact (I _ R z Hz).
    + apply (bcast_map NInt VZ CUint); [|reflexivity|exact E]. intros z Hz. apply choose_uint; [right; now left|exact (I _ R z Hz)].
    + apply (bcast_map NInt VZ CIndex); [|reflexivity|exact E]. intros z Hz. apply choose_wide; [right; now left|exact (I _ R z Hz)].
Qed.

(** ** Alone *)
Lemma alone_ints ts n : In ts [cumulative_types; bcast_types] -> - 2 ^ 63 <= n < 2 ^ 63 -> alone ts (NInt n) = PyOk (NInt n).
Proof.
  intros I R. unfold alone. assert (C : int_range n \/ uint_range n \/ wide_range n) by (unfold int_range, uint_range, wide_range; lia).
  destruct C as [C|[C|C]].
  - destruct I as [<-|[<-|[]]]; [unfold cumulative_types; rewrite (choose_int_first _ _ n); [reflexivity|now left|exact C]|rewrite choose_int_second by exact C; reflexivity].
  - rewrite choose_uint by assumption. reflexivity.
  - rewrite choose_wide by assumption. reflexivity.
Qed.

(** ** Arrays *)
Lemma ctype_eqb_eq a b : ctype_eqb a b = true <-> a = b. Proof. destruct a, b; cbn; split; congruence. Qed.
Lemma load_array_iff t a r c : load_array t a = Some (r, c) <-> r_type a = Some t /\ f_contiguous a = true /\ r_writeable a = true /\ rows_cols (r_dims a) r c.
Proof.
  unfold load_array, rows_cols. destruct (r_type a) as [u|]; [|split; [discriminate|intros [H _]; discriminate]].
  destruct (ctype_eqb t u) eqn:E; [apply ctype_eqb_eq in E; subst u|].
  - destruct (f_contiguous a), (r_writeable a); cbn [andb]; [|split; [discriminate|intros (_ & _ & H & _); discriminate]|split; [discriminate|intros (_ & H & _); discriminate]|split; [discriminate|intros (_ & H & _); discriminate]].
    split.
    + destruct (r_dims a) as [|n [|m [|? ?]]]; try discriminate; intros H; injection H as <- <-; repeat split; auto.
    + intros (_ & _ & _ & [[-> ->]| ->]); reflexivity.
  - cbn [andb]. split; [discriminate|]. intros [H _]. injection H as ->. now rewrite ctype_eqb_refl in E.
Qed.
Lemma choose_array_iff a t r c : choose_array a = Some (t, (r, c)) <-> r_type a = Some t /\ f_contiguous a = true /\ r_writeable a = true /\ rows_cols (r_dims a) r c.
Proof.
  rewrite <- load_array_iff. unfold choose_array, array_types. cbn [fold_right].
  assert (O : forall u v x y, load_array u a = Some x -> load_array v a = Some y -> u = v).
  { intros u v [r1 c1] [r2 c2] H1 H2. apply load_array_iff in H1 as [H1 _]. apply load_array_iff in H2 as [H2 _]. congruence. }
  split.
  - intros H. repeat (match goal with H : match load_array ?u a with _ => _ end = _ |- _ => destruct (load_array u a) eqn:?E; [injection H as <- <-; assumption|] end). discriminate.
  - intros H. assert (N : forall u, u <> t -> load_array u a = None).
    { intros u D. destruct (load_array u a) eqn:E; [|reflexivity]. now destruct (D (O _ _ _ _ E H)). }
    destruct t; rewrite ?(N CReal), ?(N CInt), ?(N CUint), ?(N CIndex), ?(N CComplex) by discriminate; now rewrite H.
Qed.
Lemma adjacent_vector a n : r_dims a = [n] -> (f_contiguous a = true <-> r_order a <> Apart).
Proof. intros D. unfold f_contiguous. rewrite D. destruct (r_order a); cbn; [|split; [discriminate|reflexivity]|split; [discriminate|congruence]]. split; [discriminate|]. intros _. destruct n as [|[|n]]; reflexivity. Qed.
Lemma adjacent_matrix a n m : r_dims a = [n; m] -> (2 <= n)%nat -> (2 <= m)%nat -> (f_contiguous a = true <-> r_order a = Fortran).
Proof.
  intros D N M. unfold f_contiguous. rewrite D. destruct (r_order a); [|tauto|split; discriminate]. split; [|discriminate].
  destruct n as [|[|n]]; [lia|lia|]. destruct m as [|[|m]]; [lia|lia|]. cbn. discriminate.
Qed.
