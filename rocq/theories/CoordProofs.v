(** Proofs about coordinates of runtime dimension. *)
From Verif Require Import Base CoordModel CoordSpec LayoutProofs.
Local Open Scope Z_scope.
Local Open Scope list_scope.

Lemma firstn_app_le {A} n (a b : list A) : (n <= length a)%nat -> firstn n (a ++ b) = firstn n a.
Proof. intros H. rewrite firstn_app. replace (n - length a)%nat with 0%nat by lia. cbn [firstn]. apply app_nil_r. Qed.

Lemma holds_of_list M l : (length l <= M)%nat -> holds M (mk_coord (Z.of_nat (length l)) (l ++ repeat 0 (M - length l))) l.
Proof.
  intros H. repeat split; cbn [d_arr d_dim].
  - rewrite app_length, repeat_length. lia.
  - rewrite firstn_app_le by lia. apply firstn_all.
Qed.

Lemma holds_le M c l : holds M c l -> (length l <= M)%nat.
Proof. intros (L & _ & F). rewrite <- F, firstn_length. lia. Qed.

Lemma arr_get_holds M c l i : holds M c l -> 0 <= i < Z.of_nat (length l) -> arr_get c i = Ok (zn l (Z.to_nat i)).
Proof.
  intros (L & D & F) H. unfold arr_get, zn. destruct (Z.ltb_spec i 0); [lia|].
  assert (E : nth_error (d_arr c) (Z.to_nat i) = Some (nth (Z.to_nat i) l 0)).
  { rewrite <- (firstn_skipn (length l) (d_arr c)), F, nth_error_app1 by lia. apply nth_error_nth'. lia. }
  now rewrite E.
Qed.

Lemma list_eqb_spec a b : list_eqb a b = true <-> a = b.
Proof.
  revert b. induction a as [|x a IH]; intros [|y b]; cbn [list_eqb]; try (split; congruence).
  rewrite andb_true_iff, IH, Z.eqb_eq. split; [intros [-> ->]; reflexivity|intros E; injection E; auto].
Qed.

(** Comparison. *)
Lemma eq_loop M a b la lb k i r : holds M a la -> holds M b lb -> length la = length lb -> 0 <= i -> (Z.to_nat i + k = length la)%nat ->
  exists q, c_loop (fun i r => let! x := arr_get a i in let! y := arr_get b i in Ok (r && (x =? y))) k i r = Ok q /\
    (q = true <-> r = true /\ skipn (Z.to_nat i) la = skipn (Z.to_nat i) lb).
Proof.
  intros Ha Hb L. revert i r. induction k as [|k IH]; intros i r Hi Hk; cbn [c_loop].
  - exists r. split; [reflexivity|]. rewrite !skipn_all2 by lia. tauto.
  - rewrite (arr_get_holds M a la i Ha), (arr_get_holds M b lb i Hb) by lia. cbn [bind].
    destruct (IH (i + 1) (r && (zn la (Z.to_nat i) =? zn lb (Z.to_nat i))) ltac:(lia) ltac:(lia)) as (q & Eq & Sq).
    exists q. split; [exact Eq|]. rewrite Sq. replace (Z.to_nat (i + 1)) with (S (Z.to_nat i)) by lia.
    assert (X : forall l : list Z, (Z.to_nat i < length l)%nat -> skipn (Z.to_nat i) l = zn l (Z.to_nat i) :: skipn (S (Z.to_nat i)) l).
    { intros l Hl. unfold zn. generalize dependent (Z.to_nat i). intros n _ _ _ Hn. revert n Hn.
      induction l as [|x l IHl]; intros [|n] Hn; cbn [skipn nth] in *; try (cbn in Hn; lia); [reflexivity|]. apply IHl. cbn in Hn. lia. }
    rewrite (X la), (X lb) by lia. rewrite andb_true_iff, Z.eqb_eq. split; [intros [[-> ->] ->]; auto|].
    intros [-> E]. injection E as E1 E2. auto.
Qed.
Lemma eq_diff_loop a b k i : (forall j, i <= j < i + Z.of_nat k -> exists x y, arr_get a j = Ok x /\ arr_get b j = Ok y) ->
  c_loop (fun i r => let! x := arr_get a i in let! y := arr_get b i in Ok (r && (x =? y))) k i false = Ok false.
Proof.
  revert i. induction k as [|k IH]; intros i H; cbn [c_loop]; [reflexivity|].
  destruct (H i ltac:(lia)) as (x & y & -> & ->). cbn [bind andb]. apply IH. intros j Hj. apply H. lia.
Qed.
Lemma arr_get_ok c j : 0 <= j < Z.of_nat (length (d_arr c)) -> exists x, arr_get c j = Ok x.
Proof.
  intros H. unfold arr_get. destruct (Z.ltb_spec j 0); [lia|]. destruct (nth_error (d_arr c) (Z.to_nat j)) eqn:E; [eauto|].
  apply nth_error_None in E. lia.
Qed.
Lemma eq_holds M a b la lb : holds M a la -> holds M b lb -> exists q, c_eq a b = Ok q /\ (q = true <-> la = lb).
Proof.
  intros Ha Hb. unfold c_eq, c_for. destruct Ha as (L1 & D1 & F1) eqn:E1. destruct Hb as (L2 & D2 & F2) eqn:E2. clear E1 E2.
  rewrite D1, D2, Nat2Z.id. destruct (Z.eqb_spec (Z.of_nat (length la)) (Z.of_nat (length lb))) as [E|E].
  - destruct (eq_loop M a b la lb (length la) 0 true ltac:(now repeat split) ltac:(now repeat split) ltac:(lia) ltac:(lia) ltac:(reflexivity)) as (q & Eq & Sq).
    exists q. split; [exact Eq|]. rewrite Sq. cbn [Z.to_nat skipn]. tauto.
  - exists false. split; [|split; [discriminate|intros ->; contradiction]]. apply eq_diff_loop. intros j Hj.
    assert (Hm : (length la <= M)%nat) by (apply (holds_le M a); now repeat split).
    destruct (arr_get_ok a j ltac:(lia)) as (x & Ex). destruct (arr_get_ok b j ltac:(lia)) as (y & Ey). eauto.
Qed.
Lemma eq_array_holds M a la l : holds M a la -> c_eq_array a l = true <-> la = l.
Proof.
  intros (L & D & F). unfold c_eq_array, c_get. rewrite D, andb_true_iff, Z.eqb_eq, list_eqb_spec. split.
  - intros [E1 E2]. assert (E : length la = length l) by lia. rewrite <- E, F in E2. exact E2.
  - intros ->. auto.
Qed.

(** Entry-wise operations. *)
Lemma arr_set_ok c i v : 0 <= i < Z.of_nat (length (d_arr c)) -> arr_set c i v = Ok (mk_coord (d_dim c) (upd (d_arr c) (Z.to_nat i) v)).
Proof. intros H. unfold arr_set. destruct (Z.ltb_spec i 0); [lia|]. destruct (Z.leb_spec (Z.of_nat (length (d_arr c))) i); [lia|reflexivity]. Qed.

Lemma firstn_upd_S {A} (l : list A) n v : (n < length l)%nat -> firstn (S n) (upd l n v) = firstn n l ++ [v].
Proof. revert n. induction l as [|x l IH]; intros [|n] H; cbn in *; try lia; [reflexivity|]. f_equal. apply IH. lia. Qed.
Lemma skipn_upd {A} (l : list A) n m v : (n < m)%nat -> skipn m (upd l n v) = skipn m l.
Proof. revert n m. induction l as [|x l IH]; intros [|n] [|m] H; cbn [upd skipn]; try lia; try reflexivity. apply IH. lia. Qed.

Lemma zip_loop op a b la lb M k i r : holds M a la -> holds M b lb -> length la = length lb -> 0 <= i -> (Z.to_nat i + k = length la)%nat ->
  length (d_arr r) = M ->
  (forall j, (j < length la)%nat -> exists z, op (zn la j) (zn lb j) = Ok z) ->
  exists r', c_loop (fun i r => let! x := arr_get a i in let! y := arr_get b i in let! z := op x y in arr_set r i z) k i r = Ok r' /\
    d_dim r' = d_dim r /\ length (d_arr r') = M /\
    firstn (Z.to_nat i) (d_arr r') = firstn (Z.to_nat i) (d_arr r) /\
    (forall j, (Z.to_nat i <= j < length la)%nat -> op (zn la j) (zn lb j) = Ok (zn (d_arr r') j)) /\
    skipn (length la) (d_arr r') = skipn (length la) (d_arr r).
Proof.
  intros Ha Hb L. assert (HM := holds_le _ _ _ Ha). revert i r. induction k as [|k IH]; intros i r Hi Hk Hr Hop; cbn [c_loop].
  - exists r. repeat split; auto. intros j Hj. lia.
  - rewrite (arr_get_holds M a la i Ha), (arr_get_holds M b lb i Hb) by lia. cbn [bind].
    destruct (Hop (Z.to_nat i) ltac:(lia)) as (z & Ez). rewrite Ez. cbn [bind]. rewrite arr_set_ok by lia. cbn [bind].
    destruct (IH (i + 1) (mk_coord (d_dim r) (upd (d_arr r) (Z.to_nat i) z)) ltac:(lia) ltac:(lia)) as (r' & E & D & Lr & Fr & Or & Sr);
      [cbn [d_arr]; now rewrite upd_length|exact Hop|].
    exists r'. split; [exact E|]. split; [exact D|]. split; [exact Lr|]. cbn [d_arr] in *.
    replace (Z.to_nat (i + 1)) with (S (Z.to_nat i)) in Fr, Or by lia. rewrite firstn_upd_S in Fr by lia. split; [|split].
    + assert (X := f_equal (firstn (Z.to_nat i)) Fr). rewrite firstn_firstn, Nat.min_l in X by lia. rewrite X, firstn_app_le by (rewrite firstn_length; lia).
      rewrite firstn_firstn. now rewrite Nat.min_id.
    + intros j Hj. destruct (Nat.eq_dec j (Z.to_nat i)) as [->|Hne]; [|apply Or; lia].
      rewrite Ez. f_equal. unfold zn. rewrite <- (firstn_skipn (S (Z.to_nat i)) (d_arr r')), Fr.
      rewrite app_nth1 by (rewrite app_length, firstn_length; cbn [length]; lia). rewrite app_nth2 by (rewrite firstn_length; lia).
      rewrite firstn_length. replace (Z.to_nat i - Nat.min (Z.to_nat i) (length (d_arr r)))%nat with 0%nat by lia. reflexivity.
    + rewrite Sr. apply skipn_upd. lia.
Qed.

Lemma pointwise_nth op a b l : pointwise op a b = Some l <->
  length a = length b /\ length l = length a /\ forall j, (j < length a)%nat -> zn l j = op (zn a j) (zn b j).
Proof.
  revert b l. induction a as [|x a IH]; intros [|y b] l; cbn [pointwise].
  - split.
    + intros E. injection E as <-. repeat split; intros j Hj; cbn in Hj; lia.
    + intros (_ & H & _). destruct l; [reflexivity|discriminate].
  - split; [discriminate|intros (H & _); discriminate].
  - split; [discriminate|intros (H & _); discriminate].
  - destruct (pointwise op a b) as [t|] eqn:E.
    + destruct (proj1 (IH b t) E) as (L1 & L2 & H). split.
      * intros X. injection X as <-. cbn [length]. repeat split; try lia. intros [|j] Hj; [reflexivity|]. apply (H j). cbn in Hj. lia.
      * intros (_ & L & N). destruct l as [|z l]; [discriminate|]. f_equal. f_equal.
        -- symmetry. exact (N 0%nat ltac:(cbn; lia)).
        -- cbn [length] in L. apply nth_ext with (d := 0) (d' := 0); [lia|]. intros j Hj. assert (X := N (S j) ltac:(cbn; lia)).
           change (zn (z :: l) (S j)) with (nth j l 0) in X. rewrite X. exact (H j ltac:(lia)).
    + split; [discriminate|]. intros (L & Ll & N). destruct l as [|z l]; [discriminate|].
      assert (X : pointwise op a b = Some l) by (apply IH; cbn [length] in *; repeat split; try lia; intros j Hj; exact (N (S j) ltac:(lia))).
      congruence.
Qed.
Lemma nth_firstn_lt {A} (l : list A) n j d : (j < n)%nat -> nth j (firstn n l) d = nth j l d.
Proof. revert n j. induction l as [|x l IH]; intros [|n] [|j] H; cbn; try lia; auto. apply IH. lia. Qed.

Lemma zip_holds M op f a b la lb : holds M a la -> holds M b lb ->
  (forall j, (j < length la)%nat -> (j < length lb)%nat -> op (zn la j) (zn lb j) = Ok (f (zn la j) (zn lb j))) ->
  match pointwise f la lb with
  | Some l => exists r, c_zip M op a b = Ok r /\ holds M r l
  | None => c_zip M op a b = Err RuntimeError
  end.
Proof.
  intros Ha Hb Hop. unfold c_zip. assert (Da := proj1 (proj2 Ha)). assert (Db := proj1 (proj2 Hb)). rewrite Da, Db.
  destruct (pointwise f la lb) as [l|] eqn:E.
  - apply pointwise_nth in E. destruct E as (L1 & L2 & N). rewrite L1, Z.eqb_refl. cbn [negb]. unfold c_for. rewrite Nat2Z.id.
    destruct (zip_loop op a b la lb M (length lb) 0 (c_of_dim M (Z.of_nat (length lb))) Ha Hb L1 ltac:(lia) ltac:(lia)) as (r' & Er & D & Lr & _ & O & _).
    + apply repeat_length.
    + intros j Hj. eexists. apply Hop; lia.
    + exists r'. split; [exact Er|]. split; [exact Lr|]. split; [rewrite D; cbn [d_dim c_of_dim]; lia|].
      assert (HM := holds_le _ _ _ Ha). apply nth_ext with (d := 0) (d' := 0); [rewrite firstn_length; lia|].
      rewrite firstn_length. intros j Hj. rewrite nth_firstn_lt by lia. assert (X := O j ltac:(lia)). rewrite (Hop j) in X by lia.
      apply Ok_inj in X. change (nth j (d_arr r') 0) with (zn (d_arr r') j). rewrite <- X. symmetry. exact (N j ltac:(lia)).
  - destruct (Z.eqb_spec (Z.of_nat (length la)) (Z.of_nat (length lb))) as [L|]; [|reflexivity]. exfalso.
    assert (X : pointwise f la lb = Some (map (fun j => f (zn la j) (zn lb j)) (seq 0 (length la)))); [|congruence].
    apply pointwise_nth. rewrite map_length, seq_length. repeat split; [lia|]. intros j Hj. unfold zn.
    rewrite (nth_indep _ 0 (f (nth (length la) la 0) (nth (length la) lb 0))) by (rewrite map_length, seq_length; lia).
    rewrite (map_nth (fun j => f (nth j la 0) (nth j lb 0))), seq_nth by lia. reflexivity.
Qed.

(** Remainder. *)
Lemma mod_loop a b la lb M k i r : holds M a la -> holds M b lb -> 0 <= i -> (Z.to_nat i + k = Nat.min (length la) (length lb))%nat ->
  length (d_arr r) = M -> Forall (fun y => y <> 0) lb ->
  exists r', c_loop (fun i r => let! x := arr_get a i in let! y := arr_get b i in if y =? 0 then UB else arr_set r i (Z.rem x y)) k i r = Ok r' /\
    d_dim r' = d_dim r /\ length (d_arr r') = M /\
    (forall j, (j < Z.to_nat i)%nat \/ (Nat.min (length la) (length lb) <= j)%nat -> zn (d_arr r') j = zn (d_arr r) j) /\
    (forall j, (Z.to_nat i <= j < Nat.min (length la) (length lb))%nat -> zn (d_arr r') j = Z.rem (zn la j) (zn lb j)).
Proof.
  intros Ha Hb. assert (HM := holds_le _ _ _ Ha). revert i r. induction k as [|k IH]; intros i r Hi Hk Hr Hz; cbn [c_loop].
  - exists r. repeat split; auto. intros j Hj. lia.
  - rewrite (arr_get_holds M a la i Ha), (arr_get_holds M b lb i Hb) by lia. cbn [bind].
    assert (Nz : zn lb (Z.to_nat i) <> 0) by (rewrite Forall_forall in Hz; apply Hz, nth_In; lia).
    destruct (Z.eqb_spec (zn lb (Z.to_nat i)) 0); [contradiction|]. rewrite arr_set_ok by lia. cbn [bind].
    destruct (IH (i + 1) (mk_coord (d_dim r) (upd (d_arr r) (Z.to_nat i) (Z.rem (zn la (Z.to_nat i)) (zn lb (Z.to_nat i))))) ltac:(lia) ltac:(lia)) as (r' & E & D & Lr & F & O);
      [cbn [d_arr]; now rewrite upd_length|exact Hz|].
    exists r'. split; [exact E|]. split; [exact D|]. split; [exact Lr|]. cbn [d_arr] in *. split.
    + intros j Hj. rewrite F by lia. unfold zn. apply nth_upd_other. lia.
    + intros j Hj. destruct (Nat.eq_dec j (Z.to_nat i)) as [->|Hne]; [|apply O; lia]. rewrite F by lia. unfold zn. apply nth_upd_same. lia.
Qed.
Lemma range_ok M c l : holds M c l -> c_range_ok c = true.
Proof. intros H. assert (HM := holds_le _ _ _ H). destruct H as (L & D & F). unfold c_range_ok. rewrite D, L. apply andb_true_iff. split; apply Z.leb_le; lia. Qed.
Lemma mod_holds M a b la lb : holds M a la -> holds M b lb -> length la = length lb -> Forall (fun y => y <> 0) lb ->
  exists r l, c_mod a b = Ok r /\ holds M r l /\ pointwise Z.rem la lb = Some l.
Proof.
  intros Ha Hb L Hz. unfold c_mod. rewrite (range_ok _ _ _ Ha), (range_ok _ _ _ Hb). cbn [andb negb]. unfold c_for.
  assert (HM := holds_le _ _ _ Ha). assert (Ha' := Ha). destruct Ha' as (La & Da & Fa). assert (Hb' := Hb). destruct Hb' as (Lb & Db & Fb).
  rewrite Da, Db. replace (Z.to_nat (Z.min (Z.of_nat (length la)) (Z.of_nat (length lb)))) with (length la) by lia.
  destruct (mod_loop a b la lb M (length la) 0 a Ha Hb ltac:(lia) ltac:(lia) La Hz) as (r & E & D & Lr & F & O).
  exists r, (firstn (length la) (d_arr r)). split; [exact E|]. split.
  - repeat split; [exact Lr|rewrite D, Da, firstn_length; lia|]. rewrite firstn_length. replace (Nat.min (length la) (length (d_arr r))) with (length la) by lia. reflexivity.
  - apply pointwise_nth. rewrite firstn_length. repeat split; [exact L|lia|]. intros j Hj. unfold zn at 1. rewrite nth_firstn_lt by lia. apply O. lia.
Qed.

Lemma push_holds M c l v : holds M c l -> Z.of_nat M < 2 ^ 64 ->
  if (length l <? M)%nat then exists c', c_push_back M c v = Ok c' /\ holds M c' (l ++ [v]) else c_push_back M c v = Err RuntimeError.
Proof.
  intros H HM. assert (Hl := holds_le _ _ _ H). destruct H as (L & D & F). unfold c_push_back. rewrite D, Z.mod_small by lia.
  destruct (Nat.ltb_spec (length l) M).
  - destruct (Z.leb_spec (Z.of_nat M) (Z.of_nat (length l))); [lia|]. rewrite arr_set_ok by lia. cbn [bind d_dim d_arr]. rewrite Nat2Z.id.
    eexists. split; [reflexivity|]. repeat split; cbn [d_arr d_dim]; [now rewrite upd_length|rewrite app_length; cbn [length]; lia|].
    rewrite app_length. cbn [length]. rewrite Nat.add_1_r, firstn_upd_S by lia. now rewrite F.
  - destruct (Z.leb_spec (Z.of_nat M) (Z.of_nat (length l))); [reflexivity|lia].
Qed.
Lemma vector_holds M c l : holds M c l -> c_to_vector c = Ok l.
Proof. intros H. unfold c_to_vector. rewrite (range_ok _ _ _ H). destruct H as (L & D & F). now rewrite D, Nat2Z.id, F. Qed.
Lemma assign_holds M c l : length (d_arr c) = M -> (length l <= M)%nat -> holds M (c_assign c l) l.
Proof.
  intros L H. unfold c_assign. repeat split; cbn [d_arr d_dim]; [rewrite app_length, skipn_length; lia|].
  rewrite firstn_app_le by lia. apply firstn_all.
Qed.
Lemma back_holds M c l x : holds M c (l ++ [x]) -> c_back c = Ok x.
Proof.
  intros H. assert (Hd := proj1 (proj2 H)). unfold c_back. rewrite Hd, app_length. cbn [length].
  rewrite (arr_get_holds M c (l ++ [x])) by (try exact H; rewrite app_length; cbn [length]; lia).
  replace (Z.to_nat (Z.of_nat (length l + 1) - 1)) with (length l) by lia. unfold zn. now rewrite nth_middle.
Qed.
Lemma getitem_holds M c l i : holds M c l -> c_getitem c i = if (0 <=? i) && (i <? Z.of_nat (length l)) then Ok (zn l (Z.to_nat i)) else Err OutOfRange.
Proof.
  intros H. assert (D := proj1 (proj2 H)). unfold c_getitem. rewrite D.
  destruct (Z.ltb_spec i 0), (Z.leb_spec (Z.of_nat (length l)) i), (Z.leb_spec 0 i), (Z.ltb_spec i (Z.of_nat (length l))); cbn [orb andb]; try lia; try reflexivity.
  apply (arr_get_holds M c l i H). lia.
Qed.

Lemma ipow_loop_spec b k r : ipow_loop b k r = r * b ^ Z.of_nat k.
Proof.
  revert r. induction k as [|k IH]; intros r; cbn [ipow_loop]; [cbn; ring|]. rewrite IH.
  rewrite Nat2Z.inj_succ, Z.pow_succ_r by lia. ring.
Qed.
