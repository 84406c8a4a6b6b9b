(** Proofs about collective operations. *)
From Verif Require Import Base CIntModel SqrtModel SqrtProofs CommModel CommSpec.
Local Open Scope Z_scope.
Local Open Scope list_scope.

Lemma zsum_nat l : zsum (map Z.of_nat l) = Z.of_nat (nsum l).
Proof. induction l as [|x l IH]; [reflexivity|]. cbn [map zsum fold_right nsum]. fold (zsum (map Z.of_nat l)). fold (nsum l). rewrite IH. lia. Qed.
Lemma zsum_app a b : zsum (a ++ b) = zsum a + zsum b.
Proof. induction a as [|x a IH]; [reflexivity|]. cbn [app zsum fold_right]. fold (zsum (a ++ b)). fold (zsum a). rewrite IH. lia. Qed.
Lemma zsum_cons x l : zsum (x :: l) = x + zsum l.
Proof. reflexivity. Qed.

Lemma add_int_all (l : list nat) : forall acc, 0 <= acc -> acc + Z.of_nat (nsum l) < 2 ^ 31 -> fold_left add_int (map Z.of_nat l) (Ok acc) = Ok (acc + Z.of_nat (nsum l)).
Proof.
  induction l as [|x l IH]; intros acc Ha H; cbn [map fold_left nsum fold_right] in *; [f_equal; lia|]. fold (nsum l) in *. cbn [add_int bind]. rewrite as_int_ok by lia. rewrite IH by lia. f_equal. lia.
Qed.

Lemma skipn_twice {A} n : forall m (l : list A), skipn n (skipn m l) = skipn (m + n) l.
Proof. induction m as [|m IH]; intros l; [reflexivity|]. destruct l as [|x l]; [cbn; now rewrite skipn_nil|]. cbn. apply IH. Qed.

Lemma fill {A} (sends : list (list A)) : forall (ns : list nat) (done rest : list A),
  length ns = length sends -> (forall i s, nth_error sends i = Some s -> (nth i ns 0 <= length s)%nat) -> (nsum ns <= length rest)%nat ->
  allgatherv (done ++ rest) sends (map Z.of_nat ns) (displacements (Z.of_nat (length done)) (map Z.of_nat ns)) =
  Ok (done ++ concat (map (fun p => firstn (fst p) (snd p)) (combine ns sends)) ++ skipn (nsum ns) rest).
Proof.
  induction sends as [|s sends IH]; intros [|n ns] done rest L B T; cbn in L; try discriminate; [reflexivity|].
  cbn [map displacements allgatherv combine fst snd concat nsum fold_right] in *. fold (nsum ns) in *. destruct (Z.ltb_spec (Z.of_nat n) 0); [lia|]. rewrite Nat2Z.id.
  pose proof (B 0%nat s eq_refl) as Bs. cbn in Bs. unfold take. destruct (Nat.leb_spec n (length s)); [|lia]. cbn [bind]. rewrite Nat2Z.id. unfold place. rewrite firstn_length_le by lia.
  destruct (Nat.leb_spec (length done + n) (length (done ++ rest))) as [|C]; [|rewrite app_length in C; lia]. cbn [bind].
  rewrite firstn_app, firstn_all, Nat.sub_diag, firstn_O, app_nil_r. rewrite skipn_app, skipn_all2 by lia. cbn [app]. replace (length done + n - length done)%nat with n by lia.
  rewrite app_assoc. replace (Z.of_nat (length done) + Z.of_nat n) with (Z.of_nat (length (done ++ firstn n s))) by (rewrite app_length, firstn_length_le by lia; lia).
  rewrite IH; [|lia|intros i x Hx; exact (B (S i) x Hx)|rewrite skipn_length; lia]. f_equal. rewrite <- !app_assoc. f_equal. f_equal. f_equal. apply skipn_twice.
Qed.

Lemma wrap_small n : 0 <= n < 2 ^ 31 -> wrap32 n = n.
Proof. intros H. unfold wrap32. rewrite Z.mod_small by lia. lia. Qed.

Lemma nsum_in n l : In n l -> (n <= nsum l)%nat.
Proof. induction l as [|x l IH]; [contradiction|]. intros [->|I]; cbn [nsum fold_right]; fold (nsum l); [lia|specialize (IH I); lia]. Qed.

Lemma msize_backed {A} (m : matrix A) : backed m -> contiguous m -> (msize m <= length (m_buf m))%nat.
Proof.
  unfold contiguous. intros [Ho [Hb|Hb]] C; unfold msize; [rewrite Hb; lia|]. destruct (m_cols m) as [|k]; [lia|]. replace (S k - 1)%nat with k in Hb by lia.
  rewrite Nat.mul_succ_r. destruct C as [C|C]; [rewrite C in Hb; lia|]. assert (k = 0)%nat by lia. subst. lia.
Qed.
Lemma sizes_small {A} (args : list (matrix A)) : Z.of_nat (nsum (map msize args)) < 2 ^ 31 -> map sent_size args = map Z.of_nat (map msize args).
Proof.
  intros H. rewrite map_map. apply map_ext_in. intros m I. unfold sent_size. apply wrap_small. pose proof (nsum_in (msize m) (map msize args) (in_map _ _ _ I)). unfold msize in *. lia.
Qed.

(** Columns of contiguous memory. *)
Definition chunks {A} (r c : nat) (b : list A) : list (list A) := map (fun j => firstn r (skipn (j * r) b)) (seq 0 c).
Lemma chunks_app {A} r c1 c2 (b1 b2 : list A) : length b1 = (r * c1)%nat -> chunks r (c1 + c2) (b1 ++ b2) = chunks r c1 b1 ++ chunks r c2 b2.
Proof.
  intros L. unfold chunks. rewrite seq_app, map_app. f_equal.
  - apply map_ext_in. intros j I. apply in_seq in I. rewrite skipn_app. replace (j * r - length b1)%nat with 0%nat by nia. cbn [skipn]. rewrite firstn_app. replace (r - length (skipn (j * r) b1))%nat with 0%nat; [now rewrite firstn_O, app_nil_r|]. rewrite skipn_length, L. nia.
  - cbn [Nat.add]. assert (Q : forall k, seq (c1 + k) c2 = map (fun j => (c1 + j)%nat) (seq k c2)).
    { clear. induction c2 as [|c2 IH]; intros k; [reflexivity|]. cbn [seq map]. f_equal. rewrite <- IH. f_equal. lia. }
    specialize (Q 0%nat). rewrite Nat.add_0_r in Q. rewrite Q.
    rewrite map_map. apply map_ext. intros j. f_equal. rewrite skipn_app, skipn_all2 by nia. cbn [app]. f_equal. nia.
Qed.

Lemma columns_chunks {A} (m : matrix A) : backed m -> contiguous m -> columns m = chunks (m_rows m) (m_cols m) (firstn (msize m) (m_buf m)).
Proof.
  intros [Ho Hb] C. unfold columns, chunks, column. apply map_ext_in. intros j I. apply in_seq in I. unfold msize. destruct Hb as [Hb|Hb]; [lia|].
  assert (E : (j * m_outer m = j * m_rows m)%nat). { destruct C as [->|C]; [reflexivity|]. assert (j = 0)%nat by lia. now subst. }
  rewrite E, skipn_firstn_comm, firstn_firstn. f_equal. nia.
Qed.

Lemma rows_max {A} rows (args : list (matrix A)) : Forall (gatherable rows) args -> (exists m, In m args /\ m_rows m = rows) -> fold_right Nat.max 0%nat (map m_rows args) = rows.
Proof.
  intros F (m & I & E). apply Nat.le_antisymm.
  - clear I. induction F as [|a l G F IH]; cbn; [lia|]. destruct G as [G|[G _]]; lia.
  - clear F. induction args as [|a l IH]; [contradiction|]. destruct I as [->|I]; cbn; [lia|]. specialize (IH I). lia.
Qed.

Lemma gathered_columns {A} rows (args : list (matrix A)) : Forall (gatherable rows) args -> Forall backed args -> Forall contiguous args ->
  exists c, nsum (map msize args) = (rows * c)%nat /\
    chunks rows c (concat (map (fun p => firstn (fst p) (snd p)) (combine (map msize args) (map m_buf args)))) = concat (map columns args) /\
    length (concat (map (fun p => firstn (fst p) (snd p)) (combine (map msize args) (map m_buf args)))) = (rows * c)%nat.
Proof.
  induction args as [|m args IH]; intros G B C; [exists 0%nat; split; [cbn; lia|]; split; [reflexivity|cbn; lia]|]. inversion G; inversion B; inversion C; subst. destruct IH as (c & S & E & L); auto.
  cbn [map combine concat nsum fold_right fst snd]. fold (nsum (map msize args)).
  assert (Lb : length (firstn (msize m) (m_buf m)) = msize m).
  { apply firstn_length_le, msize_backed; assumption. }
  destruct H1 as [R|[R K]].
  - exists (m_cols m + c)%nat. assert (M : msize m = (rows * m_cols m)%nat) by (unfold msize; now rewrite R). split; [lia|]. split; [|rewrite app_length, Lb, L; lia].
    rewrite chunks_app by lia. rewrite E, (columns_chunks m) by assumption. now rewrite R.
  - exists c. assert (M : msize m = 0%nat) by (unfold msize; rewrite R; lia). rewrite M, firstn_O. cbn [app]. split; [lia|]. split; [|exact L]. rewrite E. unfold columns. now rewrite K.
Qed.

Lemma firstn_exact {A} (l : list A) n : length l = n -> firstn n l = l.
Proof. intros <-. apply firstn_all. Qed.

Lemma gather_all {A} (zero : A) rows (args : list (matrix A)) rank :
  (0 < rows)%nat -> Forall (gatherable rows) args -> Forall backed args -> Forall contiguous args -> (exists m, In m args /\ m_rows m = rows) -> Z.of_nat (nsum (map msize args)) < 2 ^ 31 ->
  exists m, gather zero args rank = Ok m /\ m_rows m = rows /\ columns m = concat (map columns args).
Proof.
  intros R G B C X T. destruct (gathered_columns rows args G B C) as (c & S & E & L). unfold gather. rewrite (rows_max rows args G X), (sizes_small args T). rewrite add_int_all by lia. cbn [bind].
  destruct (Nat.eqb_spec rows 0); [lia|]. replace (Z.quot (0 + Z.of_nat (nsum (map msize args))) (Z.of_nat rows)) with (Z.of_nat c) by (rewrite S, Z.add_0_l, Nat2Z.inj_mul, Z.mul_comm, Z.quot_mul by lia; reflexivity). rewrite Nat2Z.id.
  pose proof (fill (map m_buf args) (map msize args) [] (repeat zero (rows * c))) as F. cbn [app length Z.of_nat] in F. rewrite F.
  - cbn [bind]. eexists. split; [reflexivity|]. cbn [m_rows]. split; [reflexivity|]. rewrite S, skipn_all2 by (rewrite repeat_length; lia). rewrite app_nil_r. unfold columns at 1, column. cbn [m_rows m_cols m_outer m_buf]. exact E.
  - now rewrite !map_length.
  - intros i s Hs. rewrite nth_error_map in Hs. destruct (nth_error args i) as [m|] eqn:Hm; [|discriminate]. injection Hs as <-. erewrite nth_indep by (rewrite map_length; apply nth_error_Some; congruence). rewrite (map_nth msize args m). erewrite nth_error_nth by exact Hm.
    apply nth_error_In in Hm. apply msize_backed; [exact (proj1 (Forall_forall _ _) B m Hm)|exact (proj1 (Forall_forall _ _) C m Hm)].
  - rewrite repeat_length. lia.
Qed.

Lemma gather_nothing {A} (zero : A) (args : list (matrix A)) rank : Forall (fun m => m_rows m = 0%nat) args -> gather zero args rank = Ok (mk_matrix 0 0 0 []).
Proof.
  intros F. unfold gather. assert (fold_right Nat.max 0%nat (map m_rows args) = 0%nat) as -> by (induction F as [|m l E F IH]; cbn; [reflexivity|rewrite E, IH; reflexivity]).
  assert (nsum (map msize args) = 0%nat) as S by (induction F as [|m l E F IH]; [reflexivity|]; cbn [map nsum fold_right]; fold (nsum (map msize l)); unfold msize at 1; rewrite E, IH; lia).
  rewrite sizes_small by (rewrite S; lia). rewrite add_int_all by (rewrite ?S; lia). rewrite S. reflexivity.
Qed.

(** ** Offsets *)
Lemma firstn_next (l : list Z) : forall r, (r < length l)%nat -> firstn (S r) l = firstn r l ++ [nth r l 0].
Proof. induction l as [|x l IH]; intros [|r] H; cbn in H; try lia; [reflexivity|]. cbn [nth]. rewrite (firstn_cons (S r)), (firstn_cons r), IH by lia. reflexivity. Qed.
Lemma offset_prefix sizes rank : (rank < length sizes)%nat -> offset sizes rank = zsum (firstn rank sizes).
Proof. intros H. unfold offset, cumulative_sum. rewrite firstn_next by exact H. rewrite zsum_app. cbn. lia. Qed.
Lemma offset_next sizes rank : (S rank < length sizes)%nat -> offset sizes (S rank) = offset sizes rank + nth rank sizes 0.
Proof. intros H. rewrite !offset_prefix by lia. rewrite firstn_next by lia. rewrite zsum_app. cbn. lia. Qed.
Lemma zsum_nonneg l : Forall (fun n => 0 <= n) l -> 0 <= zsum l.
Proof. induction 1; [cbn; lia|]. rewrite zsum_cons. lia. Qed.
Lemma prefix_mono sizes : Forall (fun n => 0 <= n) sizes -> forall a b, (a <= b)%nat -> zsum (firstn a sizes) <= zsum (firstn b sizes).
Proof.
  intros F. induction F as [|x l Hx F IH]; intros a b H; [now rewrite !firstn_nil|]. destruct a as [|a], b as [|b]; try lia; cbn [firstn]; rewrite ?zsum_cons.
  - change (zsum []) with 0. assert (Forall (fun n => 0 <= n) (firstn b l)) by (rewrite Forall_forall in *; intros y Hy; apply F; rewrite <- (firstn_skipn b l); apply in_or_app; now left). pose proof (zsum_nonneg _ H0). lia.
  - specialize (IH a b ltac:(lia)). lia.
Qed.

Lemma covered sizes i : Forall (fun n => 0 <= n) sizes -> 0 <= i < zsum sizes -> exists rank, (rank < length sizes)%nat /\ offset sizes rank <= i < offset sizes rank + nth rank sizes 0.
Proof.
  intros F H. assert (X : forall n, (n <= length sizes)%nat -> i < zsum (firstn n sizes) -> exists rank, (rank < length sizes)%nat /\ offset sizes rank <= i < offset sizes rank + nth rank sizes 0).
  { induction n as [|n IH]; intros Hn Hi; [cbn in Hi; lia|]. destruct (Z.lt_ge_cases i (zsum (firstn n sizes))) as [C|C]; [apply IH; [lia|exact C]|]. exists n. rewrite offset_prefix by lia. split; [lia|]. rewrite firstn_next, zsum_app in Hi by lia. cbn in Hi. lia. }
  apply (X (length sizes)); [lia|]. now rewrite firstn_all.
Qed.
Lemma disjoint sizes r s i : Forall (fun n => 0 <= n) sizes -> (r < length sizes)%nat -> (s < length sizes)%nat ->
  offset sizes r <= i < offset sizes r + nth r sizes 0 -> offset sizes s <= i < offset sizes s + nth s sizes 0 -> r = s.
Proof.
  intros F Hr Hs. assert (X : forall a b, (a < b)%nat -> (b < length sizes)%nat -> offset sizes a + nth a sizes 0 <= offset sizes b).
  { intros a b L B. rewrite !offset_prefix by lia. pose proof (prefix_mono sizes F (S a) b L). rewrite firstn_next, zsum_app in H by lia. cbn in H. lia. }
  intros A B. destruct (Nat.lt_trichotomy r s) as [C|[C|C]]; [specialize (X r s C Hs); lia|exact C|specialize (X s r C Hr); lia].
Qed.

(** ** Matrix sums *)
Lemma take_ok {A} (b : list A) n : (n <= length b)%nat -> take b n = Ok (firstn n b).
Proof. intros H. unfold take. destruct (Nat.leb_spec n (length b)); [reflexivity|lia]. Qed.
Lemma add_all_nth (l : list (list Z)) n k : (k < n)%nat -> l <> [] -> Forall (fun x => length x = n) l -> length (add_all l) = n /\ nth k (add_all l) 0 = zsum (map (fun x => nth k x 0) l).
Proof.
  intros Hk N F. induction l as [|x l IH]; [congruence|]. inversion F as [|? ? Hx Fl]; subst. destruct l as [|y l]; [cbn; split; [reflexivity|lia]|].
  destruct (IH ltac:(discriminate) Fl) as [L E]. clear IH. change (add_all (x :: y :: l)) with (map (fun p => fst p + snd p) (combine x (add_all (y :: l)))). split.
  - rewrite map_length, combine_length, L. lia.
  - rewrite (nth_indep _ 0 (0 + 0)) by (rewrite map_length, combine_length, L; lia). rewrite (map_nth (fun p : Z * Z => fst p + snd p) _ (0, 0)). rewrite combine_nth by now rewrite L. cbn [fst snd]. rewrite E. reflexivity.
Qed.
Lemma taken_ok args n : Forall (fun m : matrix Z => (n <= length (m_buf m))%nat) args -> taken args n = Ok (map (fun m => firstn n (m_buf m)) args).
Proof. induction 1 as [|m l H F IH]; [reflexivity|]. cbn [taken map]. rewrite take_ok by exact H. cbn [bind]. now rewrite IH. Qed.

Lemma nth_firstn_lt {A} (d : A) (l : list A) : forall n k, (k < n)%nat -> nth k (firstn n l) d = nth k l d.
Proof. induction l as [|x l IH]; intros [|n] [|k] H; cbn; try lia; auto. apply IH. lia. Qed.

Lemma sum_matrix_entries rows cols args rank : (rank < length args)%nat -> Forall (fun m => m_rows m = rows /\ m_cols m = cols /\ m_outer m = rows /\ backed m) args ->
  exists m, sum_matrix args rank = Ok m /\ m_rows m = rows /\ m_cols m = cols /\ forall i j, (i < rows)%nat -> (j < cols)%nat -> entry m i j = zsum (map (fun a => entry a i j) args).
Proof.
  intros Hr F. unfold sum_matrix. destruct (nth_error args rank) as [me|] eqn:E; [|apply nth_error_None in E; lia].
  assert (Hme := proj1 (Forall_forall _ _) F me (nth_error_In _ _ E)). destruct Hme as (-> & -> & _ & _).
  assert (B : Forall (fun m : matrix Z => (rows * cols <= length (m_buf m))%nat) args).
  { eapply Forall_impl; [|exact F]. intros m (R & C & O & K). rewrite <- R, <- C. apply (msize_backed m K). left. congruence. }
  rewrite taken_ok by exact B. cbn [bind]. eexists. split; [reflexivity|]. split; [reflexivity|]. split; [reflexivity|]. intros i j Hi Hj. unfold entry at 1. cbn [m_outer m_buf].
  assert (K : (i + j * rows < rows * cols)%nat) by nia.
  destruct (add_all_nth (map (fun m => firstn (rows * cols) (m_buf m)) args) (rows * cols) (i + j * rows) K) as [_ ->].
  - intros X. apply map_eq_nil in X. subst. cbn in Hr. lia.
  - apply Forall_map. eapply Forall_impl; [|exact B]. intros m Hm. now apply firstn_length_le.
  - rewrite map_map. f_equal. apply map_ext_in. intros m I. destruct (proj1 (Forall_forall _ _) F m I) as (_ & _ & O & _). unfold entry. rewrite O. now apply nth_firstn_lt.
Qed.
