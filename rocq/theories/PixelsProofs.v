(** Lemmas on statically dimensioned pixels and volumes. *)
From Coq Require Import QArith Lqa.
From Verif Require Import Base CIntModel GridModel GridSpec GridProofs GridProofs2 GridProofs3 PixelsModel PixelsSpec.
Local Open Scope Z_scope.
Local Open Scope list_scope.

(** The initial value of the result does not matter where it is overwritten. *)
Lemma loop_start s raxes : forall i r1 r2, length r1 = length r2 ->
  (forall a, (a < length r1)%nat -> ~ In a raxes -> zn r1 a = zn r2 a) -> ccoord_loop s raxes i r1 = ccoord_loop s raxes i r2.
Proof.
  induction raxes as [|a r IH]; intros i r1 r2 L H; cbn [ccoord_loop].
  - f_equal. apply (nth_ext _ _ 0 0 L). intros k Hk. apply H; [exact Hk|intros []].
  - destruct (zn s a =? 0); [reflexivity|]. cbn zeta. apply IH; [now rewrite !upd_length|]. intros b Hb Nb. rewrite upd_length in Hb.
    destruct (Nat.eq_dec a b) as [->|N].
    + unfold zn. rewrite !nth_upd_same by lia. reflexivity.
    + unfold zn. rewrite !nth_upd_other by exact N. apply (H b Hb). intros [E|E]; contradiction.
Qed.

Lemma same_ccoord n loc s axes i : Permutation axes (seq 0 (length n)) -> get_ccoord_static n loc s axes i = get_ccoord_from_axes_order n loc s axes i.
Proof.
  intros P. unfold get_ccoord_static, get_ccoord_from_axes_order. f_equal. apply loop_start.
  - destruct n; cbn; rewrite ?repeat_length; reflexivity.
  - intros a Ha Na. exfalso. apply Na. rewrite <- in_rev. apply (perm_seq_In axes (length n) P). destruct n; cbn in *; [lia|]. rewrite repeat_length in Ha. lia.
Qed.

Lemma same_iterate p : Permutation (px_axes p) (seq 0 (length (px_nb p))) -> px_contiguous p = true -> sp_iterate p = px_iterate p.
Proof.
  intros P C. unfold sp_iterate, px_iterate. rewrite C. generalize (zrange (Z.to_nat (get_size (px_nb p)))). induction l as [|i l IH]; cbn [mapM]; [reflexivity|].
  rewrite IH. unfold sp_get_ccoord, px_get_ccoord. now rewrite same_ccoord.
Qed.

Lemma same_index p c : length (px_loc p) = length (px_nb p) -> length (px_strides p) = length (px_nb p) -> px_get_index_static p c = px_get_index p c.
Proof.
  intros L S. unfold px_get_index_static, px_get_index, get_index_from_strides. rewrite L, S, Nat.eqb_refl. cbn [negb].
  rewrite (Nat.eqb_sym (length c)). reflexivity.
Qed.

Lemma mapM_no_err {X Y} (f : X -> res Y) e l : (forall x, f x <> Err e) -> mapM f l <> Err e.
Proof.
  intros H. induction l as [|x l IH]; cbn [mapM]; [discriminate|]. specialize (H x). destruct (f x); cbn [bind]; [|congruence|discriminate].
  destruct (mapM f l); cbn [bind]; congruence.
Qed.
Lemma loop_no_err s e raxes : forall i r, ccoord_loop s raxes i r <> Err e.
Proof. induction raxes as [|a raxes IH]; intros i r; cbn [ccoord_loop]; [discriminate|]. destruct (_ =? _); [discriminate|]. cbn zeta. apply IH. Qed.
Lemma static_never_refuses p e : sp_iterate p <> Err e.
Proof.
  apply mapM_no_err. intros i. unfold sp_get_ccoord, get_ccoord_static. destruct (ccoord_loop _ _ _ _) eqn:E; cbn [bind]; try discriminate.
  exfalso. now apply loop_no_err in E.
Qed.

(** ** Volumes *)
Lemma vol_acc l : forall a, (fold_left Qmult l a == a * fold_left Qmult l 1)%Q.
Proof.
  induction l as [|x l IH]; intros a; cbn [fold_left]; [ring|]. rewrite IH, (IH (1 * x)%Q). ring.
Qed.
Lemma pix_acc l : forall a, (fold_left (fun v (p : Z * Q) => v * (snd p / inject_Z (fst p))) l a == a * fold_left (fun v (p : Z * Q) => v * (snd p / inject_Z (fst p))) l 1)%Q.
Proof. induction l as [|x l IH]; intros a; cbn [fold_left]; [ring|]. rewrite IH, (IH (1 * _)%Q). ring. Qed.
Lemma size_acc l : forall a, fold_left Z.mul l a = a * fold_left Z.mul l 1.
Proof. induction l as [|x l IH]; intros a; cbn [fold_left]; [ring|]. rewrite IH, (IH (1 * x)). ring. Qed.

Lemma pixel_volumes n : forall L, length L = length n -> Forall (fun x => 0 < x) n ->
  (inject_Z (get_size n) * compute_pixel_volume n L == compute_volume_real L)%Q.
Proof.
  unfold get_size, compute_pixel_volume, compute_volume_real. induction n as [|x n IH]; intros [|l L] E P; cbn in E; try discriminate; [reflexivity|].
  apply Forall_cons_iff in P. destruct P as [Px P]. cbn [combine fold_left fst snd]. rewrite size_acc, pix_acc, vol_acc, <- (IH L) by (auto; congruence).
  rewrite !inject_Z_mult. field. intros H. unfold inject_Z, Qeq in H. cbn in H. lia.
Qed.

Lemma pixel_volume_prefix n : forall L e, (length n <= length L)%nat -> compute_pixel_volume n (L ++ e) = compute_pixel_volume n L.
Proof.
  intros L e H. unfold compute_pixel_volume. f_equal. revert L H. induction n as [|x n IH]; intros [|l L] H; cbn in *; try reflexivity; [lia|]. f_equal. apply IH. lia.
Qed.

Lemma cube_spec {T} dim (x : T) l : get_cube dim x = Ok l <-> 1 <= dim <= 3 /\ l = repeat x (Z.to_nat dim).
Proof.
  unfold get_cube. split.
  - destruct (Z.eqb_spec dim 1) as [->|]; [intros H; injection H as <-; split; [lia|reflexivity]|].
    destruct (Z.eqb_spec dim 2) as [->|]; [intros H; injection H as <-; split; [lia|reflexivity]|].
    destruct (Z.eqb_spec dim 3) as [->|]; [intros H; injection H as <-; split; [lia|reflexivity]|discriminate].
  - intros [H ->]. assert (dim = 1 \/ dim = 2 \/ dim = 3) as [-> | [-> | ->]] by lia; reflexivity.
Qed.

Lemma inject_pos x : 0 < x -> (0 < inject_Z x)%Q.
Proof. intros H. unfold inject_Z, Qlt. cbn. lia. Qed.
Lemma positions n : forall L c, length L = length n -> length c = length n -> Forall (fun x => 0 < x) n -> Forall (fun l => 0 < l)%Q L ->
  Forall2 (fun x m => 0 <= x < m) c n ->
  length (get_vector c (pixel_sizes n L)) = length n /\
  forall i, (i < length n)%nat -> (0 <= nth i (get_vector c (pixel_sizes n L)) 0 /\
    nth i (get_vector c (pixel_sizes n L)) 0 + nth i (pixel_sizes n L) 0 <= nth i L 0)%Q.
Proof.
  unfold get_vector, pixel_sizes. induction n as [|m n IH]; intros [|l L] [|x c] E1 E2 P Q B; cbn in E1, E2; try discriminate.
  - split; [reflexivity|]. intros i H. cbn in H. lia.
  - apply Forall_cons_iff in P. destruct P as [Pm P]. apply Forall_cons_iff in Q. destruct Q as [Ql Q]. assert (Bx : 0 <= x < m) by (inversion B; assumption). assert (B' : Forall2 (fun x m => 0 <= x < m) c n) by (inversion B; assumption). clear B. rename B' into B.
    destruct (IH L c ltac:(congruence) ltac:(congruence) P Q B) as [I1 I2]. cbn [combine map length fst snd]. split; [now rewrite I1|].
    intros [|i] H; [|cbn [nth]; apply I2; cbn in H; lia]. cbn [nth]. pose proof (inject_pos m Pm) as Pq.
    assert (E : (l / inject_Z m * inject_Z x + l / inject_Z m == l * (inject_Z (x + 1) / inject_Z m))%Q) by (rewrite inject_Z_plus; field; lra).
    rewrite E. assert (D0 : (0 <= l / inject_Z m)%Q) by (apply Qle_shift_div_l; [exact Pq|lra]).
    assert (X0 : (0 <= inject_Z x)%Q) by (unfold inject_Z, Qle; cbn; lia). split; [now apply Qmult_le_0_compat|].
    assert (X1 : (inject_Z (x + 1) / inject_Z m <= 1)%Q). { apply Qle_shift_div_r; [exact Pq|]. rewrite Qmult_1_l. rewrite <- Zle_Qle. lia. }
    setoid_replace l with (l * 1)%Q at 2 by ring. rewrite (Qmult_comm l), (Qmult_comm l 1). apply Qmult_le_compat_r; [exact X1|lra].
Qed.
Lemma box_coords n : forall c, in_box n (repeat 0 (length n)) c -> Forall2 (fun x m => 0 <= x < m) c n.
Proof.
  induction n as [|m n IH]; intros [|x c] [E H]; cbn in E; try discriminate; constructor.
  - exact (H 0%nat ltac:(cbn; lia)).
  - apply IH. split; [congruence|]. intros i Hi. exact (H (S i) ltac:(cbn; lia)).
Qed.
