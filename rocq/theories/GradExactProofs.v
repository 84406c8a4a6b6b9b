(** Lemmas about exactness and balance of the gradient operator. *)
From Verif Require Import Base GridModel GridSpec GridProofs StridedModel LayoutModel LayoutSpec LayoutProofs LayoutProofs2 FieldModel FieldSpec FieldProofs.
From Verif Require Import RingModel RingProofs GradModel GradSpec GradProofs GradProofs2 GradProofs3 GradProofs4 GradProofs5 EigenSpec EigenProofs GradFieldModel GradFieldSpec GradProps GradFieldProofs GradExactSpec.
Local Open Scope list_scope.

(** ** The pixels *)
Lemma in_shape_cons x n d c : in_shape (x :: n) (d :: c) <-> 0 <= d < x /\ in_shape n c.
Proof.
  unfold in_shape. cbn [length]. split.
  - intros [L H]. split; [exact (H 0%nat ltac:(lia))|]. split; [lia|]. intros i Hi. exact (H (S i) ltac:(lia)).
  - intros [Hd [L H]]. split; [lia|]. intros [|i] Hi; [exact Hd|]. apply H. lia.
Qed.
Lemma nodup_app {A} (a b : list A) : NoDup a -> NoDup b -> (forall x, In x a -> In x b -> False) -> NoDup (a ++ b).
Proof.
  intros Na Nb D. induction Na as [|x a Hx Na IH]; [exact Nb|]. cbn [app]. constructor.
  - rewrite in_app_iff. intros [I|I]; [contradiction|]. exact (D x (or_introl eq_refl) I).
  - apply IH. intros y I. apply D. now right.
Qed.
Lemma grid_points_in n : forall c, In c (grid_points n) <-> in_shape n c.
Proof.
  induction n as [|x n IH]; intros c; cbn [grid_points].
  - split; [intros [<-|[]]; split; [reflexivity|cbn; lia]|]. intros [L _]. destruct c; [now left|discriminate L].
  - rewrite in_flat_map. split.
    + intros (c' & I & I'). apply in_map_iff in I' as (i & <- & I'). apply zrange_In in I'. apply in_shape_cons. split; [lia|]. now apply IH.
    + intros H. destruct c as [|i c]; [destruct H as [L _]; discriminate L|]. apply in_shape_cons in H as [Hi H]. exists c. split; [now apply IH|]. apply (in_map (fun i => i :: c)). apply zrange_In. lia.
Qed.
Lemma grid_points_nodup n : NoDup (grid_points n).
Proof.
  induction n as [|x n IH]; cbn [grid_points]; [repeat constructor; intros []|]. induction IH as [|c l N _ IH2]; cbn [flat_map]; [constructor|].
  apply nodup_app; [apply FinFun.Injective_map_NoDup; [intros a b E; now injection E|apply zrange_NoDup]|exact IH2|].
  intros y I J. apply in_map_iff in I as (i & <- & _). apply in_flat_map in J as (c' & Ic & J). apply in_map_iff in J as (j & E & _). injection E as _ ->. contradiction.
Qed.
Lemma nodup_map {A B} (f : A -> B) l : (forall x y, In x l -> In y l -> f x = f y -> x = y) -> NoDup l -> NoDup (map f l).
Proof.
  intros H N. induction N as [|x l Hx N IH]; cbn [map]; constructor.
  - intros I. apply in_map_iff in I as (y & E & I). apply Hx. rewrite (H x y (or_introl eq_refl) (or_intror I) (eq_sym E)). exact I.
  - apply IH. intros a b Ia Ib. apply H; now right.
Qed.
(** Moving the grid along itself. *)
Lemma shift_points n s : Forall (fun x => 0 < x) n -> length s = length n -> Permutation (map (fun c => wrap n (add_coords c s)) (grid_points n)) (grid_points n).
Proof.
  intros F Ls. assert (Inj : forall c c', in_shape n c -> in_shape n c' -> wrap n (add_coords c s) = wrap n (add_coords c' s) -> c = c').
  { intros c c' [L H] [L' H'] E. apply nth_ext with (d := 0) (d' := 0); [congruence|]. intros i Hi. rewrite L in Hi.
    assert (Ei : zn (wrap n (add_coords c s)) i = zn (wrap n (add_coords c' s)) i) by now rewrite E.
    rewrite !wrap_zn in Ei by (rewrite ?add_coords_length; congruence). rewrite !add_coords_zn in Ei by congruence. pose proof (H i Hi) as A. pose proof (H' i Hi) as B. fold (zn c i). fold (zn c' i).
    pose proof (zn_pos n i F Hi) as P. assert (Q : (zn c i + zn s i) mod zn n i = (zn c' i + zn s i) mod zn n i) by exact Ei.
    assert (D : (zn c i - zn c' i) mod zn n i = 0) by (replace (zn c i - zn c' i) with ((zn c i + zn s i) - (zn c' i + zn s i)) by lia; rewrite Zminus_mod, Q, Z.sub_diag; apply Z.mod_0_l; lia).
    apply Z.mod_divide in D; [|lia]. destruct D as [k D]. assert (k = 0) by nia. lia. }
  apply NoDup_Permutation_bis.
  - apply nodup_map; [|apply grid_points_nodup]. intros x y Ix Iy. apply Inj; now apply grid_points_in.
  - rewrite map_length. lia.
  - intros y I. apply in_map_iff in I as (c & <- & I). apply grid_points_in in I. apply grid_points_in. apply in_box_zero. apply wrap_in_box; [exact F|]. destruct I as [L _]. rewrite add_coords_length; congruence.
Qed.

Section Exact.
Context {R : Type} (o : ops R) (L : lawful o).
Definition laws_x : ring_theory (zero o) (one o) (add o) (mul o) (sub o) (opp o) eq := L.
Add Ring o_ringx : laws_x.

(** ** Affine fields *)
Lemma wrap_interior n c : in_shape n c -> wrap n c = c.
Proof.
  intros [L0 H]. apply nth_ext with (d := 0) (d' := 0); [rewrite wrap_length; congruence|]. intros i Hi. rewrite wrap_length in Hi by exact L0. fold (zn (wrap n c) i). fold (zn c i). rewrite wrap_zn by assumption. apply Z.mod_small. now apply H.
Qed.
Lemma derivative_affine emb pos sd nq ne nen npn (d : discretisation R) n u a b c e q k :
  additive o emb -> valid_disc sd ne nen npn d -> partition_of_unity o sd nq ne nen d -> isoparametric o emb pos sd nq ne nen d -> length n = sd ->
  in_shape n c -> (e < ne)%nat -> (q < nq)%nat -> (k < sd)%nat -> interior n nen d c e ->
  (forall c' m, in_shape n c' -> (m < npn)%nat -> u c' m = affine o emb pos sd a b c' m) ->
  derivative o n nen d u c e q k = b k.
Proof.
  intros Em V Pu Iso Hn Hc He Hq Hk Int Hu. unfold derivative.
  rewrite (below_ext o nen _ (fun i => add o (mul o (affine o emb (fun _ _ => zero o) sd a b c 0) (deriv d e q k i))
    (sum_below o sd (fun l => mul o (b l) (mul o (deriv d e q k i) (position o emb pos (offset d e i) (node d e i) l)))))).
  - rewrite (below_add o L), (below_scale o L). change (fun i => deriv d e q k i) with (deriv d e q k). rewrite (Pu e q k He Hq Hk). rewrite (below_swap o L).
    rewrite (below_ext o sd _ (fun l => mul o (b l) (if (k =? l)%nat then one o else zero o))) by (intros l Hl; rewrite (below_scale o L); now rewrite (Iso e q k l He Hq Hk Hl)).
    rewrite (below_single o L sd _ k Hk); [rewrite Nat.eqb_refl; ring|]. intros l _ Ne. destruct (Nat.eqb_spec k l); [congruence|ring].
  - intros i Hi. destruct (V e i He Hi) as (Vn & Vl & _). rewrite (wrap_interior n _ (Int i Hi)). rewrite Hu by (try exact Vn; exact (Int i Hi)).
    unfold affine.
    assert (E : sum_below o sd (fun l => mul o (b l) (position o emb pos (add_coords c (offset d e i)) (node d e i) l)) =
      add o (sum_below o sd (fun l => mul o (b l) (position o emb (fun _ _ => zero o) c 0 l))) (sum_below o sd (fun l => mul o (b l) (position o emb pos (offset d e i) (node d e i) l)))).
    { rewrite <- (below_add o L). apply (below_ext o). intros l Hl. unfold position. destruct Hc as [Lc _]. rewrite add_coords_zn by (rewrite ?Lc; lia). rewrite Em. ring. }
    rewrite E. rewrite (below_ext o sd (fun l => mul o (b l) (mul o (deriv d e q k i) (position o emb pos (offset d e i) (node d e i) l))) (fun l => mul o (deriv d e q k i) (mul o (b l) (position o emb pos (offset d e i) (node d e i) l)))) by (intros; ring).
    rewrite (below_scale o L). ring.
Qed.

(** ** Mean of the gradient *)
Lemma derivative_total sd ne nen npn (d : discretisation R) n u e q k :
  valid_disc sd ne nen npn d -> Forall (fun x => 0 < x) n -> length n = sd -> (e < ne)%nat ->
  total o n (fun c => derivative o n nen d u c e q k) = sum_below o nen (fun i => mul o (deriv d e q k i) (total o n (fun c => u c (node d e i)))).
Proof.
  intros V F Hn He. unfold total, derivative, sum_below. rewrite (sum_swap o L). apply (sum_ext o). intros i I. apply in_seq in I. rewrite (sum_scale o L). f_equal.
  destruct (V e i He ltac:(lia)) as (_ & Vl & _). rewrite <- (sum_map o (fun c => u c (node d e i)) (fun c => wrap n (add_coords c (offset d e i)))).
  apply (sum_perm o L). apply shift_points; [exact F|lia].
Qed.

(** ** Balance of the transpose *)
Lemma buffer_zero n p C pts (f : gfield R) : grid_of n p -> is_field n C pts f ->
  (forall c pt comp, in_box n (repeat 0 (length n)) c -> (pt < pts)%nat -> (comp < C)%nat -> GradSpec.value o p f c pt comp = zero o) ->
  forall i, (i < length (fd_mem f))%nat -> nth i (fd_mem f) (zero o) = zero o.
Proof.
  intros G (_ & _ & H3 & H4 & H5) Hv i Hi. rewrite H5 in Hi. destruct (grid_enumerate n p G) as (cs & _ & Lc & _ & In_ & Ix).
  assert (NC : C <> 0%nat /\ pts <> 0%nat) by nia. destruct NC as [NC Np]. assert (Nm : (C * pts <> 0)%nat) by nia.
  set (k := (i / (C * pts))%nat). set (w := (i mod (C * pts))%nat). assert (Ei : i = (k * (C * pts) + w)%nat) by (unfold k, w; rewrite (Nat.div_mod i (C * pts) Nm) at 1; lia).
  assert (Hw : (w < C * pts)%nat) by (apply Nat.mod_upper_bound; exact Nm). assert (Hk : (k < Z.to_nat (zprod n))%nat) by (apply Nat.div_lt_upper_bound; [exact Nm|lia]).
  assert (Ew : w = (w / C * C + w mod C)%nat) by (rewrite (Nat.div_mod w C NC) at 1; lia). assert (Hc : (w mod C < C)%nat) by now apply Nat.mod_upper_bound. assert (Hp : (w / C < pts)%nat) by (apply Nat.div_lt_upper_bound; [exact NC|lia]).
  assert (Hk' : (k < length cs)%nat) by lia. specialize (Hv (nth k cs []) (w / C)%nat (w mod C)%nat (proj1 (In_ _) (nth_In _ _ Hk')) Hp Hc).
  unfold GradSpec.value in Hv. rewrite (Ix k Hk'), Nat2Z.id, H3, H4 in Hv. etransitivity; [|exact Hv]. f_equal. lia.
Qed.
(** A field that is one for component [r], and zero for all others. *)
Definition component_field (f : gfield R) (r : nat) : gfield R :=
  with_mem f (map (fun i => if (i mod fd_comps f =? r)%nat then one o else zero o) (seq 0 (length (fd_mem f)))).
Lemma component_is n C pts f r : is_field n C pts f -> is_field n C pts (component_field f r).
Proof. intros (H1 & H2 & H3 & H4 & H5). split; [exact H1|split; [exact H2|split; [exact H3|split; [exact H4|]]]]. unfold component_field, with_mem. cbn [fd_mem]. now rewrite map_length, seq_length. Qed.
Lemma component_nth f r i : (i < length (fd_mem f))%nat -> nth i (fd_mem (component_field f r)) (zero o) = if (i mod fd_comps f =? r)%nat then one o else zero o.
Proof. intros Hi. unfold component_field, with_mem. cbn [fd_mem]. now rewrite (nth_map_seq (fun i => if (i mod fd_comps f =? r)%nat then one o else zero o)) by exact Hi. Qed.
Lemma component_value n p C pts f r c m r' : grid_of n p -> is_field n C pts f -> in_box n (repeat 0 (length n)) c -> (m < pts)%nat -> (r' < C)%nat ->
  GradSpec.value o p (component_field f r) c m r' = if (r' =? r)%nat then one o else zero o.
Proof.
  intros G (H1 & H2 & H3 & H4 & H5) Hc Hm Hr. destruct (grid_index n p c G Hc) as (i & Ei & Bi). unfold GradSpec.value. rewrite Ei. unfold component_field at 1 2 3, with_mem. cbn [fd_comps fd_pts]. rewrite H3, H4.
  assert (Hi : (Z.to_nat i * (C * pts) + m * C + r' < length (fd_mem f))%nat).
  { rewrite H5. assert (Z.to_nat i < Z.to_nat (zprod n))%nat by lia. assert (m * C + r' < C * pts)%nat by nia. nia. }
  rewrite component_nth by exact Hi. rewrite H3. replace (Z.to_nat i * (C * pts) + m * C + r')%nat with (r' + (Z.to_nat i * pts + m) * C)%nat by lia.
  rewrite Nat.mod_add by lia. now rewrite Nat.mod_small by exact Hr.
Qed.
Lemma dot_component n p C pts f t r : grid_of n p -> is_field n C pts f -> is_field n C pts t -> (r < C)%nat ->
  dot_product o (fd_mem t) (fd_mem (component_field f r)) = total o n (fun c => sum_below o pts (fun m => GradSpec.value o p t c m r)).
Proof.
  intros G Hf (H1 & H2 & H3 & H4 & H5) Hr. destruct (grid_enumerate n p G) as (cs & _ & Lc & Nd & In_ & Ix).
  assert (P : Permutation (grid_points n) cs).
  { apply NoDup_Permutation; [apply grid_points_nodup|exact Nd|]. intros c. rewrite grid_points_in, In_. split; apply in_box_zero. }
  unfold total. rewrite (sum_perm o L _ _ _ P), (sum_nth o []), Lc. unfold dot_product. rewrite H5, (Nat.mul_comm (Z.to_nat _)), (below_mul o L). apply (below_ext o). intros k Hk.
  rewrite (below_mul o L). apply (below_ext o). intros m Hm. pose proof Hf as (F1 & F2 & F3 & F4 & F5).
  assert (B : forall i, (i < C)%nat -> (i + m * C + k * (C * pts) < length (fd_mem f))%nat).
  { intros i Hi. rewrite F5. assert (m * C + i < C * pts)%nat by nia. nia. }
  rewrite (below_single o L C _ r Hr).
  - rewrite component_nth by now apply B. rewrite F3. replace (r + m * C + k * (C * pts))%nat with (r + (m + k * pts) * C)%nat at 2 by lia. rewrite Nat.mod_add, Nat.mod_small, Nat.eqb_refl by lia.
    unfold GradSpec.value. rewrite (Ix k) by lia. rewrite Nat2Z.id, H3, H4. replace (k * (C * pts) + m * C + r)%nat with (r + m * C + k * (C * pts))%nat by lia. ring.
  - intros i Hi Ne. rewrite component_nth by now apply B. rewrite F3. replace (i + m * C + k * (C * pts))%nat with (i + (m + k * pts) * C)%nat at 2 by lia. rewrite Nat.mod_add, Nat.mod_small by lia.
    destruct (Nat.eqb_spec i r); [congruence|ring].
Qed.
Lemma transpose_balance sd nq ne nen npn C (d : discretisation R) g n p v n0 r :
  (1 <= sd <= 3)%nat -> valid_disc sd ne nen npn d -> construct o sd nq ne nen npn (grads_of sd nq ne nen d) (pts_of sd ne nen d) = Ok g ->
  grid_of n p -> length n = sd -> C <> 0%nat -> (0 < nq * ne)%nat -> is_field n (sd * C) (nq * ne) v -> is_field n C npn n0 -> (r < C)%nat ->
  partition_of_unity o sd nq ne nen d ->
  exists tv, apply_transpose o g p v n0 [] = (tv, Ok tt) /\ is_field n C npn tv /\
    total o n (fun c => sum_below o npn (fun m => GradSpec.value o p tv c m r)) = zero o.
Proof.
  intros Hsd V Eg G Hn HC HQ Hv Hn0 Hr Pu. pose proof (component_is n C npn n0 r Hn0) as Hu.
  destruct (C33_adjoint o sd nq ne nen npn C d g n p (component_field n0 r) v v n0 L Hsd V Eg G Hn HC HQ Hu Hv Hv Hn0) as (du & tv & E1 & E2 & Ft & D).
  exists tv. split; [exact E2|]. split; [exact Ft|]. rewrite <- (dot_component n p C npn n0 tv r G Hn0 Ft Hr), D.
  destruct (C34_constant o sd nq ne nen npn C d g n p (component_field n0 r) v (fun r' => if (r' =? r)%nat then one o else zero o) L Hsd V Eg G Hn HC Hu Hv Pu) as (du' & E1' & Z0).
  { intros c m r' Hc Hm Hr'. now apply (component_value n p C npn). }
  rewrite E1 in E1'. injection E1' as <-. destruct (C32_gradient o sd nq ne nen npn C d g n p (component_field n0 r) v L Hsd V Eg G Hn HC Hu Hv) as (du' & E1' & Fd & _). rewrite E1 in E1'. injection E1' as <-.
  unfold dot_product. apply (below_zero o L). intros i Hi. rewrite (buffer_zero n p (sd * C) (nq * ne) du G Fd Z0 i Hi). ring.
Qed.

(** ** Fields of collections *)
Lemma total_ext n (f g : list Z -> R) : (forall c, in_shape n c -> f c = g c) -> total o n f = total o n g.
Proof. intros H. apply (sum_ext o). intros c I. apply H. now apply grid_points_in. Qed.
Lemma mul_zero_l s : mul o (zero o) s = zero o.
Proof. ring. Qed.
Lemma field_balance sd nq ne nen npn (d : discretisation R) g n p (v n0 : field R) cu :
  (1 <= sd <= 3)%nat -> valid_disc sd ne nen npn d -> construct o sd nq ne nen npn (grads_of sd nq ne nen d) (pts_of sd ne nen d) = Ok g ->
  partition_of_unity o sd nq ne nen d -> grid_of n p -> length n = sd -> (0 < nq * ne)%nat -> on_grid n p v -> on_grid n p n0 ->
  l_nsub (f_lay n0) = Z.of_nat npn -> l_nsub (f_lay v) = Z.of_nat (nq * ne) -> l_nbc (f_lay v) = Z.of_nat sd * l_nbc (f_lay n0) ->
  in_shape (l_comp (f_lay n0)) cu ->
  exists tv, field_transpose o g p v n0 [] = (tv, Ok tt) /\ total o n (fun c => sum_below o npn (fun m => val o tv cu (Z.of_nat m) c)) = zero o.
Proof.
  intros Hsd V Eg Pu G Hn HQ Hv Hn0 Sn Sv Nv Hcu.
  pose proof (on_grid_field n p v Hv) as Fv. pose proof (on_grid_field n p n0 Hn0) as Fn. pose proof Hn0 as (Rn & _ & On & Nn & _). pose proof Rn as ((Nb & Fc & _) & _).
  assert (Pn : 0 < l_nbc (f_lay n0)) by (rewrite Nb; now apply zprod_pos).
  rewrite Sn, Nat2Z.id in Fn. rewrite Sv, Nat2Z.id, Nv, Z2Nat.inj_mul, Nat2Z.id in Fv by lia.
  assert (Hr : 0 <= rank_of (l_comp (f_lay n0)) cu < l_nbc (f_lay n0)).
  { destruct (comp_bij n0 Rn) as (_ & B & _). specialize (B cu Hcu). rewrite off_running in B; [exact B|]. now apply in_shape_length. }
  destruct (transpose_balance sd nq ne nen npn (Z.to_nat (l_nbc (f_lay n0))) d g n p _ _ (Z.to_nat (rank_of (l_comp (f_lay n0)) cu)) Hsd V Eg G Hn ltac:(lia) HQ Fv Fn ltac:(lia) Pu) as (tv & E & Ft & T).
  exists (with_vals n0 (fd_mem tv)). unfold field_transpose. rewrite E. split; [reflexivity|]. rewrite <- T. apply total_ext. intros c Hc. apply (below_ext o). intros m Hm.
  pose proof Ft as (T1 & T2 & T3 & T4 & T5). pose proof Fn as (N1 & N2 & N3 & N4 & N5).
  assert (Em : op_field (with_vals n0 (fd_mem tv)) = tv).
  { apply op_field_with; [now rewrite T1; destruct Hn0 as (_ & -> & _)|now rewrite T2, N2|exact T3|now rewrite T4, Sn, Nat2Z.id]. }
  assert (H1 : on_grid n p (with_vals n0 (fd_mem tv))) by (apply on_grid_with; [exact Hn0|rewrite T5; symmetry; exact N5]).
  assert (Eq : entry_of (with_vals n0 (fd_mem tv)) cu (Z.of_nat m) c).
  { split; [exact Hcu|]. unfold with_vals. cbn [f_lay]. split; [rewrite Sn; lia|]. rewrite Nn. exact Hc. }
  destruct (value_seen o n p _ _ _ _ G H1 Eq) as [_ X]. rewrite <- X, Em, Nat2Z.id. reflexivity.
Qed.
End Exact.
