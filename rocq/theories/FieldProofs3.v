(** Lemmas about reshaping fields with storage and about pushing values. *)
From Verif Require Import Base CIntModel GridModel GridSpec GridProofs GridProofs2 GridProofs3 StridedModel StridedProofs.
From Verif Require Import LayoutModel LayoutSpec LayoutProofs LayoutProofs2 FieldModel FieldSpec FieldProofs FieldProofs2.

Section More.
Context {A : Type}.
Implicit Types f g : field A.

Lemma reshape_ready f shape f' : ready f -> Forall (fun x => 0 < x) shape -> zprod shape < 2 ^ 31 ->
  field_reshape f shape None = Ok f' -> ready f' /\ f_vals f' = f_vals f /\ (unpadded f -> unpadded f').
Proof.
  intros R P V H. unfold field_reshape in H. destruct (reshape_iff (f_lay f) shape P V) as (_ & _ & Q).
  destruct (reshape (f_lay f) shape) as [l| |]; cbn [bind] in H; try discriminate. apply Ok_inj in H. subst f'.
  destruct (Q l eq_refl) as (_ & _ & E2 & _ & E4 & _ & E6 & E7 & E8 & S).
  destruct R as (R1 & R2 & R3 & R4 & R5 & R6 & R7 & R8). unfold ready, unpadded, with_lay. cbn.
  rewrite E2, E4, E6, E7, E8. split; [|split; [reflexivity|auto]]. split; [now apply S|]. auto 10.
Qed.

Lemma reshape_same_sub f shape f' : ready f -> Forall (fun x => 0 < x) shape -> zprod shape < 2 ^ 31 ->
  field_reshape f shape (Some (l_nsub (f_lay f))) = Ok f' -> ready f' /\ f_vals f' = f_vals f.
Proof.
  intros R P V H. unfold field_reshape in H. destruct (reshape_sub_iff (f_lay f) shape (l_nsub (f_lay f)) P V) as (_ & _ & Q).
  destruct (reshape_sub (f_lay f) shape (l_nsub (f_lay f))) as [l| |]; cbn [bind] in H; try discriminate. apply Ok_inj in H. subst f'.
  destruct (Q l eq_refl) as (_ & _ & E2 & _ & E4 & _ & E6 & E7 & E8 & S).
  destruct R as (R1 & R2 & R3 & R4 & R5 & R6 & R7 & R8). unfold ready, with_lay. cbn.
  rewrite E2, E4, E6, E7, E8. split; [|reflexivity]. split; [apply S; [assumption|apply R1]|]. auto 10.
Qed.

Lemma mapM_UB {B C} (g : B -> res C) l x : (forall y, In y l -> (exists c, g y = Ok c) \/ g y = UB) -> In x l -> g x = UB ->
  mapM g l = UB.
Proof.
  induction l as [|y r IH]; intros H Hx E; [destruct Hx|]. cbn [mapM].
  destruct (H y (or_introl eq_refl)) as [[c Ey]|Ey]; rewrite Ey; [|reflexivity]. cbn [bind].
  destruct Hx as [->|Hx]; [congruence|]. rewrite IH; [reflexivity| |assumption|assumption]. intros z Hz. apply H. now right.
Qed.

Lemma span_cases f ptr a n : (exists c, span f ptr a n = Ok c) \/ span f ptr a n = UB.
Proof. unfold span. destruct (n <=? 0); [eauto|]. destruct ptr; [|auto]. destruct (_ && _); eauto. Qed.

(** After a reshape that changes the number of sub-points the number of
    entries a sub-point map iterates over is stale. *)
Lemma reshape_stale f shape k f' rows m : ready f -> unpadded f -> f_pad f = 0 -> 0 < l_npix (f_lay f) ->
  Forall (fun x => 0 < x) shape -> zprod shape < 2 ^ 31 -> 0 < k -> k <> l_nsub (f_lay f) ->
  field_reshape f shape (Some k) = Ok f' -> new_map f' SubPt rows = Ok m ->
  nb_entries f' = k * l_npix (f_lay f) /\ map_size m f' = l_nsub (f_lay f) * l_npix (f_lay f) /\
  map_size m f' <> nb_entries f' /\ (k < l_nsub (f_lay f) -> map_iterate m f' = UB).
Proof.
  intros R U Pd Np P V Hk Ne H M. unfold field_reshape in H.
  destruct (reshape_sub_iff (f_lay f) shape k P V) as (X & _ & Q).
  destruct (reshape_sub (f_lay f) shape k) as [l| |] eqn:EL; cbn [bind] in H; try discriminate. apply Ok_inj in H. subst f'.
  destruct (Q l eq_refl) as (E0 & E1 & E2 & E3 & E4 & E5 & E6 & E7 & E8 & S).
  assert (EE : zprod shape * k = l_nbc (f_lay f) * l_nsub (f_lay f)) by (apply X; eauto).
  destruct (new_map_shape _ _ _ _ M) as (_ & Mu & Mr & Ms & Mi & Mp).
  assert (Cu : f_cur f = l_nsub (f_lay f) * l_nbuf (f_lay f)) by apply R. unfold unpadded in U. rewrite U in Cu.
  assert (K : has_nsub (with_lay f l) = true) by (unfold has_nsub, with_lay, unknown; cbn; rewrite E2; lia).
  assert (N : nb_entries (with_lay f l) = k * l_npix (f_lay f)) by (unfold nb_entries; rewrite K; cbn; now rewrite E2, E6).
  assert (SZ : map_size m (with_lay f l) = l_nsub (f_lay f) * l_npix (f_lay f)).
  { unfold map_size. rewrite N, Mu. destruct (Z.eqb_spec (k * l_npix (f_lay f)) 0); [nia|]. exact Cu. }
  split; [exact N|]. split; [exact SZ|]. split; [rewrite N, SZ; nia|]. intros Lt.
  unfold map_iterate. assert (I : f_init f = true) by apply R. cbn [with_lay f_init f_lay] in *. rewrite Mi, I. cbn [negb]. rewrite SZ.
  assert (Hs : 0 < l_nsub (f_lay f)) by apply R.
  apply (mapM_UB _ _ (l_nsub (f_lay f) * l_npix (f_lay f) - 1)).
  - intros y _. apply span_cases.
  - unfold zrange. apply in_map_iff. exists (Z.to_nat (l_nsub (f_lay f) * l_npix (f_lay f) - 1)).
    assert (0 < l_nsub (f_lay f) * l_npix (f_lay f)) by nia. split; [lia|]. apply in_seq. lia.
  - unfold map_entry, span. rewrite Mr, Ms, Z.mul_1_r, E1.
    assert (0 < zprod shape) by now apply zprod_pos. destruct (Z.leb_spec (zprod shape) 0); [lia|].
    rewrite Mp, I. cbn [with_lay f_ptr f_gen f_vals]. destruct (f_ptr f); [|reflexivity].
    assert (LL : len (f_vals f) = buffer_scalars (f_lay f) + f_pad f) by apply R. rewrite Pd in LL. unfold buffer_scalars in LL. rewrite U in LL.
    destruct (Z.leb_spec ((l_nsub (f_lay f) * l_npix (f_lay f) - 1) * zprod shape + zprod shape) (len (f_vals f))) as [B|B]; [|now rewrite !andb_false_r].
    exfalso. rewrite LL in B.
    assert (l_nbc (f_lay f) < zprod shape) by (clear -EE Lt Hk Hs H; nia).
    assert (l_nsub (f_lay f) * l_npix (f_lay f) * zprod shape <= l_nsub (f_lay f) * l_npix (f_lay f) * l_nbc (f_lay f)) by lia.
    assert (0 < l_nsub (f_lay f) * l_npix (f_lay f)) by (clear -Hs Np; nia). nia.
Qed.

(** ** Pushing values *)
Lemma push_all_app f v : f_vals (push_all f v) = f_vals f ++ v /\ f_cur (push_all f v) = f_cur f /\ f_lay (push_all f v) = f_lay f /\
  f_glob (push_all f v) = f_glob f /\ f_init (push_all f v) = f_init f /\ f_pad (push_all f v) = f_pad f.
Proof.
  unfold push_all. revert f; induction v as [|x v IH]; intros f; cbn [fold_left]; [rewrite app_nil_r; auto 10|].
  destruct (IH (push_one f x)) as (-> & -> & -> & -> & -> & ->). unfold push_one; cbn. rewrite <- app_assoc. auto 10.
Qed.

Lemma push_back_ok f v : f_glob f = false -> 0 < l_nsub (f_lay f) -> len v = l_nbc (f_lay f) ->
  exists f', push_back f v = Ok f' /\ f_vals f' = f_vals f ++ concat (repeat v (Z.to_nat (l_nsub (f_lay f)))) /\
    f_cur f' = f_cur f + l_nsub (f_lay f) /\ f_lay f' = f_lay f /\ f_glob f' = false /\ f_init f' = f_init f /\ f_pad f' = f_pad f.
Proof.
  intros G Hs L. unfold push_back, has_nsub, unknown. rewrite G.
  destruct (Z.eqb_spec (l_nsub (f_lay f)) (-1)); [lia|]. cbn [negb]. rewrite L, Z.eqb_refl. cbn [negb]. eexists; split; [reflexivity|].
  destruct (push_all_app (with_cur f (f_cur f + l_nsub (f_lay f))) (concat (repeat v (Z.to_nat (l_nsub (f_lay f)))))) as (-> & -> & -> & -> & -> & ->).
  unfold with_cur; cbn. auto 10.
Qed.

Lemma pushes_ok vs : forall f, f_glob f = false -> 0 < l_nsub (f_lay f) -> Forall (fun v => len v = l_nbc (f_lay f)) vs ->
  exists f', pushes f vs = Ok f' /\ f_vals f' = f_vals f ++ concat (map (fun v => concat (repeat v (Z.to_nat (l_nsub (f_lay f))))) vs) /\
    f_cur f' = f_cur f + l_nsub (f_lay f) * Z.of_nat (length vs) /\ f_lay f' = f_lay f /\ f_glob f' = false /\
    f_init f' = f_init f /\ f_pad f' = f_pad f.
Proof.
  induction vs as [|v vs IH]; intros f G Hs L.
  - exists f. cbn. rewrite app_nil_r. split; [reflexivity|]. split; [reflexivity|]. split; [lia|auto].
  - apply Forall_cons_iff in L. destruct L as [L1 L2]. cbn [pushes].
    destruct (push_back_ok f v G Hs L1) as (f1 & -> & V & C & Y & G1 & I1 & P1). cbn [bind].
    destruct (IH f1) as (f' & E & V' & C' & Y' & G' & I' & P'); [assumption|now rewrite Y|now rewrite Y|].
    exists f'. split; [exact E|]. rewrite V', C', V, C, Y, Y', I', P', I1, P1. cbn [map concat length]. rewrite <- app_assoc.
    repeat split; try assumption; lia.
Qed.

Lemma concat_uniform_nth {B} (l : list (list B)) n i k d : Forall (fun e => length e = n) l -> (i < length l)%nat -> (k < n)%nat ->
  nth (i * n + k) (concat l) d = nth k (nth i l []) d.
Proof.
  revert i; induction l as [|e l IH]; intros i F Hi Hk; cbn [length] in Hi; [lia|]. apply Forall_cons_iff in F. destruct F as [Le F]. cbn [concat].
  destruct i as [|i].
  - cbn [Nat.mul Nat.add nth]. now rewrite app_nth1 by lia.
  - rewrite app_nth2 by (cbn [Nat.mul]; lia). cbn [nth]. rewrite <- IH by (assumption || lia). f_equal. cbn [Nat.mul]. lia.
Qed.

Lemma concat_uniform_length {B} (l : list (list B)) n : Forall (fun e => length e = n) l -> length (concat l) = (length l * n)%nat.
Proof. induction l as [|e l IH]; intros F; [reflexivity|]. apply Forall_cons_iff in F. destruct F as [Le F]. cbn [concat length Nat.mul]. rewrite app_length, Le, IH by assumption. reflexivity. Qed.

Lemma repeat_nth_in {B} (v : B) n k d : (k < n)%nat -> nth k (repeat v n) d = v.
Proof. revert k; induction n as [|n IH]; intros k H; [lia|]. destruct k; cbn; [reflexivity|]. apply IH. lia. Qed.

Lemma local_off1 (i : Z) : off [1] [i] = i.
Proof. rewrite off_cons, off_nil. lia. Qed.

Lemma pushed_value zero comp nsub n f (es : list (list A)) : (* es: one block of nbc scalars per sub-point *)
  Forall (fun x => 0 < x) comp -> zprod comp < 2 ^ 31 -> 0 < nsub -> 0 <= n ->
  f_lay f = local_layout n comp nsub -> f_init f = true -> f_pad f = 0 -> f_cur f = nsub * n -> f_vals f = concat es ->
  Forall (fun e => len e = zprod comp) es -> Z.of_nat (length es) = nsub * n ->
  exists f', resize zero f = (f', Ok tt) /\ ready f' /\ f_vals f' = f_vals f /\ f_lay f' = f_lay f /\
    forall c q i, in_shape comp c -> 0 <= q < nsub -> 0 <= i < n ->
      value f' (c ++ [q] ++ [i]) = rd (nth (Z.to_nat (q + nsub * i)) es []) (off (running 1 comp) c).
Proof.
  intros Hc Hv Hs Hn El Ei Ep Ec Ev Fe Ln.
  destruct (local_layout_dense n comp nsub Hn Hc Hv Hs) as [S D].
  assert (Nb : get_nb_from_shape comp = zprod comp) by (apply nb_from_shape_exact; assumption).
  assert (SZ : sizable f).
  { unfold sizable. rewrite El, Ei, Ep. split; [exact S|]. cbn. unfold zprod; cbn. repeat split; lia. }
  destruct (resize_ready zero f SZ) as (f' & E & R & L & P & G & V).
  assert (Fe' : Forall (fun e => length e = Z.to_nat (zprod comp)) es) by (eapply Forall_impl; [|exact Fe]; intros e He; unfold len in He; lia).
  assert (Lc : len (f_vals f) = buffer_scalars (f_lay f)).
  { unfold len, buffer_scalars. rewrite Ev, (concat_uniform_length _ _ Fe'), El. cbn. rewrite Nb. pose proof (zprod_pos _ Hc). nia. }
  assert (EV : f_vals f' = f_vals f).
  { unfold resize in E. assert (K : has_nsub f = true) by (unfold has_nsub, unknown; rewrite El; cbn; lia). rewrite K in E. cbn [negb] in E.
    unfold buffer_scalars in Lc. rewrite Lc, Ep, Ec, El in E. cbn [local_layout layout_of_shape l_nsub l_nbuf l_nbc] in E. rewrite Z.add_0_r, !Z.eqb_refl in E. cbn [andb] in E.
    injection E as <-. reflexivity. }
  exists f'. split; [exact E|]. split; [exact R|]. split; [exact EV|]. split; [exact L|].
  intros c q i Hci Hq Hi. destruct (ready_strides f' R) as (s & Es & _). unfold value. rewrite Es. cbn [bind].
  assert (Hp : in_shape (l_pix (f_lay f')) [i]) by (rewrite L, El; apply in_shape_cons; exists i, []; split; [reflexivity|]; split; [lia|now apply in_shape_nil]).
  assert (Hci' : in_shape (l_comp (f_lay f')) c) by (rewrite L, El; exact Hci).
  rewrite (sub_pt_offset _ _ _ _ _ (proj1 R) Es Hci' Hp). rewrite L, El. cbn [local_layout layout_of_shape l_nsub l_nbc l_order l_pstr l_comp].
  rewrite local_off1, Nb, EV, Ev.
  assert (B := bij_running comp Hc). destruct B as (_ & W & _). specialize (W c Hci). pose proof (zprod_pos _ Hc) as Zp.
  set (k := off (running 1 comp) c) in *. remember (zprod comp) as b. remember (q + nsub * i) as j.
  assert (Hj : 0 <= j < nsub * n) by (subst j; clear -Hq Hi Hs; nia).
  assert (Lj : length (nth (Z.to_nat j) es []) = Z.to_nat b).
  { rewrite Forall_forall in Fe'. apply Fe'. apply nth_In. lia. }
  assert (Bd : 0 <= k + b * j < Z.of_nat (length (concat es))).
  { rewrite (concat_uniform_length _ _ Fe'), Nat2Z.inj_mul, Ln, Z2Nat.id by lia. clear -W Hj. nia. }
  rewrite (rd_ok (concat es) _ zero Bd). rewrite (rd_ok _ _ zero) by lia. f_equal.
  replace (Z.to_nat (k + b * j)) with (Z.to_nat j * Z.to_nat b + Z.to_nat k)%nat.
  - apply concat_uniform_nth; [exact Fe'|lia|lia].
  - rewrite Z2Nat.inj_add, Z2Nat.inj_mul by (try lia; clear -W Hj; nia). lia.
Qed.

Lemma push_fill zero comp nsub npix0 vs :
  Forall (fun x => 0 < x) comp -> zprod comp < 2 ^ 31 -> 0 < nsub -> Forall (fun v => len v = zprod comp) vs ->
  exists f f', pushes (new_field (local_layout npix0 comp nsub) false false) vs = Ok f /\
    resize zero (initialised_local f (Z.of_nat (length vs))) = (f', Ok tt) /\ ready f' /\
    forall c q i, in_shape comp c -> 0 <= q < nsub -> (i < length vs)%nat ->
      value f' (c ++ [q] ++ [Z.of_nat i]) = rd (nth i vs []) (off (running 1 comp) c).
Proof.
  intros Hc Hv Hs Fv. assert (Nb : get_nb_from_shape comp = zprod comp) by (apply nb_from_shape_exact; assumption).
  destruct (pushes_ok vs (new_field (local_layout npix0 comp nsub) false false)) as (f & E & V & C & L & G & I & P); cbn [new_field f_lay f_glob local_layout layout_of_shape l_nsub l_nbc]; try (reflexivity || assumption).
  { rewrite Nb. exact Fv. }
  cbn [new_field f_lay f_glob f_vals f_cur f_init f_pad local_layout layout_of_shape l_nsub] in *. rewrite app_nil_l in V.
  set (es := concat (map (fun v : list A => repeat v (Z.to_nat nsub)) vs)).
  assert (Fr : Forall (fun e : list (list A) => length e = Z.to_nat nsub) (map (fun v : list A => repeat v (Z.to_nat nsub)) vs)).
  { apply Forall_forall. intros e He. apply in_map_iff in He. destruct He as (v & <- & _). apply repeat_length. }
  assert (Ees : concat (map (fun v : list A => concat (repeat v (Z.to_nat nsub))) vs) = concat es).
  { unfold es. clear. induction vs as [|v vs IH]; [reflexivity|]. cbn [map concat]. rewrite concat_app, IH. reflexivity. }
  rewrite Ees in V.
  destruct (pushed_value zero comp nsub (Z.of_nat (length vs)) (initialised_local f (Z.of_nat (length vs))) es) as (f' & E' & R' & _ & _ & Val);
    [assumption|assumption|assumption|lia|unfold initialised_local; cbn [f_lay]; rewrite L; reflexivity|reflexivity|exact P|unfold initialised_local; cbn [f_cur]; lia|exact V|idtac|idtac|idtac].
  - apply Forall_forall. intros e He. unfold es in He. apply in_concat in He. destruct He as (l & Hl & He). apply in_map_iff in Hl.
    destruct Hl as (v & <- & Hv'). apply repeat_spec in He. subst e. rewrite Forall_forall in Fv. now apply Fv.
  - unfold es. rewrite (concat_uniform_length _ _ Fr), map_length. nia.
  - exists f, f'. split; [exact E|]. split; [exact E'|]. split; [exact R'|]. intros c q i H1 H2 H3. rewrite Val by (assumption || lia).
    f_equal. unfold es. replace (Z.to_nat (q + nsub * Z.of_nat i)) with (i * Z.to_nat nsub + Z.to_nat q)%nat by nia.
    rewrite concat_uniform_nth by (try exact Fr; rewrite ?map_length; lia).
    rewrite (nth_indep _ [] (repeat [] (Z.to_nat nsub))) by (rewrite map_length; lia).
    rewrite (map_nth (fun v : list A => repeat v (Z.to_nat nsub))). apply repeat_nth_in. lia.
Qed.

Lemma pushes_single_ok vs : forall f, f_glob f = false -> 0 < l_nsub (f_lay f) -> Forall (fun v => len v = l_nbc (f_lay f)) vs ->
  exists f', pushes_single f vs = Ok f' /\ f_vals f' = f_vals f ++ concat vs /\
    f_cur f' = f_cur f + Z.of_nat (length vs) /\ f_lay f' = f_lay f /\ f_glob f' = false /\
    f_init f' = f_init f /\ f_pad f' = f_pad f.
Proof.
  induction vs as [|v vs IH]; intros f G Hs L.
  - exists f. cbn. rewrite app_nil_r. split; [reflexivity|]. split; [reflexivity|]. split; [lia|auto].
  - apply Forall_cons_iff in L. destruct L as [L1 L2]. cbn [pushes_single].
    unfold push_back_single, has_nsub, unknown. rewrite G. destruct (Z.eqb_spec (l_nsub (f_lay f)) (-1)); [lia|]. cbn [negb].
    rewrite L1, Z.eqb_refl. cbn [negb bind].
    destruct (push_all_app (with_cur f (f_cur f + 1)) v) as (V & C & Y & G1 & I1 & P1).
    set (f1 := push_all (with_cur f (f_cur f + 1)) v) in *. unfold with_cur in V, C, Y, G1, I1, P1; cbn in V, C, Y, G1, I1, P1.
    destruct (IH f1) as (f' & E & V' & C' & Y' & G' & I' & P'); [congruence|now rewrite Y|now rewrite Y|].
    exists f'. split; [exact E|]. rewrite V', C', V, C, Y', Y, I', P', I1, P1. cbn [map concat length]. rewrite <- app_assoc.
    repeat split; try assumption; lia.
Qed.

Lemma push_single_fill zero comp nsub npix0 n vs :
  Forall (fun x => 0 < x) comp -> zprod comp < 2 ^ 31 -> 0 < nsub -> 0 <= n -> Forall (fun v => len v = zprod comp) vs ->
  Z.of_nat (length vs) = nsub * n ->
  exists f f', pushes_single (new_field (local_layout npix0 comp nsub) false false) vs = Ok f /\
    resize zero (initialised_local f n) = (f', Ok tt) /\ ready f' /\
    forall c q i, in_shape comp c -> 0 <= q < nsub -> 0 <= i < n ->
      value f' (c ++ [q] ++ [i]) = rd (nth (Z.to_nat (q + nsub * i)) vs []) (off (running 1 comp) c).
Proof.
  intros Hc Hv Hs Hn Fv Ln. assert (Nb : get_nb_from_shape comp = zprod comp) by (apply nb_from_shape_exact; assumption).
  destruct (pushes_single_ok vs (new_field (local_layout npix0 comp nsub) false false)) as (f & E & V & C & L & G & I & P); cbn [new_field f_lay f_glob local_layout layout_of_shape l_nsub l_nbc]; try (reflexivity || assumption).
  { rewrite Nb. exact Fv. }
  cbn [new_field f_lay f_glob f_vals f_cur f_init f_pad local_layout layout_of_shape l_nsub] in *. rewrite app_nil_l in V.
  destruct (pushed_value zero comp nsub n (initialised_local f n) vs) as (f' & E' & R' & _ & _ & Val);
    [assumption|assumption|assumption|lia|unfold initialised_local; cbn [f_lay]; rewrite L; reflexivity|reflexivity|exact P|unfold initialised_local; cbn [f_cur]; lia|exact V|exact Fv|exact Ln|idtac].
  - exists f, f'. auto.
Qed.

Lemma push_rejected f v : f_glob f = true \/ l_nsub (f_lay f) = unknown \/ len v <> l_nbc (f_lay f) ->
  push_back f v = Err FieldError /\ push_back_single f v = Err FieldError.
Proof.
  unfold push_back, push_back_single, has_nsub. intros [->|[->| H]]; [auto| |].
  - destruct (f_glob f); cbn; auto.
  - destruct (f_glob f); [auto|]. destruct (l_nsub (f_lay f) =? unknown); cbn [negb]; [auto|].
    destruct (Z.eqb_spec (l_nbc (f_lay f)) (len v)); [congruence|]. cbn [negb]. auto.
Qed.

(** A pad that does not fit the capacity reallocates: earlier maps dangle. *)
Lemma stale_after_pad zero f u rows m p f' i : ready f -> unpadded f -> new_map f u rows = Ok m -> 0 < l_npix (f_lay f) ->
  f_cap f < buffer_scalars (f_lay f) + p -> 0 <= p -> p <> f_pad f -> set_pad_size zero f p = (f', Ok tt) -> map_entry m f' i = UB.
Proof.
  intros R U M Np Cap Hp Ne H. unfold set_pad_size, resize in H. cbn [f_lay f_glob f_init f_cur f_pad f_vals f_cap f_gen f_ptr] in H.
  assert (K : has_nsub f = true) by now apply nsub_known. unfold has_nsub in *. cbn [f_lay] in H. rewrite K in H. cbn [negb] in H.
  assert (N : len (f_vals f) = buffer_scalars (f_lay f) + f_pad f) by apply R. unfold buffer_scalars in *.
  destruct (Z.eqb_spec (len (f_vals f)) (l_nsub (f_lay f) * l_nbuf (f_lay f) * l_nbc (f_lay f) + p)) as [E|E]; [lia|]. cbn [andb] in H.
  destruct (Z.ltb_spec (l_nsub (f_lay f) * l_nbuf (f_lay f) * l_nbc (f_lay f) + p) 0); [discriminate|]. injection H as <-.
  destruct (m_stride_per _ _ _ _ M) as [_ E2]. destruct (new_map_shape _ _ _ _ M) as (_ & _ & _ & _ & _ & MP).
  assert (I : f_init f = true) by apply R. assert (P : f_ptr f = Some (f_gen f)) by apply R. rewrite I, P in MP.
  unfold map_entry, span. rewrite E2, MP. pose proof (per_pos f u R).
  destruct (Z.leb_spec (scalars_per_entry f u) 0); [lia|]. cbn [f_gen f_vals]. unfold realloc.
  destruct (Z.leb_spec (l_nsub (f_lay f) * l_nbuf (f_lay f) * l_nbc (f_lay f) + p) (f_cap f)); [lia|].
  destruct (Z.eqb_spec (f_gen f) (f_gen f + 1)); [lia|]. reflexivity.
Qed.

Lemma field_on_ready zero l glob (v : list A) : sane l -> l_npix l = zprod (l_pix l) -> 0 <= l_npix l <= l_nbuf l ->
  len v = buffer_scalars l -> ready (field_on zero l glob v) /\ f_lay (field_on zero l glob v) = l.
Proof.
  intros S Np Hn Lv. assert (SZ : sizable (new_field l glob true : field A)).
  { unfold sizable, new_field; cbn. split; [exact S|]. split; [reflexivity|]. split; [lia|]. split; [exact Np|exact Hn]. }
  destruct (resize_ready zero _ SZ) as (f' & E & R & L & P & _ & _). cbn [new_field f_lay f_pad] in *. unfold field_on. rewrite E. cbn [fst].
  split; [|exact L]. apply with_vals_ready; [exact R|]. assert (N : len (f_vals f') = buffer_scalars (f_lay f') + f_pad f') by apply R.
  rewrite L, P in N. unfold len in *. lia.
Qed.
Lemma global_field_ready zero order porder n loc comp nsub l glob (v : list A) :
  global_layout_order order porder n loc comp nsub = Ok l -> Forall (fun x => 0 < x) n ->
  Forall (fun x => 0 < x) comp -> zprod comp < 2 ^ 31 -> 0 < nsub -> order = ColMajor \/ order = RowMajor ->
  len v = nsub * zprod n * zprod comp -> ready (field_on zero l glob v) /\ unpadded (field_on zero l glob v) /\ f_lay (field_on zero l glob v) = l.
Proof.
  intros E Hn Hc Hv Hs Ho Lv. destruct (global_order_dense _ _ _ _ _ _ _ E Hn Hc Hv Hs Ho) as ((S & _) & E1 & E2 & E3 & E4 & E5 & _).
  pose proof (zprod_pos _ Hn). destruct (field_on_ready zero l glob v) as [R L].
  - exact S.
  - congruence.
  - lia.
  - unfold buffer_scalars. destruct S as (Ec & _). rewrite E1, E5, Ec, E4. exact Lv.
  - split; [exact R|]. split; [unfold unpadded; rewrite L; congruence|exact L].
Qed.
Lemma local_field_ready zero n comp nsub glob (v : list A) : 0 <= n -> Forall (fun x => 0 < x) comp -> zprod comp < 2 ^ 31 -> 0 < nsub ->
  len v = nsub * n * zprod comp -> ready (field_on zero (local_layout n comp nsub) glob v).
Proof.
  intros Hn Hc Hv Hs Lv. destruct (local_layout_dense n comp nsub Hn Hc Hv Hs) as [S _].
  apply field_on_ready; [exact S|cbn; unfold zprod; cbn; lia|cbn; lia|]. unfold buffer_scalars. cbn. rewrite nb_from_shape_exact by assumption. exact Lv.
Qed.
End More.

(** Decides membership of a concrete index in a concrete shape. *)
Fixpoint in_shape_b (n c : list Z) : bool :=
  match n, c with
  | [], [] => true
  | x :: n', y :: c' => (0 <=? y) && (y <? x) && in_shape_b n' c'
  | _, _ => false
  end.
Lemma in_shape_b_ok n c : in_shape_b n c = true -> in_shape n c.
Proof.
  revert c; induction n as [|x n IH]; intros [|y c] H; cbn in H; try discriminate; [now apply in_shape_nil|].
  apply andb_prop in H. destruct H as [H1 H2]. apply in_shape_cons. exists y, c. split; [reflexivity|]. split; [lia|]. now apply IH.
Qed.
