(** Proofs about enumeration of the entries of fields in collections. *)
From Coq Require Import String.
From Verif Require Import Base GridSpec GridModel StridedModel LayoutModel LayoutSpec LayoutProofs FieldModel FieldSpec FieldProofs FieldProofs2 RegistryModel RegistrySpec RegistryProps MapModel MapProofs.
Local Open Scope Z_scope.
Local Open Scope list_scope.

Lemma nth_sub_pts (s : nat) : forall (ix : list Z) (k : nat) q p, 0 <= q < Z.of_nat s -> nth_error ix k = Some p ->
  nth_error (flat_map (fun p => map (fun q => p * Z.of_nat s + q) (zrange s)) ix) (Z.to_nat q + s * k) = Some (p * Z.of_nat s + q).
Proof.
  induction ix as [|x ix IH]; intros k q p Hq H; [destruct k; discriminate|]. cbn [flat_map].
  assert (L : length (map (fun q => x * Z.of_nat s + q) (zrange s)) = s) by (unfold zrange; now rewrite !map_length, seq_length).
  destruct k as [|k].
  - cbn in H. injection H as <-. rewrite nth_error_app1 by (rewrite L; lia). rewrite Nat.mul_0_r, Nat.add_0_r.
    unfold zrange. rewrite map_map. rewrite (nth_error_nth' _ 0) by (rewrite map_length, seq_length; lia). f_equal.
    rewrite (nth_indep _ 0 (x * Z.of_nat s + Z.of_nat 0)) by (rewrite map_length, seq_length; lia).
    rewrite (map_nth (fun j => x * Z.of_nat s + Z.of_nat j)), seq_nth by lia. lia.
  - rewrite nth_error_app2 by (rewrite L; lia). rewrite L. replace (Z.to_nat q + s * S k - s)%nat with (Z.to_nat q + s * k)%nat by lia. now apply IH.
Qed.
Lemma sub_pts_length (s : nat) (ix : list Z) : length (flat_map (fun p => map (fun q => p * Z.of_nat s + q) (zrange s)) ix) = (length ix * s)%nat.
Proof. induction ix as [|x ix IH]; [reflexivity|]. cbn [flat_map]. rewrite app_length, IH. unfold zrange. rewrite !map_length, seq_length. reflexivity. Qed.
Lemma nth_combine {X Y} : forall (a : list X) (b : list Y) k x y, nth_error a k = Some x -> nth_error b k = Some y -> nth_error (combine a b) k = Some (x, y).
Proof.
  induction a as [|a0 a IH]; intros [|b0 b] [|k] x y Ha Hb; cbn in *; try discriminate; [congruence|]. now apply IH.
Qed.
Lemma nth_blk {A} (f : field A) u n k : (k < n)%nat -> nth_error (map (blk f u) (seq 0 n)) k = Some (blk f u k).
Proof.
  intros H. rewrite (nth_error_nth' _ (blk f u 0)) by (now rewrite map_length, seq_length). f_equal. rewrite map_nth, seq_nth by exact H. reflexivity.
Qed.

Section S.
Context {A : Type} (zero : A).

(** What is used of a field in a collection. *)
Definition placed (c : coll A) (tag : string) (f : field A) : Prop :=
  ready f /\ unpadded f /\ l_npix (f_lay f) = Z.of_nat (length (c_index c)) /\ tag_number c tag = Some (l_nsub (f_lay f)).

Lemma registered_placed c name r : sensibly_reachable zero true c -> c_init c = true -> good_pixels c -> c_nbuf c = c_npix c ->
  c_npix c = Z.of_nat (length (c_index c)) -> get_field c name = Ok r -> placed c (rf_tag r) (rf_field r).
Proof.
  intros R I G B N Hf. pose proof (C17_ready zero c name r R I G Hf) as Rd. split; [exact Rd|].
  pose proof (C17_storage zero true c name r R I Hf) as S. cbn zeta in S. destruct S as (Ps & _ & _ & _ & _ & _ & Se & _).
  destruct Se as (_ & _ & _ & S4 & S5 & _). unfold unpadded. split; [congruence|]. split; [congruence|].
  assert (Rr : reachable zero c) by (destruct R as (g & o & t & c0 & h & R1 & _ & _ & R2); exists g, o, t, c0, h; auto).
  pose proof (C16_fields_report_number zero c name r Rr Hf) as E. unfold sub_pts_of in E. destruct (tag_number c (rf_tag r)); [now rewrite E|unfold unknown in E; lia].
Qed.

Lemma sub_pt_list c tag f : placed c tag f ->
  sub_pt_indices c tag = Ok (flat_map (fun p => map (fun q => p * l_nsub (f_lay f) + q) (zrange (Z.to_nat (l_nsub (f_lay f))))) (c_index c)).
Proof.
  intros (R & U & N & T). assert (P : 0 < l_nsub (f_lay f)) by apply R. unfold sub_pt_indices, index_stride. rewrite T. cbn [bind].
  rewrite <- (Z2Nat.id (l_nsub (f_lay f))) in T by lia. rewrite (C21_indices c tag (Z.to_nat (l_nsub (f_lay f))) _ T) by lia.
  rewrite !Z2Nat.id by lia. reflexivity.
Qed.

Definition numbers (c : coll A) (f : field A) u : list Z :=
  match u with Pixel => c_index c
  | SubPt => flat_map (fun p => map (fun q => p * l_nsub (f_lay f) + q) (zrange (Z.to_nat (l_nsub (f_lay f))))) (c_index c) end.

Lemma numbers_length c tag f u : placed c tag f -> Z.of_nat (length (numbers c f u)) = entries_of f u.
Proof.
  intros (R & U & N & T). assert (P : 0 < l_nsub (f_lay f)) by apply R. unfold numbers, entries_of. destruct u; [congruence|].
  rewrite <- (Z2Nat.id (l_nsub (f_lay f))) by lia. rewrite Nat2Z.id, sub_pts_length. lia.
Qed.

Lemma static_enumerate_ok c tag f u t m : placed c tag f -> 0 < it_rows t -> new_static f u t = Ok m -> entries_of f u < 2 ^ 64 ->
  static_enumerate c tag t m f = Ok (combine (numbers c f u) (map (blk f u) (seq 0 (Z.to_nat (entries_of f u))))).
Proof.
  intros P Pt H Z. destruct (new_static_inv _ _ _ _ Pt H) as (Hm & E1 & E2 & E3 & E4). assert (P' := P). destruct P' as (R & U & N & T).
  pose proof (map_size_ready _ _ _ _ R U Hm) as Sz. pose proof (count_nonneg f u R) as Cn.
  destruct (new_map_shape _ _ _ _ Hm) as (_ & Mu & _). unfold static_enumerate. rewrite Mu.
  rewrite unsigned_size_ok by lia. rewrite Sz.
  assert (En : forall k, (k < Z.to_nat (entries_of f u))%nat -> static_entry t m f (Z.of_nat k) = Ok (blk f u k)).
  { intros k Hk. rewrite static_entry_same; [|exact E1|rewrite E2, E3; reflexivity]. rewrite (entry_block f u (Some (it_rows t)) m (Z.of_nat k) R U Hm ltac:(lia)). now rewrite Nat2Z.id. }
  destruct u; [|rewrite (sub_pt_list c tag f P); cbn [bind]]; now apply paired_ok.
Qed.
Lemma dynamic_enumerate_ok c tag f rows m : placed c tag f -> new_map f SubPt rows = Ok m ->
  enumerate_indices c tag m f = Ok (combine (numbers c f SubPt) (map (blk f SubPt) (seq 0 (Z.to_nat (entries_of f SubPt))))).
Proof.
  intros P Hm. assert (P' := P). destruct P' as (R & U & N & T).
  pose proof (map_size_ready _ _ _ _ R U Hm) as Sz. pose proof (count_nonneg f SubPt R) as Cn.
  destruct (new_map_shape _ _ _ _ Hm) as (_ & Mu & _ & _ & I & _). unfold enumerate_indices. rewrite (sub_pt_list c tag f P). cbn [bind].
  rewrite I. replace (f_init f) with true by (symmetry; apply R). cbn [negb]. rewrite Sz.
  rewrite <- (Z2Nat.id (entries_of f SubPt)) by exact Cn. rewrite Nat2Z.id. apply paired_ok.
  intros k Hk. rewrite (entry_block f SubPt rows m (Z.of_nat k) R U Hm ltac:(lia)). now rewrite Nat2Z.id.
Qed.
Lemma fast_enumerate_ok c tag f rows m : placed c tag f -> new_map f Pixel rows = Ok m ->
  enumerate_pixels_fast c m f = Ok (combine (numbers c f Pixel) (map (blk f Pixel) (seq 0 (Z.to_nat (entries_of f Pixel))))).
Proof.
  intros P Hm. assert (P' := P). destruct P' as (R & U & N & T).
  pose proof (map_size_ready _ _ _ _ R U Hm) as Sz. pose proof (count_nonneg f Pixel R) as Cn.
  destruct (new_map_shape _ _ _ _ Hm) as (_ & Mu & _ & _ & I & _). unfold enumerate_pixels_fast. rewrite Mu.
  rewrite I. replace (f_init f) with true by (symmetry; apply R). cbn [negb]. rewrite Sz.
  rewrite <- (Z2Nat.id (entries_of f Pixel)) by exact Cn. rewrite Nat2Z.id. apply paired_ok.
  intros k Hk. rewrite (entry_block f Pixel rows m (Z.of_nat k) R U Hm ltac:(lia)). now rewrite Nat2Z.id.
Qed.

Lemma pairs_length c tag f u : placed c tag f ->
  Z.of_nat (length (combine (numbers c f u) (map (blk f u) (seq 0 (Z.to_nat (entries_of f u)))))) = entries_of f u.
Proof.
  intros P. pose proof (numbers_length c tag f u P). destruct P as (R & _). pose proof (count_nonneg f u R).
  rewrite combine_length, map_length, seq_length. lia.
Qed.

Lemma sub_pt_pairs c tag f rows m comp q p : placed c tag f -> new_map f SubPt rows = Ok m ->
  in_shape (l_comp (f_lay f)) comp -> 0 <= q < l_nsub (f_lay f) -> in_shape (l_pix (f_lay f)) p ->
  exists pix e, nth_error (c_index c) (Z.to_nat (off (l_pstr (f_lay f)) p)) = Some pix /\
    nth_error (combine (numbers c f SubPt) (map (blk f SubPt) (seq 0 (Z.to_nat (entries_of f SubPt))))) (Z.to_nat (q + l_nsub (f_lay f) * off (l_pstr (f_lay f)) p)) =
      Some (pix * l_nsub (f_lay f) + q, e) /\
    rd e (off (running 1 (l_comp (f_lay f))) comp) = value f (comp ++ [q] ++ p).
Proof.
  intros P Hm Hc Hq Hp. assert (P' := P). destruct P' as (R & U & N & T).
  destruct (sub_pt_entry_value f rows m comp q p R U Hm Hc Hq Hp) as (Hi & e & Ee & Ev). rewrite (map_size_ready _ _ _ _ R U Hm) in Hi.
  assert (Wp : 0 <= off (l_pstr (f_lay f)) p < l_npix (f_lay f)).
  { assert (S : sane (f_lay f)) by apply R. destruct S as (_ & _ & _ & _ & _ & W & _). unfold unpadded in U. rewrite <- U. now apply W. }
  destruct (nth_error (c_index c) (Z.to_nat (off (l_pstr (f_lay f)) p))) as [pix|] eqn:Ep; [|apply nth_error_None in Ep; lia].
  exists pix, e. split; [reflexivity|]. split; [|exact Ev]. apply nth_combine.
  - unfold numbers. rewrite <- (Z2Nat.id (l_nsub (f_lay f))) by lia. rewrite Nat2Z.id. rewrite Z2Nat.inj_add, Z2Nat.inj_mul, Nat2Z.id by lia.
    apply nth_sub_pts; [lia|exact Ep].
  - rewrite (entry_block f SubPt rows m _ R U Hm Hi) in Ee. apply Ok_inj in Ee. subst e. rewrite nth_blk by lia. reflexivity.
Qed.
Lemma pixel_pairs c tag f rows m comp q p : placed c tag f -> new_map f Pixel rows = Ok m ->
  in_shape (l_comp (f_lay f)) comp -> 0 <= q < l_nsub (f_lay f) -> in_shape (l_pix (f_lay f)) p ->
  exists pix e, nth_error (c_index c) (Z.to_nat (off (l_pstr (f_lay f)) p)) = Some pix /\
    nth_error (combine (numbers c f Pixel) (map (blk f Pixel) (seq 0 (Z.to_nat (entries_of f Pixel))))) (Z.to_nat (off (l_pstr (f_lay f)) p)) = Some (pix, e) /\
    rd e (off (running 1 (l_comp (f_lay f))) comp + l_nbc (f_lay f) * q) = value f (comp ++ [q] ++ p).
Proof.
  intros P Hm Hc Hq Hp. assert (P' := P). destruct P' as (R & U & N & T).
  destruct (pixel_entry_value f rows m comp q p R U Hm Hc Hq Hp) as (Hi & e & Ee & Ev). rewrite (map_size_ready _ _ _ _ R U Hm) in Hi.
  destruct (nth_error (c_index c) (Z.to_nat (off (l_pstr (f_lay f)) p))) as [pix|] eqn:Ep; [|apply nth_error_None in Ep; unfold entries_of in Hi; lia].
  exists pix, e. split; [reflexivity|]. split; [|exact Ev]. apply nth_combine; [exact Ep|].
  rewrite (entry_block f Pixel rows m _ R U Hm Hi) in Ee. apply Ok_inj in Ee. subst e. rewrite nth_blk by lia. reflexivity.
Qed.
End S.
