(** Slots of state fields, single steps. *)
From Coq Require Import String NArith.
From Verif Require Import Base CIntModel GridModel GridSpec StridedModel UnitsModel LayoutModel LayoutSpec LayoutProofs.
From Verif Require Import StridedProofs FieldModel FieldSpec FieldProofs RegistryModel RegistrySpec RegistryProofs RegistryProofs2 RegistryProofs3 RegistryProofs4.
From Verif Require Import StateModel StateSpec StateProofs StateProofs2.
Local Open Scope Z_scope.
Local Open Scope list_scope.

Section S.
Context {A : Type}.
Implicit Types (c : coll A) (y : sys A).

Lemma state_found y p mem : holds_state y p mem -> exists s, lookup p (y_states y) = Some s /\ s_mem s = mem.
Proof. intros [(s & G & E) _]. unfold get_state in G. destruct (lookup p (y_states y)); [apply Ok_inj in G; subst; eauto|discriminate]. Qed.

Lemma get_found y p s : get_state y p = Ok s <-> lookup p (y_states y) = Some s.
Proof. unfold get_state. destruct (lookup p (y_states y)); split; intros H; try discriminate; [apply Ok_inj in H; congruence|congruence]. Qed.

(** Every slot up to the memory names a sub-field, and none beyond does. *)
Lemma slots zero y p s k : sreachable zero y -> get_state y p = Ok s ->
  ((k <= Z.to_nat (s_mem s))%nat -> exists j, (j <= Z.to_nat (s_mem s))%nat /\ name_at y p k = Ok (sub_name p j)) /\
  ((Z.to_nat (s_mem s) < k)%nat -> name_at y p k = Err OutOfRange).
Proof.
  intros R G. pose proof (proj1 (get_found _ _ _) G) as L. destruct (proj2 (sreachable_ok zero y R) _ _ L) as (M & t & _ & Ei).
  pose proof (idx_length s t Ei ltac:(lia)) as Len. split; intros K.
  - destruct (nth_error (s_idx s) k) as [v|] eqn:E; [|apply nth_error_None in E; lia].
    destruct (states_in_range y p s (proj2 (sreachable_ok zero y R)) L) as [_ Rg]. rewrite Forall_forall in Rg. specialize (Rg v (nth_error_In _ _ E)).
    exists (Z.to_nat v). split; [lia|]. eapply name_at_spec; eassumption.
  - unfold name_at. rewrite G. cbn [bind]. unfold slot. destruct (nth_error (s_idx s) k) eqn:E; [|reflexivity].
    assert (k < length (s_idx s))%nat by (apply nth_error_Some; congruence). lia.
Qed.

Lemma slots_distinct zero y p s i j : sreachable zero y -> get_state y p = Ok s -> power_of_two (s_mem s + 1) ->
  (i <= Z.to_nat (s_mem s))%nat -> (j <= Z.to_nat (s_mem s))%nat -> name_at y p i = name_at y p j -> i = j.
Proof.
  intros R G P. pose proof (proj1 (get_found _ _ _) G) as L. destruct (proj2 (sreachable_ok zero y R) _ _ L) as (M & t & _ & Ei).
  assert (W : forall i j, (i < j <= Z.to_nat (s_mem s))%nat -> name_at y p i <> name_at y p j).
  { clear i j. intros i j B X. rewrite (name_at_spec y p s i _ L (idx_rotated s t i Ei M P ltac:(lia))), (name_at_spec y p s j _ L (idx_rotated s t j Ei M P ltac:(lia))) in X.
    apply Ok_inj, sub_name_inj in X. destruct X as [_ X].
    pose proof (Z.mod_pos_bound (t - Z.of_nat i) (s_mem s + 1) ltac:(lia)). pose proof (Z.mod_pos_bound (t - Z.of_nat j) (s_mem s + 1) ltac:(lia)).
    apply (mod_neq (t - Z.of_nat j) (t - Z.of_nat i) (s_mem s + 1)); lia. }
  intros Hi Hj X. destruct (Nat.lt_trichotomy i j) as [H|[H|H]]; [|exact H|]; exfalso.
  - now apply (W i j); [lia|].
  - now apply (W j i); [lia|].
Qed.

(** Two slots share storage in every state, for all other memories. *)
Lemma slots_shared zero y p s : sreachable zero y -> get_state y p = Ok s -> ~ power_of_two (s_mem s + 1) ->
  exists i j, (i < j <= Z.to_nat (s_mem s))%nat /\ name_at y p i = name_at y p j.
Proof.
  intros R G P. pose proof (proj1 (get_found _ _ _) G) as L. destruct (proj2 (sreachable_ok zero y R) _ _ L) as (M & t & _ & Ei).
  destruct (init_dup (s_mem s) M P) as (i & j & v & B & Hi & Hj). exists i, j. split; [exact B|].
  rewrite (name_at_spec y p s i ((v + t) mod (s_mem s + 1)) L), (name_at_spec y p s j ((v + t) mod (s_mem s + 1)) L); [reflexivity| |]; rewrite Ei, nth_error_map.
  - now rewrite Hj.
  - now rewrite Hi.
Qed.

Lemma cycle_next zero y p s : sreachable zero y -> get_state y p = Ok s -> power_of_two (s_mem s + 1) ->
  let y' := fst (sstep zero y (SCycle p)) in
  snd (sstep zero y (SCycle p)) = Ok tt /\ y_coll y' = y_coll y /\
  (forall k, (k < Z.to_nat (s_mem s))%nat -> name_at y' p (S k) = name_at y p k) /\
  name_at y' p 0 = name_at y p (Z.to_nat (s_mem s)) /\
  (forall q, q <> p -> get_state y' q = get_state y q).
Proof.
  intros R G P. pose proof (proj1 (get_found _ _ _) G) as L. destruct (proj2 (sreachable_ok zero y R) _ _ L) as (M & t & _ & Ei).
  cbv zeta. pose proof (sstep_state zero y (SCycle p) p s L) as L'. cbv beta iota in L'. rewrite String.eqb_refl in L'.
  assert (N : forall k, (k <= Z.to_nat (s_mem s))%nat -> name_at (fst (sstep zero y (SCycle p))) p k = Ok (sub_name p (Z.to_nat ((t + 1 - Z.of_nat k) mod (s_mem s + 1))))).
  { intros k K. eapply name_at_spec; [exact L'|]. cbn [cycled s_idx]. rewrite nth_error_map, (idx_rotated s t k Ei M P K). cbn [option_map]. rewrite Zplus_mod_idemp_l. f_equal. f_equal. lia. }
  split; [cbn [sstep]; now rewrite L|]. split; [cbn [sstep]; now rewrite L|]. split; [|split].
  - intros k K. rewrite N by lia. rewrite (name_at_spec y p s k _ L (idx_rotated s t k Ei M P ltac:(lia))). do 4 f_equal. lia.
  - rewrite N by lia. rewrite (name_at_spec y p s _ _ L (idx_rotated s t (Z.to_nat (s_mem s)) Ei M P ltac:(lia))). do 3 f_equal.
    rewrite Z2Nat.id by lia. replace (t + 1 - Z.of_nat 0) with (t - s_mem s + 1 * (s_mem s + 1)) by lia. apply Z_mod_plus_full.
  - intros q Q. cbn [sstep]. rewrite L. unfold get_state. cbn [y_states fst]. rewrite lookup_insert_other; auto.
Qed.

(** A full turn restores every slot, for all memories. *)
Lemma full_turn zero y p s h k : sreachable zero y -> get_state y p = Ok s -> Z.of_nat (cycles p h) = s_mem s + 1 ->
  name_at (srun zero y h) p k = name_at y p k.
Proof.
  intros R G C. pose proof (proj1 (get_found _ _ _) G) as L. pose proof (states_in_range y p s (proj2 (sreachable_ok zero y R)) L) as Rg.
  pose proof (srun_state zero p h y s Rg L) as L'. rewrite C in L'.
  assert (rotated s (s_mem s + 1) = s) as E.
  { transitivity (rotated s 0); [|exact (rotated_0 s Rg)]. unfold rotated. f_equal. apply map_ext. intros v. rewrite <- (Z_mod_plus_full (v + 0) 1 (s_mem s + 1)). f_equal. lia. }
  rewrite E in L'. unfold name_at, get_state. now rewrite L, L'.
Qed.

(** Nothing but cycling changes what old(k) returns. *)
Lemma old_untouched zero y o p mem k : sreachable zero y -> c_init (y_coll y) = true -> holds_state y p mem -> power_of_two (mem + 1) ->
  leaves_alone p mem o -> o <> SCycle p -> (1 <= k <= Z.to_nat mem)%nat ->
  field_at (fst (sstep zero y o)) p k = field_at y p k.
Proof.
  intros R I H P LA NC K. destruct (state_found _ _ _ H) as (s & L & <-). pose proof (proj2 (get_found _ _ _) L) as G.
  destruct (proj1 (slots zero y p s k R G)) as (j & Hj & N); [lia|].
  assert (N' : name_at (fst (sstep zero y o)) p k = name_at y p k).
  { unfold name_at, get_state. rewrite (sstep_state zero y o p s L), L. destruct o; try reflexivity. destruct (String.eqb_spec prefix p); [congruence|reflexivity]. }
  assert (Inm : In (sub_name p j) (sub_names p (s_mem s))) by (apply in_sub_names; exists j; split; [lia|reflexivity]).
  destruct (holds_settled zero y p (s_mem s) (sub_name p j) R I H Inm) as (r & St).
  assert (St' : settled (y_coll (fst (sstep zero y o))) (sub_name p j) r).
  { eapply sstep_same; [exact Inm|exact LA|exact St|]. intros i x _ X. assert (0 = k)%nat; [|lia].
    eapply slots_distinct with (y := y) (p := p); try eassumption; try lia. congruence. }
  unfold field_at. rewrite N', N. cbn [bind]. destruct St as (_ & G1 & _), St' as (_ & G2 & _). unfold get_field in G1, G2.
  destruct (lookup (sub_name p j) (c_fields (y_coll y))); [|discriminate]. destruct (lookup (sub_name p j) _); [|discriminate].
  apply Ok_inj in G1, G2. congruence.
Qed.

Lemma upd_nth {B} (l : list B) : forall i x j, (i < length l)%nat -> nth_error (upd l i x) j = if Nat.eqb j i then Some x else nth_error l j.
Proof.
  induction l as [|a l IH]; intros i x j H; [cbn in H; lia|]. destruct i as [|i], j as [|j]; cbn in *; try reflexivity. apply IH. lia.
Qed.

(** A write reaches the current field. *)
Lemma write_current zero y p r i x : sreachable zero y -> field_at y p 0 = Ok r -> 0 <= i < Z.of_nat (length (f_vals (rf_field r))) ->
  snd (sstep zero y (SWrite p i x)) = Ok tt /\
  exists r', field_at (fst (sstep zero y (SWrite p i x))) p 0 = Ok r' /\ length (f_vals (rf_field r')) = length (f_vals (rf_field r)) /\
    forall j, nth_error (f_vals (rf_field r')) j = if Nat.eqb j (Z.to_nat i) then Some x else nth_error (f_vals (rf_field r)) j.
Proof.
  intros R F B. unfold field_at in F. destruct (name_at y p 0) as [n| |] eqn:N; [|discriminate|discriminate]. cbn [bind] in F.
  destruct (lookup n (c_fields (y_coll y))) as [r0|] eqn:L; [|discriminate]. apply Ok_inj in F; subst r0.
  cbn [sstep]. rewrite N. cbn [step]. unfold on_field, keep. rewrite L, (wr_ok _ _ _ B). cbn [bind fst snd]. split; [reflexivity|].
  exists (set_field r (with_vals (rf_field r) (upd (f_vals (rf_field r)) (Z.to_nat i) x))). split; [|split].
  - unfold field_at, name_at, get_state. cbn [y_states y_coll]. unfold name_at, get_state in N. rewrite N. cbn [bind]. unfold with_fields; cbn [c_fields].
    now rewrite lookup_insert_same.
  - cbn. apply upd_length.
  - intros j. cbn [rf_field set_field f_vals with_vals]. apply upd_nth. lia.
Qed.
End S.
