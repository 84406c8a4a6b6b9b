(** Proofs about lifetimes: moved maps. *)
From Coq Require Import String.
From Verif Require Import Base GridModel StridedModel UnitsModel LayoutModel LayoutProofs FieldModel FieldSpec FieldProofs FieldProofs2 RegistryModel RegistrySpec RegistryProofs RegistryProofs2 RegistryProofs3 MapModel LifeModel LifeSpec LifeProofs LifeProofs2 LifeProofs3.
Local Open Scope Z_scope.
Local Open Scope list_scope.

Section L.
Context {A : Type} (zero : A).
Implicit Types (w : world A).

Definition twins w (i j : nat) : Prop := (i < w_next w)%nat /\ (j < w_next w)%nat /\ forall a b, nlookup i (w_maps w) = Some a -> nlookup j (w_maps w) = Some b -> a = b.

Lemma run_calls_next l : forall w, w_next (fst (run_calls l w)) = w_next w.
Proof.
  induction l as [|i l IH]; intros w; cbn [run_calls]; [reflexivity|]. destruct (nlookup i (w_maps w)); [|apply IH]. destruct (field_at w _); [|reflexivity].
  destruct (initialise_map _ _); [|reflexivity|reflexivity]. now rewrite IH.
Qed.
Lemma next_mono w o : (w_next w <= w_next (fst (wstep zero w o)))%nat.
Proof.
  destruct o as [o|id|id u k|j|j]; cbn [wstep]; try (cbn; lia).
  - destruct (step zero (w_coll w) o) as [c [u0|e|]]; [|cbn; lia|cbn; lia].
    destruct o; try (cbn [fst w_next]; lia); try (rewrite run_calls_next; cbn; lia); try (destruct (lookup name (w_ids w)); try (cbn; lia); destruct (lookup name (c_fields (w_coll w))); cbn; lia).
  - destruct (field_at w id); [|cbn; lia]. destruct (make_map _ _ _); cbn; lia.
  - destruct (nlookup j (w_maps w)); [|cbn; lia]. destruct (field_at w _); [|cbn; lia]. destruct (negb _); cbn; lia.
Qed.

Lemma coll_maps w o : ~ initialises o -> w_maps (fst (wstep zero w (WColl o))) = w_maps w.
Proof.
  intros Io. cbn [wstep]. destruct (step zero (w_coll w) o) as [c [u0|e|]]; [|reflexivity|reflexivity].
  destruct o; try reflexivity; try (exfalso; apply Io; exact Logic.I); destruct (lookup name (w_ids w)); try reflexivity; destruct (lookup name (c_fields (w_coll w))); reflexivity.
Qed.

Lemma twins_step w o i j : tinv w -> twins w i j -> twins (fst (wstep zero w o)) i j.
Proof.
  intros T (Hi & Hj & H). pose proof (next_mono w o) as Nx. split; [lia|]. split; [lia|]. clear Nx. destruct o as [o|id|id u k|x|x].
  - assert (D : initialises o \/ ~ initialises o) by (destruct o; cbn; auto). destruct D as [Io|Io]; [|rewrite coll_maps by exact Io; exact H].
    destruct (wstep_init zero w o T Io) as (_ & _ & _ & _ & Kf & Ks). destruct (is_ok (snd (step zero (w_coll w) o))) eqn:R; [|rewrite (Kf eq_refl); exact H].
    destruct (Ks eq_refl) as [Kn K]. intros a b La Lb. destruct (nlookup i (w_maps w)) as [a0|] eqn:La0; [|rewrite (Kn i La0) in La; discriminate]. destruct (nlookup j (w_maps w)) as [b0|] eqn:Lb0; [|rewrite (Kn j Lb0) in Lb; discriminate].
    pose proof (H a0 b0 eq_refl eq_refl) as E. subst b0. destruct (K i a0 La0) as (f & a' & F1 & L1 & E1 & I1). destruct (K j a0 Lb0) as (f' & b' & F2 & L2 & E2 & I2).
    rewrite La in L1. injection L1 as <-. rewrite Lb in L2. injection L2 as <-. rewrite F1 in F2. injection F2 as <-. rewrite I1 in I2. apply Ok_inj in I2.
    destruct a as [fa ma], b as [fb mb]; cbn in *. congruence.
  - exact H.
  - cbn [wstep]. destruct (field_at w id); [|exact H]. destruct (make_map _ _ _) as [m|e|]; [|exact H|exact H]. cbn [fst add_map w_maps nlookup].
    destruct (Nat.eqb_spec i (w_next w)); [lia|]. destruct (Nat.eqb_spec j (w_next w)); [lia|]. exact H.
  - cbn [wstep]. destruct (nlookup x (w_maps w)); [|exact H]. destruct (field_at w _); [|exact H]. destruct (negb _); [exact H|]. cbn [fst add_map w_maps nlookup].
    destruct (Nat.eqb_spec i (w_next w)); [lia|]. destruct (Nat.eqb_spec j (w_next w)); [lia|]. exact H.
  - cbn [wstep fst w_maps]. intros a b. rewrite !nlookup_remove. destruct (i =? x)%nat; [discriminate|]. destruct (j =? x)%nat; [discriminate|]. apply H.
Qed.

Lemma later_tinv (P : world A -> wop A -> Prop) w0 w : (forall w o, P w o -> tidy w o) -> tinv w0 -> later zero P w0 w -> tinv w.
Proof. intros H T. induction 1; [exact T|]. apply tinv_step; auto. Qed.
Lemma later_twins w0 w i j : tinv w0 -> later zero tidy w0 w -> twins w0 i j -> twins w i j.
Proof. intros T L Tw. induction L as [|w o L IH Ti]; [exact Tw|]. apply twins_step; [|exact IH]. apply (later_tinv tidy w0 w); auto. Qed.

Lemma moved w i lm : tinv w -> nlookup i (w_maps w) = Some lm -> snd (wstep zero w (WMoveMap i)) = Ok tt ->
  nlookup (w_next w) (w_maps (fst (wstep zero w (WMoveMap i)))) = Some lm /\ nlookup i (w_maps (fst (wstep zero w (WMoveMap i)))) = Some lm /\ twins (fst (wstep zero w (WMoveMap i))) i (w_next w).
Proof.
  intros T L. destruct (T) as (_ & _ & M & _). destruct (M i lm L) as (Li & _). cbn [wstep]. rewrite L. destruct (field_at w (lm_field lm)) as [f|]; [|discriminate]. destruct (negb _); [discriminate|]. intros _.
  cbn [fst add_map w_maps nlookup]. rewrite Nat.eqb_refl. destruct (Nat.eqb_spec i (w_next w)); [lia|]. split; [reflexivity|]. split; [exact L|].
  split; [cbn; lia|]. split; [cbn; lia|]. cbn [add_map w_maps nlookup]. rewrite Nat.eqb_refl. destruct (Nat.eqb_spec i (w_next w)); [lia|]. intros a b H1 H2. congruence.
Qed.

(** The shape of a map lasts. *)
Lemma entries_step w o i lm' : tinv w -> (i < w_next w)%nat -> nlookup i (w_maps (fst (wstep zero w o))) = Some lm' ->
  exists lm, nlookup i (w_maps w) = Some lm /\ same_entries lm lm'.
Proof.
  intros T Hi L. assert (Z : nlookup i (w_maps w) = Some lm' -> exists lm, nlookup i (w_maps w) = Some lm /\ same_entries lm lm') by (intros X; exists lm'; split; [exact X|]; repeat split).
  destruct o as [o|id|id u k|x|x].
  - assert (D : initialises o \/ ~ initialises o) by (destruct o; cbn; auto). destruct D as [Io|Io]; [|rewrite coll_maps in L by exact Io; now apply Z].
    destruct (wstep_init zero w o T Io) as (_ & _ & _ & _ & Kf & Ks). destruct (is_ok (snd (step zero (w_coll w) o))) eqn:R; [|rewrite (Kf eq_refl) in L; now apply Z].
    destruct (Ks eq_refl) as [Kn K]. destruct (nlookup i (w_maps w)) as [a0|] eqn:La0; [|rewrite (Kn i La0) in L; discriminate].
    destruct (K i a0 La0) as (f & a' & F1 & L1 & E1 & I1). rewrite L in L1. injection L1 as <-. exists a0. split; [reflexivity|]. unfold initialise_map in I1. destruct (negb _); [discriminate|]. apply Ok_inj in I1.
    unfold same_entries. rewrite E1, <- I1. repeat split.
  - now apply Z.
  - cbn [wstep] in L. destruct (field_at w id); [|now apply Z]. destruct (make_map _ _ _) as [m|e|]; [|now apply Z|now apply Z]. cbn [fst add_map w_maps nlookup] in L.
    destruct (Nat.eqb_spec i (w_next w)); [lia|]. now apply Z.
  - cbn [wstep] in L. destruct (nlookup x (w_maps w)); [|now apply Z]. destruct (field_at w _); [|now apply Z]. destruct (negb _); [now apply Z|]. cbn [fst add_map w_maps nlookup] in L.
    destruct (Nat.eqb_spec i (w_next w)); [lia|]. now apply Z.
  - cbn [wstep fst w_maps] in L. rewrite nlookup_remove in L. destruct (i =? x)%nat; [discriminate|]. now apply Z.
Qed.
Lemma later_next w0 w P : later zero P w0 w -> (w_next w0 <= w_next w)%nat.
Proof. induction 1 as [|w o L IH Pw]; [lia|]. pose proof (next_mono w o). lia. Qed.
Lemma entries_last w0 w i lm lm' : tinv w0 -> later zero tidy w0 w -> nlookup i (w_maps w0) = Some lm -> nlookup i (w_maps w) = Some lm' -> same_entries lm lm'.
Proof.
  intros T L L0. assert (Hi : (i < w_next w0)%nat) by (destruct T as (_ & _ & M & _); now destruct (M i lm L0)).
  revert lm'. induction L as [|w o L IH Ti]; intros lm' L'.
  - rewrite L0 in L'. injection L' as <-. repeat split.
  - pose proof (later_next _ _ _ L). destruct (entries_step w o i lm' (later_tinv tidy w0 w (fun _ _ H => H) T L) ltac:(lia) L') as (a & La & Sa).
    specialize (IH a La). unfold same_entries in *. intuition congruence.
Qed.
Lemma created w id u k f : field_at w id = Some f -> snd (wstep zero w (WNewMap id u k)) = Ok tt ->
  exists m, nlookup (w_next w) (w_maps (fst (wstep zero w (WNewMap id u k)))) = Some (mk_lmap id m) /\ m_unit m = u /\ rows_asked f k m /\
    get_stride (f_lay f) (has_nsub f) u = Ok (m_stride m) /\ (k <> KDefault -> m_rows m * m_cols m = m_stride m).
Proof.
  intros F. cbn [wstep]. rewrite F. destruct (make_map f u k) as [m|e|] eqn:M; [|discriminate|discriminate]. intros _. cbn [fst add_map w_maps nlookup]. rewrite Nat.eqb_refl. exists m. split; [reflexivity|].
  assert (N : new_map f u (match k with KDefault => None | KRows r => Some r | KStatic t => Some (it_rows t) end) = Ok m).
  { destruct k; cbn [make_map] in M; try exact M. unfold new_static in M. destruct (new_map f u (Some (it_rows t))) as [m'|e|]; cbn [bind] in M; try discriminate.
    destruct (negb _) in M; [discriminate|]. exact M. }
  clear M. unfold new_map, map_rows in N. destruct (get_stride (f_lay f) (has_nsub f) u) as [s|e|] eqn:S; cbn [bind] in N; [|discriminate|discriminate].
  destruct k as [|r|t]; cbn [bind] in N.
  - destruct (negb _); [discriminate|]. apply Ok_inj in N. rewrite <- N. cbn. split; [reflexivity|]. split; [reflexivity|]. split; [reflexivity|]. intros X. now destruct X.
  - destruct (r =? 0); cbn [bind] in N; [discriminate|]. destruct (negb _) in N; [discriminate|]. destruct (negb (r * _ =? s)) eqn:E in N; [discriminate|]. apply Ok_inj in N. rewrite <- N. cbn.
    apply negb_false_iff, Z.eqb_eq in E. auto.
  - destruct (it_rows t =? 0); cbn [bind] in N; [discriminate|]. destruct (negb _) in N; [discriminate|]. destruct (negb (it_rows t * _ =? s)) eqn:E in N; [discriminate|]. apply Ok_inj in N. rewrite <- N. cbn.
    apply negb_false_iff, Z.eqb_eq in E. auto.
Qed.

(** Moves of maps always succeed. *)
Lemma move_succeeds w i n m : lives zero calm w -> maps_field w i n m -> snd (wstep zero w (WMoveMap i)) = Ok tt.
Proof.
  intros Lw Mf. destruct (calm_fresh zero w Lw) as [T F]. pose proof Mf as (id & Li & Lm). pose proof T as (I & Id & M & _).
  destruct (lookup n (c_fields (w_coll w))) as [r|] eqn:L; [|destruct Id as (_ & Id & _); apply Id in L; congruence].
  destruct (F i n m r Mf L) as [rows N]. cbn [wstep]. rewrite Lm. cbn [lm_field]. rewrite (field_registered w n id r Id Li L).
  destruct (new_map_init _ _ _ _ N) as (_ & _ & _ & O). rewrite O. reflexivity.
Qed.
End L.
