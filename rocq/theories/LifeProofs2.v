(** Proofs about lifetimes: the invariant of worlds in which fields end after
    their maps. *)
From Coq Require Import String.
From Verif Require Import Base GridModel StridedModel UnitsModel LayoutModel LayoutProofs FieldModel FieldSpec FieldProofs FieldProofs2 RegistryModel RegistrySpec RegistryProofs RegistryProofs2 RegistryProofs3 MapModel LifeModel LifeSpec LifeProofs.
Local Open Scope Z_scope.
Local Open Scope list_scope.

Section L.
Context {A : Type} (zero : A).
Implicit Types (c : coll A) (w : world A).

Lemma field_at_same w w' id : w_coll w' = w_coll w -> w_ids w' = w_ids w -> w_loose w' = w_loose w -> field_at w' id = field_at w id.
Proof. intros E1 E2 E3. unfold field_at. now rewrite E1, E2, E3. Qed.

(** ** Callbacks *)
Definition called (calls : list nat) w (i : nat) (lm lm' : lmap) : Prop := lm_field lm' = lm_field lm /\
  exists f, field_at w (lm_field lm) = Some f /\ (~ In i calls /\ lm' = lm \/ In i calls /\ initialise_map (lm_map lm) f = Ok (lm_map lm')).

Lemma initialise_init (m : fmap) (f : field A) : f_init f = true -> exists m', initialise_map m f = Ok m' /\ forall m2, initialise_map m' f = Ok m2 -> initialise_map m f = Ok m2.
Proof. intros I. unfold initialise_map. rewrite I. cbn [negb]. eexists; split; [reflexivity|]. cbn. auto. Qed.

Lemma run_calls_spec calls : forall w, inv (w_coll w) -> c_init (w_coll w) = true ->
  (forall i lm, nlookup i (w_maps w) = Some lm -> field_at w (lm_field lm) <> None) ->
  exists w', run_calls calls w = (w', Ok tt) /\ w_coll w' = w_coll w /\ w_ids w' = w_ids w /\ w_loose w' = w_loose w /\ w_next w' = w_next w /\ w_calls w' = [] /\
    (forall i, nlookup i (w_maps w) = None -> nlookup i (w_maps w') = None) /\
    (forall i lm, nlookup i (w_maps w) = Some lm -> exists lm', nlookup i (w_maps w') = Some lm' /\ called calls w i lm lm').
Proof.
  induction calls as [|j calls IH]; intros w I Ini Al; cbn [run_calls].
  - eexists. split; [reflexivity|]. cbn. repeat (split; [reflexivity|]). split; [auto|]. intros i lm H. exists lm. split; [exact H|]. split; [reflexivity|].
    destruct (field_at w (lm_field lm)) as [f|] eqn:F; [|now apply Al in H]. exists f. auto.
  - destruct (nlookup j (w_maps w)) as [lj|] eqn:Lj.
    + destruct (field_at w (lm_field lj)) as [fj|] eqn:Fj; [|now apply Al in Lj].
      assert (If : f_init fj = true) by now rewrite (field_init w _ fj I Fj). destruct (initialise_init (lm_map lj) fj If) as (mj & Ej & Tj). rewrite Ej.
      set (w1 := mk_world _ _ _ _ _ _). destruct (IH w1) as (w' & R & E1 & E2 & E3 & E4 & E5 & N & S); [exact I|exact Ini| |].
      { intros i lm. cbn [w_maps w1]. rewrite nlookup_replace. rewrite (field_at_same w w1) by reflexivity. destruct (Nat.eqb_spec i j) as [->|]; [|apply Al].
        rewrite Lj. cbn [option_map]. intros H. injection H as <-. cbn [lm_field]. now rewrite Fj. }
      exists w'. split; [exact R|]. repeat (split; [assumption|]). split.
      * intros i H. apply N. cbn [w_maps w1]. rewrite nlookup_replace, H. now destruct (i =? j)%nat.
      * intros i lm H. destruct (Nat.eqb_spec i j) as [->|Nj].
        -- rewrite Lj in H. injection H as <-. destruct (S j (mk_lmap (lm_field lj) mj)) as (lm' & L' & F' & f & Ff & D).
           { cbn [w_maps w1]. now rewrite nlookup_replace, Nat.eqb_refl, Lj. }
           exists lm'. split; [exact L'|]. cbn [lm_field lm_map] in *. split; [exact F'|]. exists fj. split; [exact Fj|]. right. split; [now left|].
           rewrite (field_at_same w w1) in Ff by reflexivity. rewrite Fj in Ff. injection Ff as <-. destruct D as [[_ ->]|[_ D]]; [exact Ej|now apply Tj].
        -- destruct (S i lm) as (lm' & L' & F' & f & Ff & D). { cbn [w_maps w1]. rewrite nlookup_replace. destruct (Nat.eqb_spec i j); [contradiction|exact H]. }
           exists lm'. split; [exact L'|]. split; [exact F'|]. exists f. rewrite (field_at_same w w1) in Ff by reflexivity. split; [exact Ff|].
           destruct D as [[Ni ->]|[Ii D]]; [left|right]; (split; [|now auto]). { intros [<-|X]; [now contradiction Nj|contradiction]. } now right.
    + destruct (IH w I Ini Al) as (w' & R & E1 & E2 & E3 & E4 & E5 & N & S). exists w'. split; [exact R|]. split; [exact E1|]. split; [exact E2|]. split; [exact E3|]. split; [exact E4|]. split; [exact E5|]. split; [exact N|].
      intros i lm H. destruct (S i lm H) as (lm' & L' & F' & f & Ff & D). exists lm'. split; [exact L'|]. split; [exact F'|]. exists f. split; [exact Ff|].
      destruct D as [[Ni ->]|[Ii D]]; [left|right]; (split; [|now auto]). { intros [<-|X]; [congruence|contradiction]. } now right.
Qed.

(** ** Steps of the collection *)
Definition with_coll w c : world A := mk_world c (w_ids w) (w_loose w) (w_maps w) (w_calls w) (w_next w).

Lemma ids_same w c : ids_ok w -> (forall n, lookup n (c_fields c) = None <-> lookup n (c_fields (w_coll w)) = None) -> ids_ok (with_coll w c).
Proof. intros (O & I & R) H. split; [exact O|]. split; [|exact R]. intros n. cbn [with_coll w_ids w_coll]. rewrite I. symmetry. apply H. Qed.

Lemma alive_ids w w' id : ids_ok w -> ids_ok w' -> field_at w id <> None -> (forall n, lookup n (w_ids w) = Some id -> lookup n (w_ids w') = Some id \/ nlookup id (w_loose w') <> None) ->
  (nlookup id (w_loose w) <> None -> nlookup id (w_loose w') <> None) -> field_at w' id <> None.
Proof.
  intros I I' H H1 H2. apply (field_alive w id I) in H. apply (field_alive w' id I'). destruct H as [[n H]|H]; [|right; auto].
  destruct (H1 n H) as [X|X]; [left; now exists n|right; exact X].
Qed.

Lemma make_map_inv (f : field A) u k m : make_map f u k = Ok m -> new_map f u (kind_rows k) = Ok m.
Proof.
  destruct k; cbn [make_map kind_rows]; auto. unfold new_static. destruct (new_map f u (Some (it_rows t))) as [m'|e|]; cbn [bind]; try discriminate.
  destruct (negb _); [discriminate|]. auto.
Qed.
Lemma new_map_registers (f : field A) u k m : new_map f u (kind_rows k) = Ok m -> f_init f = false -> registers f u k = true.
Proof.
  unfold new_map, registers. intros H ->. destruct (map_rows f u (kind_rows k)) as [[[s r] cc]|e|]; cbn [bind] in H; try discriminate.
  destruct (storder_eqb (l_order (f_lay f)) ColMajor); cbn [negb andb] in *; [reflexivity|discriminate].
Qed.
Lemma new_map_init (f : field A) u rows m : new_map f u rows = Ok m -> m_init m = f_init f /\ m_ptr m = (if f_init f then f_ptr f else None) /\ m_unit m = u /\ l_order (f_lay f) = ColMajor.
Proof.
  unfold new_map. destruct (map_rows f u rows) as [[[s r] cc]|e|]; cbn [bind]; try discriminate.
  destruct (l_order (f_lay f)); cbn [storder_eqb negb]; try discriminate.
  destruct rows; [destruct (negb _); [discriminate|]|]; intros H; apply Ok_inj in H; subst m; cbn; auto.
Qed.

(** Everything but initialisation keeps the invariant. *)
Lemma tinv_coll w o : tinv w -> ~ initialises o -> tinv (fst (wstep zero w (WColl o))).
Proof.
  intros (I & Id & M & Cl & E) Ho. cbn [wstep]. pose proof (step_inv zero (w_coll w) o I) as I'. pose proof (step_flag zero (w_coll w) o) as Fl.
  assert (Fl' : c_init (fst (step zero (w_coll w) o)) = c_init (w_coll w)) by (destruct Fl as [Fl|[Fl _]]; [exact Fl|contradiction]). clear Fl.
  (* the names stay: everything else does *)
  assert (G : (forall n, lookup n (c_fields (fst (step zero (w_coll w) o))) = None <-> lookup n (c_fields (w_coll w)) = None) -> tinv (with_coll w (fst (step zero (w_coll w) o)))).
  { intros N. pose proof (ids_same w _ Id N) as Id'. split; [exact I'|]. split; [exact Id'|]. split.
    - intros i lm H. destruct (M i lm H) as (M1 & M2 & M3 & M4). cbn [with_coll w_coll w_next w_calls]. rewrite Fl'. split; [exact M1|]. split; [|auto].
      apply (alive_ids w _ _ Id Id' M2); auto.
    - cbn [with_coll w_coll w_next w_calls]. rewrite Fl'. auto. }
  destruct (step zero (w_coll w) o) as [c r] eqn:S. cbn [fst] in *.
  assert (U : forall n, (forall ty comp tag u a, o <> ORegister n ty comp tag u a) -> o <> OPop n -> lookup n (c_fields c) = None <-> lookup n (c_fields (w_coll w)) = None).
  { intros n R P. split; intros H.
    - destruct (lookup n (c_fields (w_coll w))) eqn:L; [|reflexivity]. exfalso. apply (step_present zero (w_coll w) o n _ L P). now rewrite S.
    - pose proof (step_absent zero (w_coll w) o n H R) as X. now rewrite S in X. }
  destruct o as [name ty comp tag u a|name| | | | | | | | | | |];
    try (exfalso; apply Ho; exact Logic.I);
    try (destruct r; apply G; intros nm; apply U; discriminate).
  - (* registration *)
    assert (U' : forall n, n <> name -> lookup n (c_fields c) = None <-> lookup n (c_fields (w_coll w)) = None) by (intros n Nn; apply U; [intros; congruence|discriminate]).
    destruct (lookup name (w_ids w)) as [id|] eqn:Li.
    + assert (T : tinv (with_coll w c)).
      { apply G. intros n. destruct (String.eqb_spec n name) as [->|Nn]; [|now apply U']. destruct Id as (_ & Id & _). split; intros H.
        - pose proof (register_present zero (w_coll w) name ty comp tag u a) as X. rewrite S in X. now apply X.
        - apply Id in H. congruence. }
      destruct r; exact T.
    + assert (Ln : lookup name (c_fields (w_coll w)) = None) by (destruct Id as (_ & Id & _); now apply Id).
      destruct (is_ok r) eqn:R.
      * destruct r as [u'|e|]; try discriminate. cbn [fst].
        assert (Lc : lookup name (c_fields c) <> None). { intros X. pose proof (register_present zero (w_coll w) name ty comp tag u a) as Y. rewrite S in Y. destruct (Y X). discriminate. }
        set (w2 := mk_world c (insert name (w_next w) (w_ids w)) (w_loose w) (w_maps w) (w_calls w) (Datatypes.S (w_next w))).
        pose proof Id as (O & I1 & I2 & I3 & I4).
        assert (Id' : ids_ok w2).
        { split; [now apply insert_ordered|]. split; [|split; [|split]]; cbn [w2 w_ids w_coll w_next w_loose].
          - intros n. rewrite lookup_insert. destruct (String.eqb_spec n name) as [->|Nn]; [split; [discriminate|intros X; contradiction]|]. rewrite U' by exact Nn. apply I1.
          - intros n m i. rewrite !lookup_insert. destruct (String.eqb_spec n name) as [->|Nn]; destruct (String.eqb_spec m name) as [->|Nm]; auto.
            + intros X Y. injection X as <-. apply I3 in Y. lia.
            + intros Y X. injection X as <-. apply I3 in Y. lia.
            + apply I2.
          - intros n i. rewrite lookup_insert. destruct (String.eqb_spec n name) as [->|Nn].
            + intros X. injection X as <-. split; [lia|]. destruct (nlookup (w_next w) (w_loose w)) eqn:X; [|reflexivity]. apply I4 in X. lia.
            + intros X. apply I3 in X. split; [lia|apply X].
          - intros i x X. apply I4 in X. lia. }
        split; [exact I'|]. split; [exact Id'|]. split; [|split].
        -- intros i lm H. destruct (M i lm H) as (M1 & M2 & M3 & M4). cbn [w2 w_coll w_next w_calls]. rewrite Fl'. split; [lia|]. split; [|auto].
           apply (alive_ids w _ _ Id Id' M2); [|auto]. intros n X. left. cbn [w2 w_ids]. rewrite lookup_insert. destruct (String.eqb_spec n name) as [->|]; [congruence|exact X].
        -- cbn [w2 w_calls w_next]. eapply Forall_impl; [|exact Cl]. cbn. lia.
        -- cbn [w2 w_coll w_calls]. now rewrite Fl'.
      * assert (T : tinv (with_coll w c)).
        { apply G. intros n. destruct (String.eqb_spec n name) as [->|Nn]; [|now apply U']. split; intros H; [exact Ln|].
          pose proof (register_failed zero (w_coll w) name ty comp tag u a) as X. rewrite S in X. now apply X. }
        destruct r; [discriminate| |]; exact T.
  - (* removal *)
    cbn [step] in S. unfold pop_field in S. destruct (lookup name (c_fields (w_coll w))) as [rf|] eqn:L.
    + injection S as <- <-. pose proof Id as (O & I1 & I2 & I3 & I4). destruct (lookup name (w_ids w)) as [id|] eqn:Li; [|apply I1 in Li; congruence]. cbn [fst].
      set (w2 := mk_world _ _ _ _ _ _).
      assert (Id' : ids_ok w2).
      { split; [now apply filter_ordered|]. split; [|split; [|split]]; cbn [w2 w_ids w_coll w_next w_loose with_fields c_fields].
        - intros n. rewrite !lookup_erase. destruct (String.eqb n name); [tauto|apply I1].
        - intros n m i. rewrite !lookup_erase. destruct (String.eqb n name); [discriminate|]. destruct (String.eqb m name); [discriminate|]. apply I2.
        - intros n i. rewrite lookup_erase. destruct (String.eqb_spec n name) as [|Nn]; [discriminate|]. intros X. cbn [nlookup]. destruct (Nat.eqb_spec i id) as [->|]; [exfalso; apply Nn; now apply (I2 n name id)|].
          now apply I3 in X.
        - intros i x. cbn [nlookup]. destruct (Nat.eqb_spec i id) as [->|]; [intros _; now apply I3 in Li|apply I4]. }
      split; [exact I'|]. split; [exact Id'|]. split; [|split].
      * intros i lm H. destruct (M i lm H) as (M1 & M2 & M3 & M4). cbn [w2 w_coll w_next w_calls with_fields c_init]. split; [exact M1|]. split; [|auto].
        apply (alive_ids w _ _ Id Id' M2); cbn [w2 w_ids w_loose].
        -- intros n X. rewrite lookup_erase. destruct (String.eqb_spec n name) as [->|]; [|now left]. right. cbn [nlookup]. rewrite Li in X. injection X as ->. now rewrite Nat.eqb_refl.
        -- intros X. cbn [nlookup]. destruct (_ =? id)%nat; [discriminate|exact X].
      * exact Cl.
      * exact E.
    + injection S as <- <-. cbn [fst]. apply G. tauto.
Qed.

(** What initialisation does. *)
Lemma wstep_init w o : tinv w -> initialises o -> let c := fst (step zero (w_coll w) o) in
  snd (wstep zero w (WColl o)) = snd (step zero (w_coll w) o) /\ tinv (fst (wstep zero w (WColl o))) /\
  w_coll (fst (wstep zero w (WColl o))) = c /\ w_ids (fst (wstep zero w (WColl o))) = w_ids w /\
  (is_ok (snd (step zero (w_coll w) o)) = false -> w_maps (fst (wstep zero w (WColl o))) = w_maps w) /\
  (is_ok (snd (step zero (w_coll w) o)) = true ->
    (forall i, nlookup i (w_maps w) = None -> nlookup i (w_maps (fst (wstep zero w (WColl o)))) = None) /\
    forall i lm, nlookup i (w_maps w) = Some lm -> exists f lm', field_at (with_coll w c) (lm_field lm) = Some f /\
       nlookup i (w_maps (fst (wstep zero w (WColl o)))) = Some lm' /\ lm_field lm' = lm_field lm /\ initialise_map (lm_map lm) f = Ok (lm_map lm')).
Proof.
  intros (I & Id & M & Cl & E) Ho c. pose proof (step_inv zero (w_coll w) o I) as I'. pose proof (step_flag zero (w_coll w) o) as Fl.
  assert (N : forall n, lookup n (c_fields c) = None <-> lookup n (c_fields (w_coll w)) = None).
  { intros n. split; intros H.
    - destruct (lookup n (c_fields (w_coll w))) eqn:L; [|reflexivity]. exfalso. apply (step_present zero (w_coll w) o n _ L); [destruct o; cbn in Ho; try contradiction; discriminate|exact H].
    - apply step_absent; [exact H|]. intros. destruct o; cbn in Ho; try contradiction; discriminate. }
  pose proof (ids_same w c Id N) as Id'.
  assert (Al : forall i lm, nlookup i (w_maps w) = Some lm -> field_at (with_coll w c) (lm_field lm) <> None).
  { intros i lm H. destruct (M i lm H) as (M1 & M2 & _). apply (alive_ids w _ _ Id Id' M2); auto. }
  assert (W : wstep zero w (WColl o) = if is_ok (snd (step zero (w_coll w) o)) then run_calls (w_calls w) (with_coll w c) else (with_coll w c, snd (step zero (w_coll w) o))).
  { cbn [wstep]. subst c. destruct (step zero (w_coll w) o) as [c r]. cbn [fst snd]. destruct r; try reflexivity. destruct o; cbn in Ho; try contradiction; reflexivity. }
  rewrite W. destruct (is_ok (snd (step zero (w_coll w) o))) eqn:R.
  - destruct (init_ok_flag zero (w_coll w) o Ho R) as [F0 F1]. fold c in F1.
    destruct (run_calls_spec (w_calls w) (with_coll w c)) as (w' & Rc & E1 & E2 & E3 & E4 & E5 & Nn & Ss); [exact I'|exact F1|exact Al|]. rewrite Rc. cbn [fst snd].
    assert (Ids' : ids_ok w') by (unfold ids_ok in *; rewrite E1, E2, E3, E4; exact Id').
    split; [destruct (snd (step zero (w_coll w) o)) as [[]| |]; [reflexivity|discriminate|discriminate]|].
    assert (K : forall i lm, nlookup i (w_maps w) = Some lm -> exists f lm', field_at (with_coll w c) (lm_field lm) = Some f /\
       nlookup i (w_maps w') = Some lm' /\ lm_field lm' = lm_field lm /\ initialise_map (lm_map lm) f = Ok (lm_map lm')).
    { intros i lm H. destruct (Ss i lm H) as (lm' & L' & F' & f & Ff & D). exists f, lm'. split; [exact Ff|]. split; [exact L'|]. split; [exact F'|].
      destruct D as [[Ni _]|[_ D]]; [|exact D]. exfalso. apply Ni. now apply (M i lm H). }
    split; [|split; [exact E1|]; split; [exact E2|]; split; [discriminate|]; intros _; split; [exact Nn|exact K]].
    split; [rewrite E1; exact I'|]. split; [exact Ids'|]. split; [|split; [rewrite E5; constructor|intros _; exact E5]].
    intros i lm' H. destruct (nlookup i (w_maps w)) as [lm|] eqn:L; [|rewrite (Nn i L) in H; discriminate].
    destruct (K i lm L) as (f & lm2 & Ff & L2 & F2 & Im). rewrite L2 in H. injection H as ->. destruct (M i lm L) as (M1 & _). rewrite E1, E4. split; [exact M1|]. rewrite F2.
    split; [rewrite (field_at_same (with_coll w c) w') by assumption; now rewrite Ff|]. change (w_coll (with_coll w c)) with c. rewrite F1. split; [|discriminate].
    unfold initialise_map in Im. destruct (negb (f_init f)); [discriminate|]. apply Ok_inj in Im. rewrite <- Im. reflexivity.
  - destruct Fl as [Fl|(_ & _ & X & _)]; [|congruence]. fold c in Fl. split; [reflexivity|]. cbn [fst]. split; [|split; [reflexivity|]; split; [reflexivity|]; split; [reflexivity|discriminate]].
    split; [exact I'|]. split; [exact Id'|]. split; [|split; [exact Cl|cbn [with_coll w_coll w_calls]; rewrite Fl; exact E]].
    intros i lm H. destruct (M i lm H) as (M1 & M2 & M3 & M4). cbn [with_coll w_coll w_next w_calls]. rewrite Fl. split; [exact M1|]. split; [now apply (Al i)|auto].
Qed.

Lemma tinv_step w o : tinv w -> tidy w o -> tinv (fst (wstep zero w o)).
Proof.
  intros T Ti. destruct o as [o|id|id u k|i|i].
  - assert (D : initialises o \/ ~ initialises o) by (destruct o; cbn; auto). destruct D as [D|D]; [now apply wstep_init|now apply tinv_coll].
  - destruct T as (I & Id & M & Cl & E). cbn [wstep fst tidy] in *. set (w2 := mk_world _ _ _ _ _ _).
    assert (Id' : ids_ok w2).
    { destruct Id as (O & I1 & I2 & I3 & I4). split; [exact O|]. split; [exact I1|]. split; [exact I2|]. split; cbn [w2 w_ids w_next w_loose].
      - intros n j H. rewrite nlookup_remove. destruct (I3 n j H) as [X ->]. split; [exact X|]. now destruct (j =? id)%nat.
      - intros j r. rewrite nlookup_remove. destruct (j =? id)%nat; [discriminate|apply I4]. }
    split; [exact I|]. split; [exact Id'|]. split; [|split; [exact Cl|exact E]].
    intros j lm H. destruct (M j lm H) as (M1 & M2 & M3 & M4). split; [exact M1|]. split; [|auto]. apply (alive_ids w _ _ Id Id' M2); cbn [w2 w_ids w_loose]; [auto|].
    rewrite nlookup_remove. destruct (Nat.eqb_spec (lm_field lm) id) as [X|]; [|auto]. exfalso. exact (Ti j lm H X).
  - cbn [wstep]. destruct (field_at w id) as [f|] eqn:F; [|exact T]. destruct T as (I & Id & M & Cl & E).
    assert (If : f_init f = c_init (w_coll w)) by exact (field_init w id f I F).
    set (calls := if registers f u k then w_calls w ++ [w_next w] else w_calls w).
    assert (Sub : forall j, In j (w_calls w) -> In j calls) by (intros j Hj; unfold calls; destruct (registers f u k); [apply in_or_app; now left|exact Hj]).
    assert (Cl' : Forall (fun j => (j < S (w_next w))%nat) calls).
    { unfold calls. destruct (registers f u k); [apply Forall_app; split; [|repeat constructor]|]; (eapply Forall_impl; [|exact Cl]; cbn; lia). }
    assert (E' : c_init (w_coll w) = true -> calls = []). { intros X. unfold calls, registers. rewrite If, X. cbn [negb andb]. auto. }
    assert (Id' : forall maps, ids_ok (mk_world (w_coll w) (w_ids w) (w_loose w) maps calls (S (w_next w)))).
    { intros maps. destruct Id as (O & I1 & I2 & I3 & I4). split; [exact O|]. split; [exact I1|]. split; [exact I2|]. split; cbn [w_ids w_next w_loose].
      - intros n j H. destruct (I3 n j H). split; [lia|assumption].
      - intros j r H. apply I4 in H. lia. }
    destruct (make_map f u k) as [m|e|] eqn:Mk; [| |exact (conj I (conj Id (conj M (conj Cl E))))]; cbn [fst]; unfold add_map.
    + split; [exact I|]. split; [apply Id'|]. split; [|split; [exact Cl'|exact E']].
      apply make_map_inv in Mk. intros j lm. cbn [w_maps nlookup w_next w_coll w_calls]. destruct (Nat.eqb_spec j (w_next w)) as [->|Nj].
      * intros H. injection H as <-. split; [lia|]. split; [cbn [lm_field]; rewrite (field_at_same w) by reflexivity; now rewrite F|]. cbn [lm_map]. split; [rewrite <- If; apply (new_map_init _ _ _ _ Mk)|].
        intros X. unfold calls. rewrite (new_map_registers f u k m Mk) by congruence. apply in_or_app. right. now left.
      * intros H. destruct (M j lm H) as (M1 & M2 & M3 & M4). split; [lia|]. split; [rewrite (field_at_same w) by reflexivity; exact M2|]. split; [exact M3|]. auto.
    + split; [exact I|]. split; [apply Id'|]. split; [|split; [exact Cl'|exact E']].
      intros j lm H. destruct (M j lm H) as (M1 & M2 & M3 & M4). split; [cbn; lia|]. split; [rewrite (field_at_same w) by reflexivity; exact M2|]. split; [exact M3|]. cbn. auto.
  - cbn [wstep]. destruct (nlookup i (w_maps w)) as [lm|] eqn:L; [|exact T]. destruct (field_at w (lm_field lm)) as [f|] eqn:F; [|exact T]. destruct (negb _); [exact T|].
    destruct T as (I & Id & M & Cl & E). assert (If : f_init f = c_init (w_coll w)) by exact (field_init w _ f I F). cbn [fst]. unfold add_map. rewrite If.
    set (calls := if c_init (w_coll w) then w_calls w else w_calls w ++ [w_next w]).
    assert (Sub : forall j, In j (w_calls w) -> In j calls) by (intros j Hj; unfold calls; destruct (c_init (w_coll w)); [exact Hj|apply in_or_app; now left]).
    split; [exact I|]. split; [|split; [|split]].
    + destruct Id as (O & I1 & I2 & I3 & I4). split; [exact O|]. split; [exact I1|]. split; [exact I2|]. split; cbn [w_ids w_next w_loose].
      * intros n j H. destruct (I3 n j H). split; [lia|assumption].
      * intros j r H. apply I4 in H. lia.
    + intros j lm'. cbn [w_maps nlookup w_next w_coll w_calls]. destruct (Nat.eqb_spec j (w_next w)) as [->|Nj].
      * intros H. injection H as <-. destruct (M i lm L) as (M1 & M2 & M3 & M4). split; [lia|]. split; [rewrite (field_at_same w) by reflexivity; exact M2|]. split; [exact M3|].
        intros X. unfold calls. rewrite X. apply in_or_app. right. now left.
      * intros H. destruct (M j lm' H) as (M1 & M2 & M3 & M4). split; [lia|]. split; [rewrite (field_at_same w) by reflexivity; exact M2|]. split; [exact M3|]. auto.
    + cbn [w_calls w_next]. unfold calls. destruct (c_init (w_coll w)); [|apply Forall_app; split; [|repeat constructor]]; (eapply Forall_impl; [|exact Cl]; cbn; lia).
    + cbn [w_coll w_calls]. intros X. unfold calls. rewrite X. auto.
  - destruct T as (I & Id & M & Cl & E). cbn [wstep fst]. split; [exact I|]. split; [exact Id|]. split; [|split; [exact Cl|exact E]].
    intros j lm. cbn [w_maps]. rewrite nlookup_remove. destruct (j =? i)%nat; [discriminate|]. intros H. destruct (M j lm H) as (M1 & M2 & M3 & M4). split; [exact M1|]. split; [rewrite (field_at_same w) by reflexivity; exact M2|]. auto.
Qed.

Lemma start_tinv glob order tags c0 : new_coll glob order tags = Ok c0 -> tinv (start c0).
Proof.
  intros H. assert (I : inv c0) by (apply (reachable_inv zero); exists glob, order, tags, c0, []; auto).
  destruct (new_coll_spec _ _ _ _ H) as (_ & _ & F & _ & _ & Ini & _). split; [exact I|]. split; [|split; [|split]].
  - split; [constructor|]. split; [|split; [|split]]; cbn [start w_ids w_coll w_loose nlookup lookup]; try discriminate.
    intros n. now rewrite F.
  - intros i lm. discriminate.
  - constructor.
  - reflexivity.
Qed.

Lemma lives_tinv (P : world A -> wop A -> Prop) w : (forall w o, P w o -> tidy w o) -> lives zero P w -> tinv w.
Proof. intros H. induction 1; [eapply start_tinv; eassumption|]. apply tinv_step; auto. Qed.
End L.
