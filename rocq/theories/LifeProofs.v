(** Proofs about lifetimes: which objects exist. *)
From Coq Require Import String.
From Verif Require Import Base GridModel StridedModel UnitsModel LayoutModel LayoutProofs FieldModel FieldSpec FieldProofs FieldProofs2 RegistryModel RegistrySpec RegistryProofs RegistryProofs2 RegistryProofs3 MapModel LifeModel LifeSpec.
Local Open Scope Z_scope.
Local Open Scope list_scope.

(** ** Maps with numbers as keys *)
Section N.
Context {V : Type}.
Implicit Types m : list (nat * V).

Lemma nlookup_remove k k' m : nlookup k (nremove k' m) = if (k =? k')%nat then None else nlookup k m.
Proof.
  unfold nremove. induction m as [|[j v] m IH]; cbn [filter nlookup fst]; [now destruct (k =? k')%nat|].
  destruct (Nat.eqb_spec k' j) as [<-|Nj]; cbn [negb nlookup].
  - rewrite IH. destruct (Nat.eqb_spec k k'); reflexivity.
  - rewrite IH. destruct (Nat.eqb_spec k j) as [->|]; [|reflexivity]. destruct (Nat.eqb_spec j k'); [congruence|reflexivity].
Qed.
Lemma nlookup_replace k k' v m : nlookup k (nreplace k' v m) = if (k =? k')%nat then option_map (fun _ => v) (nlookup k m) else nlookup k m.
Proof.
  unfold nreplace. induction m as [|[j w] m IH]; cbn [map nlookup fst]; [now destruct (k =? k')%nat|].
  destruct (Nat.eqb_spec k' j) as [<-|Nj]; cbn [nlookup].
  - rewrite IH. destruct (Nat.eqb_spec k k'); reflexivity.
  - rewrite IH. destruct (Nat.eqb_spec k j) as [->|]; [|reflexivity]. destruct (Nat.eqb_spec j k'); [congruence|reflexivity].
Qed.
End N.

Lemma name_of_In id l n : name_of id l = Some n -> In (n, id) l.
Proof.
  induction l as [|[m i] l IH]; cbn [name_of]; [discriminate|]. destruct (Nat.eqb_spec id i) as [<-|]; [intros H; injection H as <-; now left|]. intros H. right. auto.
Qed.
Lemma name_of_none id l n : name_of id l = None -> ~ In (n, id) l.
Proof.
  induction l as [|[m i] l IH]; cbn [name_of]; [auto|]. destruct (Nat.eqb_spec id i) as [<-|N]; [discriminate|]. intros H [E|E]; [congruence|]. now apply IH.
Qed.

Section L.
Context {A : Type} (zero : A).
Implicit Types (c : coll A) (w : world A).

(** ** Which names are registered *)
Lemma finish_names c idx n : lookup n (c_fields c) = None -> lookup n (c_fields (fst (finish_init zero c idx))) = None.
Proof.
  intros H. unfold finish_init. pose proof (allocate_keys zero (c_fields c)) as K. destruct (allocate_fields zero (c_fields c)) as [l o]; cbn [fst] in *.
  assert (G : lookup n l = None).
  { destruct (lookup n l) eqn:E; [|reflexivity]. exfalso. assert (X : In n (keys l)) by (apply lookup_keys; congruence). rewrite K in X. apply lookup_keys in X. contradiction. }
  destruct o; cbn [fst]; try exact G. rewrite sync_fields. cbn [c_fields]. now rewrite G.
Qed.
Lemma init_names c a b p q idx n : lookup n (c_fields c) = None -> lookup n (c_fields (fst (finish_init zero (with_pixels c a b p q) idx))) = None.
Proof. intros H. apply finish_names. unfold with_pixels. rewrite sync_fields. cbn [c_fields]. now rewrite H. Qed.
Lemma init_global_names c nd nsd loc pstr n : lookup n (c_fields c) = None -> lookup n (c_fields (fst (init_global zero c nd nsd loc pstr))) = None.
Proof.
  intros H. unfold init_global. destruct (_ <=? 0); [exact H|]. destruct (_ <? 0); [exact H|]. destruct (c_init c); [exact H|].
  destruct (pixels_strided _ _ _); [|exact H|]; destruct (get_buffer_size _ _); try exact H. now apply init_names.
Qed.
Lemma on_field_names c name opf n : lookup n (c_fields c) = None -> lookup n (c_fields (fst (on_field c name opf))) = None.
Proof. intros H. rewrite on_field_lookup. destruct (String.eqb_spec n name) as [<-|]; now rewrite H. Qed.

Lemma step_absent c o n : lookup n (c_fields c) = None -> (forall ty comp tag u a, o <> ORegister n ty comp tag u a) ->
  lookup n (c_fields (fst (step zero c o))) = None.
Proof.
  intros H R. destruct o; cbn [step]; try (now apply on_field_names).
  - assert (N : n <> name) by (intros <-; eapply R; reflexivity). unfold register_field.
    destruct (lookup name (c_fields c)) as [r1|] eqn:L1.
    + destruct allow_existing; [|exact H]. repeat match goal with |- context [if ?b then _ else _] => destruct b; [exact H|] end. exact H.
    + destruct (touch_tag_same c tag) as (_ & _ & _ & _ & _ & _ & _ & _ & F).
      destruct (c_init c); [destruct (resize zero _) as [f' [u'|e|]]|]; cbn [fst with_fields c_fields]; rewrite F; try exact H; now rewrite lookup_insert_other.
  - unfold pop_field. destruct (lookup name (c_fields c)); cbn [fst]; [|exact H]. cbn [with_fields c_fields]. rewrite lookup_erase. now destruct (String.eqb n name).
  - destruct (set_nb_cases c tag n0) as [(_ & -> & _)|(_ & _ & ->)]; [exact H|]. cbn [fst with_fields c_fields]. now rewrite lookup_map_fields, H.
  - destruct (c_glob c); [exact H|]. unfold add_pixel. destruct (c_init c); exact H.
  - destruct (c_glob c); [exact H|]. unfold init_local. destruct (c_init c); [exact H|]. now apply init_names.
  - destruct (c_glob c); [|exact H]. now apply init_global_names.
  - destruct (c_glob c); [|exact H]. unfold init_global_order. destruct (pixel_strides_for _ _); try exact H. now apply init_global_names.
  - unfold reshape_tag. destruct (lookup name (c_fields c)) as [r1|] eqn:L1; [|exact H].
    destruct (touch_tag_same c tag) as (_ & _ & _ & _ & _ & _ & _ & _ & F). cbn zeta.
    destruct (field_reshape (rf_field r1) shape _) as [f'|e|] eqn:E; cbn [fst]; try (rewrite F; exact H).
    cbn [with_fields c_fields]. rewrite F, lookup_insert. destruct (String.eqb_spec n name) as [<-|]; [congruence|exact H].
Qed.
Lemma step_present c o n r : lookup n (c_fields c) = Some r -> o <> OPop n -> lookup n (c_fields (fst (step zero c o))) <> None.
Proof.
  intros H P. destruct (step_keeps zero c o n r) as (r' & G & _); [unfold get_field; now rewrite H|exact P|]. unfold get_field in G. destruct (lookup n (c_fields (fst (step zero c o)))); congruence.
Qed.
Lemma register_present c n ty comp tag u a : lookup n (c_fields (fst (step zero c (ORegister n ty comp tag u a)))) = None -> lookup n (c_fields c) = None /\ is_ok (snd (step zero c (ORegister n ty comp tag u a))) = false.
Proof.
  intros H. assert (N : lookup n (c_fields c) = None). { destruct (lookup n (c_fields c)) eqn:E; [|reflexivity]. exfalso. eapply step_present; [exact E| |exact H]. discriminate. }
  split; [exact N|]. cbn [step] in *. unfold register_field in *. rewrite N in *.
  destruct (c_init c); [destruct (resize zero _) as [f' [u'|e|]]|]; cbn [fst snd is_ok with_fields c_fields] in *; try reflexivity; now rewrite lookup_insert_same in H.
Qed.
Lemma register_failed c n ty comp tag u a : is_ok (snd (step zero c (ORegister n ty comp tag u a))) = false -> lookup n (c_fields c) = None ->
  lookup n (c_fields (fst (step zero c (ORegister n ty comp tag u a)))) = None.
Proof.
  cbn [step]. unfold register_field. intros H N. rewrite N in *. destruct (touch_tag_same c tag) as (_ & _ & _ & _ & _ & _ & _ & _ & F).
  destruct (c_init c); [destruct (resize zero _) as [f' [u'|e|]]|]; cbn [fst snd is_ok] in *; try discriminate; now rewrite F.
Qed.

(** ** The invariant *)
Definition ids_ok w : Prop := ordered (w_ids w) /\
  (forall n, lookup n (w_ids w) = None <-> lookup n (c_fields (w_coll w)) = None) /\
  (forall n m i, lookup n (w_ids w) = Some i -> lookup m (w_ids w) = Some i -> n = m) /\
  (forall n i, lookup n (w_ids w) = Some i -> (i < w_next w)%nat /\ nlookup i (w_loose w) = None) /\
  (forall i r, nlookup i (w_loose w) = Some r -> (i < w_next w)%nat).
Definition maps_ok w : Prop := forall i lm, nlookup i (w_maps w) = Some lm -> (i < w_next w)%nat /\ field_at w (lm_field lm) <> None /\
  m_init (lm_map lm) = c_init (w_coll w) /\ (c_init (w_coll w) = false -> In i (w_calls w)).
Definition tinv w : Prop := inv (w_coll w) /\ ids_ok w /\ maps_ok w /\ Forall (fun i => (i < w_next w)%nat) (w_calls w) /\ (c_init (w_coll w) = true -> w_calls w = []).

Lemma name_of_spec w id n : ids_ok w -> (name_of id (w_ids w) = Some n <-> lookup n (w_ids w) = Some id).
Proof.
  intros (O & _ & I & _). split; intros H.
  - apply name_of_In in H. now apply ordered_In_lookup.
  - destruct (name_of id (w_ids w)) as [m|] eqn:E.
    + f_equal. apply name_of_In in E. apply ordered_In_lookup in E; [|exact O]. now apply (I m n id).
    + exfalso. apply (name_of_none _ _ n E). now apply lookup_In.
Qed.

(** What a reference designates: a registered field or a removed one. *)
Lemma field_registered w n id r : ids_ok w -> lookup n (w_ids w) = Some id -> lookup n (c_fields (w_coll w)) = Some r -> field_at w id = Some (rf_field r).
Proof. intros I H L. unfold field_at. apply (name_of_spec w id n I) in H. now rewrite H, L. Qed.
Lemma field_loose w id r : ids_ok w -> nlookup id (w_loose w) = Some r -> field_at w id = Some (attach (w_coll w) (rf_field r)).
Proof.
  intros I H. unfold field_at. destruct (name_of id (w_ids w)) as [n|] eqn:E; [|now rewrite H]. apply (name_of_spec w id n I) in E.
  destruct I as (_ & _ & _ & I & _). destruct (I _ _ E) as [_ X]. congruence.
Qed.
Lemma field_alive w id : ids_ok w -> (field_at w id <> None <-> (exists n, lookup n (w_ids w) = Some id) \/ nlookup id (w_loose w) <> None).
Proof.
  intros I. split.
  - unfold field_at. destruct (name_of id (w_ids w)) as [n|] eqn:E.
    + intros _. left. exists n. now apply (name_of_spec w id n I).
    + intros H. right. destruct (nlookup id (w_loose w)); [discriminate|now contradiction H].
  - intros [[n H]|H].
    + destruct (lookup n (c_fields (w_coll w))) as [r|] eqn:L; [rewrite (field_registered w n id r I H L); discriminate|].
      destruct I as (_ & I & _). apply I in L. congruence.
    + destruct (nlookup id (w_loose w)) as [r|] eqn:L; [|now contradiction H]. rewrite (field_loose w id r I L). discriminate.
Qed.
Lemma field_below w id : ids_ok w -> field_at w id <> None -> (id < w_next w)%nat.
Proof.
  intros I H. apply (field_alive w id I) in H. destruct I as (_ & _ & _ & I1 & I2). destruct H as [[n H]|H]; [now apply I1 in H|].
  destruct (nlookup id (w_loose w)) as [r|] eqn:L; [now apply I2 in L|now contradiction H].
Qed.
Lemma field_init w id f : inv (w_coll w) -> field_at w id = Some f -> f_init f = c_init (w_coll w).
Proof.
  intros [_ I]. unfold field_at. destruct (name_of id (w_ids w)) as [n|].
  - destruct (lookup n (c_fields (w_coll w))) as [r|] eqn:L; [|discriminate]. cbn [option_map]. intros H. injection H as <-. destruct (I _ _ L) as [(_ & _ & _ & _ & _ & _ & S) _]. exact S.
  - destruct (nlookup id (w_loose w)); [|discriminate]. cbn [option_map]. intros H. injection H as <-. reflexivity.
Qed.

(** Initialised by a successful initialisation only. *)
Lemma finish_flag c idx : c_init c = false -> c_init (fst (finish_init zero c idx)) = is_ok (snd (finish_init zero c idx)).
Proof. intros H. unfold finish_init. destruct (allocate_fields zero (c_fields c)) as [l [u|e|]]; cbn; auto. Qed.
Lemma init_global_flag c nd nsd loc pstr : c_init c = false -> c_init (fst (init_global zero c nd nsd loc pstr)) = is_ok (snd (init_global zero c nd nsd loc pstr)).
Proof.
  intros H. unfold init_global. rewrite H. destruct (_ <=? 0); [exact H|]. destruct (_ <? 0); [exact H|].
  destruct (pixels_strided _ _ _); [|exact H|]; destruct (get_buffer_size _ _); try exact H. apply finish_flag. exact H.
Qed.
Lemma step_flag c o : c_init (fst (step zero c o)) = c_init c \/ initialises o /\ c_init c = false /\ is_ok (snd (step zero c o)) = true /\ c_init (fst (step zero c o)) = true.
Proof.
  destruct (c_init c) eqn:I.
  - left. destruct (init_forever zero [o] c I) as (E & _). cbn in E. congruence.
  - assert (D : initialises o \/ ~ initialises o) by (destruct o; cbn; auto). destruct D as [D|D].
    + enough (X : c_init (fst (step zero c o)) = is_ok (snd (step zero c o))).
      { rewrite X. destruct (is_ok _) eqn:E; [right|left]; auto. }
      destruct o; cbn [initialises] in D; try contradiction; cbn [step].
      * destruct (c_glob c); [exact I|]. unfold init_local. rewrite I. now apply finish_flag.
      * destruct (c_glob c); [|exact I]. now apply init_global_flag.
      * destruct (c_glob c); [|exact I]. unfold init_global_order. destruct (pixel_strides_for _ _); try exact I. now apply init_global_flag.
    + left. destruct o; try (destruct (step_quiet zero c _ D) as (_ & _ & E & _); [discriminate|rewrite E; exact I]).
      all: try (cbn [step]; destruct (c_glob c); [exact I|]; unfold add_pixel; rewrite I; reflexivity).
      all: exfalso; apply D; exact Logic.I.
Qed.
Lemma init_ok_flag c o : initialises o -> is_ok (snd (step zero c o)) = true -> c_init c = false /\ c_init (fst (step zero c o)) = true.
Proof.
  intros D H. destruct (c_init c) eqn:I; [destruct (double_init zero c o I D); congruence|]. split; [reflexivity|].
  destruct o; cbn [initialises] in D; try contradiction; cbn [step] in *.
  - destruct (c_glob c); [discriminate|]. unfold init_local in *. rewrite I in *. now rewrite finish_flag.
  - destruct (c_glob c); [|discriminate]. now rewrite init_global_flag.
  - destruct (c_glob c); [|discriminate]. unfold init_global_order in *. destruct (pixel_strides_for _ _); try discriminate. now rewrite init_global_flag.
Qed.
End L.
