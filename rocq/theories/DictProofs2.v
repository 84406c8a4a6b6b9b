(** Conversion of Python dictionaries. *)
From Coq Require Import String.
From Verif Require Import Base RegistryModel RegistryProofs LayoutProofs DictModel DictSpec DictProofs.
Local Open Scope list_scope.

Section P.
Context {R M : Type}.
Implicit Types (s : dstate R M) (x y : py R M) (l : list (option string * py R M)).

(** Induction over nested Python values. *)
Lemma py_nested (P : py R M -> Prop) : (forall i, P (PInt i)) -> (forall r, P (PReal r)) -> (forall m, P (PMat m)) -> P POther ->
  (forall l, Forall (fun e => P (snd e)) l -> P (PDict l)) -> forall x, P x.
Proof.
  intros H1 H2 H3 H4 H5. fix IH 1. intros [i|r|m|l|]; [apply H1|apply H2|apply H3| |exact H4]. apply H5. induction l as [|[k y] l IHl]; constructor; [apply IH|exact IHl].
Qed.

(** [s'] has all the nodes of [s] as they were, except possibly [a], and the
    same variables. *)
Definition extends s s' : Prop := d_vars s' = d_vars s /\ (length (d_heap s) <= length (d_heap s'))%nat /\
  forall b, (b < length (d_heap s))%nat -> node_at s' b = node_at s b.
Definition extends_but a s s' : Prop := d_vars s' = d_vars s /\ (length (d_heap s) <= length (d_heap s'))%nat /\
  forall b, b <> a -> (b < length (d_heap s))%nat -> node_at s' b = node_at s b.
Lemma extends_but_refl a s : extends_but a s s.
Proof. split; [reflexivity|]. split; auto. Qed.
Lemma extends_but_trans a s s1 s2 : extends_but a s s1 -> extends_but a s1 s2 -> extends_but a s s2.
Proof. intros (V & L & F) (V' & L' & F'). split; [congruence|]. split; [lia|]. intros b N B. rewrite F' by (auto; lia). now apply F. Qed.
Lemma extends_weaken a s s' : extends s s' -> extends_but a s s'.
Proof. intros (V & L & F). split; [exact V|]. split; [exact L|]. auto. Qed.

(** The copy lies entirely in nodes from [lo] on. *)
Fixpoint copy_from (lo : nat) s x (a : nat) : Prop :=
  (lo <= a)%nat /\
  match x with
  | PInt i => node_at s a = Ok (NVal (VInt i))
  | PReal r => node_at s a = Ok (NVal (VReal r))
  | PMat m => node_at s a = Ok (NVal (VMat m))
  | PDict l => exists m, node_at s a = Ok (NDict m) /\
      (forall k, lookup k m <> None <-> In (Some k) (map fst l)) /\
      (fix all l : Prop :=
         match l with
         | [] => True
         | (Some k, y) :: r => (exists b, lookup k m = Some b /\ copy_from lo s y b) /\ all r
         | (None, _) :: r => False
         end) l
  | POther => False
  end.
Definition copies lo s m l : Prop := forall k y, In (k, y) l -> exists key b, k = Some key /\ lookup key m = Some b /\ copy_from lo s y b.
Lemma copies_fix lo s m l : (fix all l : Prop :=
         match l with
         | [] => True
         | (Some k, y) :: r => (exists b, lookup k m = Some b /\ copy_from lo s y b) /\ all r
         | (None, _) :: r => False
         end) l <-> copies lo s m l.
Proof.
  unfold copies. induction l as [|[[k|] y] l IH].
  - split; [intros _ k y []|auto].
  - split.
    + intros [(b & H1 & H2) H3] k' y' [[= <- <-]|I]; [exists k, b; auto|]. exact (proj1 IH H3 k' y' I).
    + intros H. split; [|apply IH; intros k' y' I; apply H; now right]. destruct (H (Some k) y (or_introl eq_refl)) as (key & b & [= <-] & H1 & H2). eauto.
  - split; [contradiction|]. intros H. destruct (H None y (or_introl eq_refl)) as (key & b & D & _). discriminate.
Qed.
Lemma copy_from_dict lo s l a : copy_from lo s (PDict l) a <-> (lo <= a)%nat /\ exists m, node_at s a = Ok (NDict m) /\
  (forall k, lookup k m <> None <-> In (Some k) (map fst l)) /\ copies lo s m l.
Proof. cbn [copy_from]. split; intros (H & m & H1 & H2 & H3); (split; [exact H|]; exists m; split; [exact H1|]; split; [exact H2|]); apply copies_fix; exact H3. Qed.

Lemma copy_weaken lo s x : forall a, copy_from lo s x a -> holds_copy s x a.
Proof.
  induction x as [i|r|m| |l IH] using py_nested; intros a; try (intros [_ H]; exact H).
  intros H. apply copy_from_dict in H. destruct H as (_ & m & N & K & C). cbn [holds_copy]. exists m. split; [exact N|]. split; [exact K|].
  clear N K. induction l as [|[[k|] y] l IHl]; [exact I| |].
  - inversion IH as [|? ? Hy Hl]; subst. split; [|apply IHl; [exact Hl|intros k' y' I; apply C; now right]].
    destruct (C (Some k) y (or_introl eq_refl)) as (key & b & [= <-] & L & Cb). exists b. split; [exact L|]. now apply Hy.
  - destruct (C None y (or_introl eq_refl)) as (key & b & D & _). discriminate.
Qed.

Lemma copy_frame lo a s s' x : (a < lo)%nat -> extends_but a s s' -> forall b, copy_from lo s x b -> copy_from lo s' x b.
Proof.
  intros A (_ & L & F). assert (K : forall b n, (lo <= b)%nat -> node_at s b = Ok n -> node_at s' b = Ok n).
  { intros b n B N. rewrite F; [exact N|lia|eapply node_bound; eassumption]. }
  induction x as [i|r|m| |l IH] using py_nested; intros b; try (intros [B H]; split; [exact B|]; now apply K).
  - intros [B []].
  - intros H. apply copy_from_dict in H. apply copy_from_dict. destruct H as (B & m & N & Ks & C). split; [exact B|]. exists m. split; [now apply K|]. split; [exact Ks|].
    intros k y I. destruct (C k y I) as (key & c & E & Lk & Cc). exists key, c. split; [exact E|]. split; [exact Lk|]. rewrite Forall_forall in IH. exact (IH _ I c Cc).
Qed.
Lemma copy_lower lo lo' s x : (lo' <= lo)%nat -> forall b, copy_from lo s x b -> copy_from lo' s x b.
Proof.
  intros L. induction x as [i|r|m| |l IH] using py_nested; intros b; try (intros [B H]; split; [lia|exact H]).
  intros H. apply copy_from_dict in H. apply copy_from_dict. destruct H as (B & m & N & Ks & C). split; [lia|]. exists m. split; [exact N|]. split; [exact Ks|].
  intros k y I. destruct (C k y I) as (key & c & E & Lk & Cc). exists key, c. split; [exact E|]. split; [exact Lk|]. rewrite Forall_forall in IH. exact (IH _ I c Cc).
Qed.

Definition is_leaf x : Prop := match x with PDict _ => False | _ => True end.

(** What the conversion of a single value guarantees. *)
Definition converts x : Prop := forall s, exists s' a, convert s x = (s', Ok a) /\ extends s s' /\ copy_from (length (d_heap s)) s' x a.

Lemma add_value_fresh s a key v m : node_at s a = Ok (NDict m) -> lookup key m = None ->
  exists s', add_value s a key v = (s', Ok tt) /\ extends_but a s s' /\ node_at s' a = Ok (NDict (insert key (length (d_heap s)) m)) /\
    node_at s' (length (d_heap s)) = Ok (NVal v) /\ d_vars s' = d_vars s.
Proof.
  intros N L. unfold add_value. rewrite N, L. cbn [alloc]. pose proof (node_bound _ _ _ N) as B. eexists. split; [reflexivity|].
  set (s1 := mk_dstate (d_heap s ++ [NVal v]) (d_vars s)). assert (S1 : s1 = fst (alloc s (NVal v))) by reflexivity. split; [split; [reflexivity|split]|split; [|split]].
  - cbn. rewrite upd_length, app_length; cbn. lia.
  - intros b Nb Bb. rewrite set_node_other by auto. now rewrite S1, alloc_old.
  - apply set_node_same. cbn. rewrite app_length; cbn. lia.
  - rewrite set_node_other by lia. now rewrite S1, alloc_new.
  - reflexivity.
Qed.
Lemma add_node_fresh s a key b m : node_at s a = Ok (NDict m) -> lookup key m = None ->
  exists s', add_node s a key b = (s', Ok tt) /\ extends_but a s s' /\ node_at s' a = Ok (NDict (insert key b m)) /\ length (d_heap s') = length (d_heap s).
Proof.
  intros N L. unfold add_node. rewrite N, L. pose proof (node_bound _ _ _ N) as B. eexists. split; [reflexivity|]. split; [split; [reflexivity|split]|split].
  - cbn. rewrite upd_length. lia.
  - intros c Nc Bc. now rewrite set_node_other by auto.
  - now apply set_node_same.
  - cbn. now rewrite upd_length.
Qed.

Lemma cast_int_iff i : cast_int i = true <-> (- 2 ^ 31 <= i < 2 ^ 31)%Z.
Proof. unfold cast_int. rewrite andb_true_iff, Z.leb_le, Z.ltb_lt. reflexivity. Qed.
(** Filling a dictionary node. *)
Lemma fill_spec l : Forall (fun e => convertible (snd e) /\ (is_leaf (snd e) \/ converts (snd e))) l -> NoDup (map fst l) -> ~ In None (map fst l) ->
  forall s a m, node_at s a = Ok (NDict m) -> (forall k, In (Some k) (map fst l) -> lookup k m = None) ->
  exists s' m', fill_dict convert s a l = (s', Ok a) /\ extends_but a s s' /\ node_at s' a = Ok (NDict m') /\
    (forall k, lookup k m <> None -> lookup k m' = lookup k m) /\
    (forall k, lookup k m' <> None <-> lookup k m <> None \/ In (Some k) (map fst l)) /\
    copies (S a) s' m' l.
Proof.
  induction l as [|[k x] l IH]; intros F ND NN s a m N Fr.
  - exists s, m. split; [reflexivity|]. split; [apply extends_but_refl|]. split; [exact N|]. split; [auto|]. split; [|intros ? ? []].
    intros k. cbn. split; [auto|]. intros [H|[]]; exact H.
  - destruct k as [k|]; [|exfalso; apply NN; now left]. inversion F as [|? ? [Cx Hx] Fl]; subst. inversion ND as [|? ? Nk NDl]; subst. cbn [snd] in *.
    assert (Lk : lookup k m = None) by (apply Fr; now left). pose proof (node_bound _ _ _ N) as Ba.
    (* the first item *)
    assert (S1 : exists s1 b, (match x with
        | PInt i => if cast_int i then add_value s a k (VInt i) else (s, Err RuntimeError) | PReal y => add_value s a k (VReal y) | PMat mm => add_value s a k (VMat mm)
        | PDict _ => match convert s x with (s1, Ok b) => add_node s1 a k b | (s1, Err e) => (s1, Err e) | (s1, UB) => (s1, UB) end
        | POther => (s, Err RuntimeError) end) = (s1, Ok tt) /\ extends_but a s s1 /\ node_at s1 a = Ok (NDict (insert k b m)) /\ copy_from (S a) s1 x b).
    { destruct x as [i|r|mm|lx|].
      - cbn [convertible] in Cx. rewrite (proj2 (cast_int_iff i) Cx). destruct (add_value_fresh s a k (VInt i) m N Lk) as (s1 & E & X & N1 & V1 & _). exists s1, (length (d_heap s)). split; [exact E|]. split; [exact X|]. split; [exact N1|]. cbn. split; [lia|exact V1].
      - destruct (add_value_fresh s a k (VReal r) m N Lk) as (s1 & E & X & N1 & V1 & _). exists s1, (length (d_heap s)). split; [exact E|]. split; [exact X|]. split; [exact N1|]. cbn. split; [lia|exact V1].
      - destruct (add_value_fresh s a k (VMat mm) m N Lk) as (s1 & E & X & N1 & V1 & _). exists s1, (length (d_heap s)). split; [exact E|]. split; [exact X|]. split; [exact N1|]. cbn. split; [lia|exact V1].
      - destruct Hx as [[]|Hx]. destruct (Hx s) as (s0 & b & E0 & X0 & C0). rewrite E0. destruct X0 as (V0 & L0 & F0).
        assert (N0 : node_at s0 a = Ok (NDict m)) by (rewrite F0; auto).
        destruct (add_node_fresh s0 a k b m N0 Lk) as (s1 & E & X & N1 & L1). exists s1, b. split; [exact E|]. split; [|split; [exact N1|]].
        + eapply extends_but_trans; [apply extends_weaken; split; [exact V0|split; [exact L0|exact F0]]|exact X].
        + apply copy_frame with (a := a) (s := s0); [lia|exact X|]. eapply copy_lower; [|exact C0]. lia.
      - contradiction. }
    destruct S1 as (s1 & b & E1 & X1 & N1 & C1).
    destruct (IH Fl NDl (fun I => NN (or_intror I)) s1 a (insert k b m) N1) as (s' & m' & E & X & N' & K1 & K2 & C).
    { intros k' I. rewrite lookup_insert. destruct (String.eqb_spec k' k) as [->|]; [contradiction|]. apply Fr. now right. }
    exists s', m'. split; [|split; [|split; [|split; [|split]]]].
    + cbn [fill_dict]. rewrite E1. exact E.
    + eapply extends_but_trans; eassumption.
    + exact N'.
    + intros k' H. rewrite K1; rewrite lookup_insert; (destruct (String.eqb_spec k' k) as [->|]; [congruence|]); auto.
    + intros k'. rewrite K2, lookup_insert. cbn [map fst In]. destruct (String.eqb_spec k' k) as [->|Nk']; [split; [auto|intros _; left; discriminate]|].
      split; intros [H|H]; auto. destruct H as [[= H]|H]; [congruence|auto].
    + intros k' y [[= <- <-]|I]; [|now apply C]. exists k, b. split; [reflexivity|]. split; [rewrite K1; rewrite lookup_insert_same; [reflexivity|discriminate]|].
      apply copy_frame with (a := a) (s := s1); [lia|exact X|exact C1].
Qed.

Lemma convertible_dict l : convertible (PDict l) <-> NoDup (map fst l) /\ forall k y, In (k, y) l -> k <> None /\ convertible y.
Proof.
  cbn [convertible]. split; intros [ND H]; (split; [exact ND|]); clear ND.
  - induction l as [|[k y] l IH]; [intros ? ? []|]. destruct H as (H1 & H2 & H3). intros k' y' [[= <- <-]|I]; [auto|]. now apply IH.
  - induction l as [|[k y] l IH]; [exact I|]. split; [now apply (H k y (or_introl eq_refl))|]. split; [now apply (H k y (or_introl eq_refl))|]. apply IH. intros k' y' I. apply H. now right.
Qed.

Lemma convert_converts x : convertible x -> is_leaf x \/ converts x.
Proof.
  induction x as [i|r|m| |l IH] using py_nested; try (left; exact I). intros H. right. apply convertible_dict in H. destruct H as [ND H]. intros s.
  cbn [convert alloc]. set (s1 := mk_dstate (d_heap s ++ [NDict []]) (d_vars s)). assert (S1 : s1 = fst (alloc s (NDict []))) by reflexivity.
  assert (N1 : node_at s1 (length (d_heap s)) = Ok (NDict [])) by (rewrite S1; apply alloc_new).
  destruct (fill_spec l) with (s := s1) (a := length (d_heap s)) (m := @nil (string * nat)) as (s' & m' & E & (V & L & F) & N' & _ & K & C); auto.
  - rewrite Forall_forall in *. intros [k y] I. cbn. split; [now apply (H k y)|]. apply (IH _ I). now apply (H k y).
  - intros I. apply in_map_iff in I. destruct I as ([k y] & E & I). cbn in E. destruct (H k y I) as [X _]. congruence.
  - exists s', (length (d_heap s)). change (fill_dict convert s1 (length (d_heap s)) l = (s', Ok (length (d_heap s)))) in E. split; [exact E|]. split; [split; [exact V|split]|].
    + cbn in L. rewrite app_length in L. cbn in L. lia.
    + intros b B. rewrite F; [|lia|cbn; rewrite app_length; cbn; lia]. rewrite S1. now apply alloc_old.
    + apply copy_from_dict. split; [lia|]. exists m'. split; [exact N'|]. split.
      * intros k. rewrite K. split; [intros [X|X]; [now contradiction X|exact X]|auto].
      * intros k y I. destruct (C k y I) as (key & b & X1 & X2 & X3). exists key, b. split; [exact X1|]. split; [exact X2|]. eapply copy_lower; [|exact X3]. lia.
Qed.

Lemma convert_spec s l : convertible (PDict l) -> exists s' a, convert s (PDict l) = (s', Ok a) /\ extends s s' /\ holds_copy s' (PDict l) a.
Proof.
  intros H. destruct (convert_converts _ H) as [[]|C]. destruct (C s) as (s' & a & E & X & K). exists s', a. split; [exact E|]. split; [exact X|]. eapply copy_weaken; eassumption.
Qed.

(** Whatever its outcome, a conversion leaves existing nodes alone. *)
Lemma extends_refl s : extends s s.
Proof. split; [reflexivity|]. split; auto. Qed.
Lemma add_value_but s a k v : extends_but a s (fst (add_value s a k v)).
Proof.
  destruct (node_at s a) as [[x|m]| |] eqn:N; try (unfold add_value; rewrite N; apply extends_but_refl). destruct (lookup k m) eqn:L; [unfold add_value; rewrite N, L; apply extends_but_refl|].
  destruct (add_value_fresh s a k v m N L) as (s' & E & X & _). now rewrite E.
Qed.
Lemma add_node_but s a k b : extends_but a s (fst (add_node s a k b)).
Proof.
  destruct (node_at s a) as [[x|m]| |] eqn:N; try (unfold add_node; rewrite N; apply extends_but_refl). destruct (lookup k m) eqn:L; [unfold add_node; rewrite N, L; apply extends_but_refl|].
  destruct (add_node_fresh s a k b m N L) as (s' & E & X & _). now rewrite E.
Qed.
Lemma fill_extends l : Forall (fun e => forall s, extends s (fst (convert s (snd e)))) l -> forall s a, extends_but a s (fst (fill_dict convert s a l)).
Proof.
  induction l as [|[[k|] x] l IH]; intros F s a; cbn [fill_dict]; try apply extends_but_refl. inversion F as [|? ? Hx Fl]; subst. cbn [snd] in Hx.
  match goal with |- context [match ?st with pair _ _ => _ end] => set (st1 := st) end.
  assert (X : extends_but a s (fst st1)).
  { unfold st1. destruct x; try apply add_value_but; [destruct (cast_int i); [apply add_value_but|apply extends_but_refl]| |apply extends_but_refl]. pose proof (Hx s) as Hs. destruct (convert s (PDict l0)) as [s1 [b| |]]; cbn [fst] in *; try now apply extends_weaken.
    eapply extends_but_trans; [apply extends_weaken; exact Hs|apply add_node_but]. }
  destruct st1 as [s1 [[]| |]]; cbn [fst] in *; try exact X. eapply extends_but_trans; [exact X|]. now apply IH.
Qed.
Lemma convert_extends x : forall s, extends s (fst (convert s x)).
Proof.
  induction x as [i|r|m| |l IH] using py_nested; intros s; try apply extends_refl. cbn [convert alloc].
  set (s1 := mk_dstate (d_heap s ++ [NDict []]) (d_vars s)). assert (S1 : s1 = fst (alloc s (NDict []))) by reflexivity.
  destruct (fill_extends l IH s1 (length (d_heap s))) as (V & L & F). split; [exact V|]. split.
  - assert (Q : length (d_heap s1) = S (length (d_heap s))) by (cbn; rewrite app_length; cbn; lia). rewrite Q in L. eapply Nat.le_trans; [|exact L]. lia.
  - intros b B. rewrite F; [|lia|cbn; rewrite app_length; cbn; lia]. rewrite S1. now apply alloc_old.
Qed.

(** Dictionaries that do not convert are refused. *)
Lemma once_dict l : once (PDict l) <-> NoDup (map fst l) /\ forall k y, In (k, y) l -> once y.
Proof.
  cbn [once]. split; intros [ND H]; (split; [exact ND|]); clear ND.
  - induction l as [|[k y] l IH]; [intros ? ? []|]. destruct H as (H1 & H2). intros k' y' [[= <- <-]|I]; [auto|]. exact (IH H2 k' y' I).
  - induction l as [|[k y] l IH]; [exact I|]. split; [now apply (H k y (or_introl eq_refl))|]. apply IH. intros k' y' I. apply (H k' y'). now right.
Qed.
Definition decided x : Prop := forall s, (exists a, snd (convert s x) = Ok a) \/ snd (convert s x) = Err RuntimeError /\ ~ convertible x.
Lemma fill_decided l : Forall (fun e => is_leaf (snd e) \/ decided (snd e)) l -> NoDup (map fst l) ->
  forall s a m, node_at s a = Ok (NDict m) -> (forall k, In (Some k) (map fst l) -> lookup k m = None) ->
  (exists b, snd (fill_dict convert s a l) = Ok b) \/ snd (fill_dict convert s a l) = Err RuntimeError /\ exists k y, In (k, y) l /\ (k = None \/ ~ convertible y).
Proof.
  induction l as [|[k x] l IH]; intros F ND s a m N Fr; [left; now exists a|]. inversion F as [|? ? Hx Fl]; subst. inversion ND as [|? ? Nk NDl]; subst. cbn [snd] in Hx.
  destruct k as [k|]; [|right; split; [reflexivity|]; exists None, x; split; [now left|now left]].
  assert (Lk : lookup k m = None) by (apply Fr; now left). cbn [fill_dict]. fold (@fill_dict R M convert).
  match goal with |- context [match ?st with pair _ _ => _ end] => set (st1 := st) end.
  assert (X : (exists s1 b, st1 = (s1, Ok tt) /\ node_at s1 a = Ok (NDict (insert k b m))) \/ snd st1 = Err RuntimeError /\ ~ convertible x).
  { unfold st1. destruct x as [i|r|mm|lx|].
    - destruct (cast_int i) eqn:C.
      + destruct (add_value_fresh s a k (VInt i) m N Lk) as (s1 & E & _ & N1 & _). left. exists s1, (length (d_heap s)). auto.
      + right. split; [reflexivity|]. cbn [convertible]. intros H. apply cast_int_iff in H. congruence.
    - destruct (add_value_fresh s a k (VReal r) m N Lk) as (s1 & E & _ & N1 & _). left. exists s1, (length (d_heap s)). auto.
    - destruct (add_value_fresh s a k (VMat mm) m N Lk) as (s1 & E & _ & N1 & _). left. exists s1, (length (d_heap s)). auto.
    - destruct Hx as [[]|Hx]. pose proof (convert_extends (PDict lx) s) as (_ & _ & K). destruct (Hx s) as [(b & E)|(E & Nc)]; destruct (convert s (PDict lx)) as [s0 o]; cbn [fst snd] in *; subst o.
      + left. assert (N0 : node_at s0 a = Ok (NDict m)) by (rewrite K; [exact N|]; eapply node_bound; exact N).
        destruct (add_node_fresh s0 a k b m N0 Lk) as (s1 & E & _ & N1 & _). exists s1, b. auto.
      + right. auto.
    - right. split; [reflexivity|]. cbn. tauto. }
  destruct X as [(s1 & b & -> & N1)|(E & Nc)].
  - destruct (IH Fl NDl s1 a (insert k b m) N1) as [O|(E & k' & y & I & D)]; [|left; exact O|right].
    + intros k' I. rewrite lookup_insert. destruct (String.eqb_spec k' k) as [->|]; [contradiction|]. apply Fr. now right.
    + split; [exact E|]. exists k', y. split; [now right|exact D].
  - destruct st1 as [s1 o]. cbn [snd] in E. subst o. right. split; [reflexivity|]. exists (Some k), x. split; [now left|now right].
Qed.
Lemma convert_decided x : once x -> is_leaf x \/ decided x.
Proof.
  induction x as [i|r|m| |l IH] using py_nested; try (left; exact I). intros H. right. apply once_dict in H. destruct H as [ND H]. intros s.
  cbn [convert alloc]. set (s1 := mk_dstate (d_heap s ++ [NDict []]) (d_vars s)). assert (S1 : s1 = fst (alloc s (NDict []))) by reflexivity.
  assert (N1 : node_at s1 (length (d_heap s)) = Ok (NDict [])) by (rewrite S1; apply alloc_new).
  destruct (fill_decided l) with (s := s1) (a := length (d_heap s)) (m := @nil (string * nat)) as [O|(E & k & y & I & D)]; auto.
  - rewrite Forall_forall in *. intros [k y] I. cbn. apply (IH _ I). now apply (H k y).
  - right. split; [exact E|]. intros C. apply convertible_dict in C. destruct C as [_ C]. destruct (C k y I) as [C1 C2]. destruct D; contradiction.
Qed.
Lemma convert_refused s l : once (PDict l) -> ~ convertible (PDict l) -> snd (convert s (PDict l)) = Err RuntimeError.
Proof.
  intros O N. destruct (convert_decided (PDict l) O) as [[]|D]. destruct (D s) as [(a & E)|(E & _)]; [|exact E]. exfalso. apply N.
  (* all items of a converted dictionary are convertible *)
  revert O E. generalize s a. clear s a D N.
  assert (G : forall x, once x -> forall s a, snd (convert s x) = Ok a -> convertible x).
  { clear l. induction x as [i|r|m| |l IH] using py_nested; intros O s a E; try discriminate. apply once_dict in O. destruct O as [ND O]. apply convertible_dict. split; [exact ND|].
    cbn [convert alloc] in E. set (s1 := mk_dstate (d_heap s ++ [NDict []]) (d_vars s)) in E. change (snd (fill_dict convert s1 (length (d_heap s)) l) = Ok a) in E.
    revert E. generalize s1 at 1. generalize (length (d_heap s)). clear s1. clear ND. induction l as [|[k x] l IHl]; intros b s1 E k' y I; [destruct I|].
    inversion IH as [|? ? Hx Fl]; subst. cbn [snd] in Hx. cbn [fill_dict] in E. fold (@fill_dict R M convert) in E. destruct k as [k|]; [|discriminate].
    destruct I as [[= <- <-]|I].
    - split; [discriminate|]. assert (Ox : once x) by (apply (O (Some k) x); now left). destruct x as [i|r|mm|lx|]; try exact I.
      + destruct (cast_int i) eqn:C; [now apply cast_int_iff|discriminate].
      + destruct (convert s1 (PDict lx)) as [s2 [c| |]] eqn:Ec; try discriminate. apply (Hx Ox s1 c). now rewrite Ec.
      + discriminate.
    - assert (Ol : forall k y, In (k, y) l -> once y) by (intros k0 y0 I0; apply (O k0 y0); now right).
      match type of E with context [match ?st with pair _ _ => _ end] => destruct st as [s2 [[]| |]] end; try discriminate. exact (IHl Fl Ol b s2 E k' y I). }
  intros s a O E. exact (G _ O s a E).
Qed.
Lemma convert_rejected s k : convert s (PDict [(Some k, POther)]) = (fst (alloc s (NDict [])), Err RuntimeError).
Proof. reflexivity. Qed.

(** Assigning a Python dictionary to an item has no effect on any node. *)
Lemma setitem_dict_lost s a key l : extends s (fst (py_setitem s a key (PDict l))).
Proof.
  unfold py_setitem. pose proof (convert_extends (PDict l) s) as X. destruct (convert s (PDict l)) as [s1 [b| |]]; cbn [fst] in *; try exact X.
  unfold lift. destruct (child s1 a key); exact X.
Qed.
Lemma extends_walk s s' path : forall a, closed s -> (a < length (d_heap s))%nat -> extends s s' -> walk s' a path = walk s a path.
Proof.
  induction path as [|k r IH]; intros a C B X; [reflexivity|]. cbn. replace (child s' a k) with (child s a k) by (rewrite !child_node; destruct X as (_ & _ & F); now rewrite F).
  destruct (child s a k) as [b| |] eqn:E; try reflexivity. cbn [bind]. apply IH; auto. eapply child_bound; eassumption.
Qed.
Lemma walk_bound s path : forall a b, closed s -> (a < length (d_heap s))%nat -> walk s a path = Ok b -> (b < length (d_heap s))%nat.
Proof.
  induction path as [|k r IH]; intros a b C B H; cbn in H; [apply Ok_inj in H; now subst|]. destruct (child s a k) as [c| |] eqn:E; try discriminate. cbn [bind] in H.
  eapply IH; [exact C| |exact H]. eapply child_bound; eassumption.
Qed.
Lemma extends_observe s s' w path : dreachable s -> extends s s' -> observe s' w path = observe s w path.
Proof.
  intros D X. apply dreachable_closed in D. unfold observe. replace (addr s' w) with (addr s w) by (unfold addr; destruct X as (-> & _); reflexivity).
  destruct (addr s w) as [a| |] eqn:A; try reflexivity. cbn [bind]. apply addr_var in A. pose proof D as (V & _). rewrite (extends_walk s s' path a D (V _ _ A) X).
  destruct (walk s a path) as [b| |] eqn:W; try reflexivity. cbn [bind]. destruct X as (_ & _ & F). rewrite F; [reflexivity|]. eapply walk_bound; [exact D| |exact W]. eauto.
Qed.
End P.
