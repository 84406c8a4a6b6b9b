(** Proofs about attributes in Python programs: the choice of the overload and
    the way of a value into an attribute and back. *)
From Coq Require Import String.
From Verif Require Import Base AttModel AttSpec PyAttModel PyAttSpec PyAttProofs.
Local Open Scope Z_scope.
Local Open Scope list_scope.

Lemma load_all_some f l xs : load_all f l = Some xs <-> Forall2 (fun e x => f e = Some x) l xs.
Proof.
  revert xs. induction l as [|e l IH]; intros xs; cbn [load_all].
  - split; [intros E; injection E as <-; constructor|intros H; inversion H; reflexivity].
  - split.
    + destruct (f e) as [x|] eqn:F; [|discriminate]. destruct (load_all f l) as [ys|] eqn:G; [|discriminate]. intros E. injection E as <-. constructor; [exact F|]. apply IH. reflexivity.
    + intros H. inversion H as [|? x ? ys F G]; subst. rewrite F. apply IH in G. rewrite G. reflexivity.
Qed.
Lemma load_all_none f l : load_all f l = None <-> Exists (fun e => f e = None) l.
Proof.
  induction l as [|e l IH]; cbn [load_all].
  - split; [discriminate|]. intros H. inversion H.
  - destruct (f e) as [x|] eqn:F.
    + destruct (load_all f l) as [ys|] eqn:G; split; try discriminate.
      * intros H. inversion H; subst; [congruence|]. apply IH in H1. discriminate.
      * intros _. right. apply IH. reflexivity.
      * reflexivity.
    + split; [intros _; left; exact F|reflexivity].
Qed.
Lemma load_int_some lo hi e x : load_int lo hi e = Some x <-> integer e = Some x /\ lo <= x <= hi.
Proof.
  assert (X : forall n, (if (lo <=? n) && (n <=? hi) then Some n else None) = Some x <-> Some n = Some x /\ lo <= x <= hi).
  { intros n. destruct (Z.leb_spec lo n), (Z.leb_spec n hi); cbn [andb]; split; try discriminate; try (intros E; injection E as <-; split; [reflexivity|lia]); intros [E B]; try (injection E as <-; lia); exact E. }
  unfold load_int, integer. destruct e as [n|b|z|]; [apply X|apply X|..]; (split; [discriminate|intros [E _]; discriminate]).
Qed.
Lemma ints_load lo hi l : (exists xs, load_all (load_int lo hi) l = Some xs) <-> ints_in lo hi l.
Proof.
  unfold ints_in. split.
  - intros (xs & E). apply load_all_some in E. induction E as [|e x l xs F _ IH]; constructor; auto. apply load_int_some in F. exists x. exact F.
  - intros H. induction H as [|e l (n & Hn & B) _ IH]; [exists []; reflexivity|]. destruct IH as (xs & IH). exists (n :: xs). cbn [load_all]. rewrite IH.
    rewrite (proj2 (load_int_some lo hi e n) (conj Hn B)). reflexivity.
Qed.
Lemma load_none_ints lo hi l : load_all (load_int lo hi) l = None <-> ~ ints_in lo hi l.
Proof.
  rewrite <- ints_load. destruct (load_all (load_int lo hi) l) as [xs|].
  - split; [discriminate|]. intros H. exfalso. apply H. eauto.
  - split; [|reflexivity]. intros _ (ys & E). discriminate.
Qed.
Lemma ints_in_mono lo hi lo' hi' l : lo' <= lo -> hi <= hi' -> ints_in lo hi l -> ints_in lo' hi' l.
Proof. intros A B. apply Forall_impl. intros e (n & E & H). exists n. split; [exact E|lia]. Qed.

(** The value read for an attribute with this type and these bytes. *)
Definition decode (t : nctype) (b : bytes) : pyout pyval := cast (mk_matt EmptyString t 0 b true true).
Lemma cast_decode m : cast m = decode (m_type m) (m_val m).
Proof. unfold decode, cast, get_typed_value. cbn [m_type m_val]. destruct (m_type m); reflexivity. Qed.

Definition ints (l : list pyelem) (xs : list Z) : Prop := Forall2 (fun e x => integer e = Some x) l xs.
Lemma same_ints l xs : ints l xs -> Forall2 same_elem (map PInt xs) l.
Proof.
  induction 1 as [|e x l xs E _ IH]; cbn [map]; constructor; auto. right. exists (x * 2 ^ 1074). split; [reflexivity|].
  unfold integer in E. destruct e; try discriminate; injection E as <-; reflexivity.
Qed.
Lemma load_ints lo hi l xs : load_all (load_int lo hi) l = Some xs -> ints l xs /\ Forall (fun x => lo <= x <= hi) xs.
Proof.
  intros E. apply load_all_some in E. unfold ints. split; induction E as [|e x l xs F _ IH]; constructor; auto; apply load_int_some in F; apply F.
Qed.
Lemma map_Forall_id (f : Z -> Z) xs : Forall (fun x => f x = x) xs -> map f xs = xs.
Proof. induction 1 as [|x xs E _ IH]; cbn [map]; congruence. Qed.
Lemma Forall2_len {A B} (R : A -> B -> Prop) l r : Forall2 R l r -> List.length l = List.length r.
Proof. induction 1; cbn; congruence. Qed.

Definition resolved (v : pyval) (t : nctype) (b : bytes) : Prop :=
  stored_as v t /\ supported t = true /\ List.length b = (size v * tsize t)%nat /\
  exists w, decode t b = PyOk w /\ size w = size v /\ (same w v <-> faithful v).

Lemma decode_int b : decode TInt b = PyOk (PList (map (fun x => PInt (signed 32 x)) (unpack 4 b))). Proof. reflexivity. Qed.
Lemma decode_uint b : decode TUInt b = PyOk (PList (map PInt (unpack 4 b))). Proof. reflexivity. Qed.
Lemma decode_int64 b : decode TInt64 b = PyOk (PList (map (fun x => PInt (signed 64 x)) (unpack 8 b))). Proof. reflexivity. Qed.
Lemma decode_real b : decode TDouble b = PyOk (PList (map PFloat (unpack 8 b))). Proof. reflexivity. Qed.

Lemma resolved_ints l xs t lo hi k sg : wf (PList l) -> load_all (load_int lo hi) l = Some xs -> (0 < k)%nat -> tsize t = k -> supported t = true -> stored_as (PList l) t ->
  - 2 ^ 63 <= lo -> hi <= 2 ^ 63 - 1 ->
  (forall b, decode t b = PyOk (PList (map (fun x => PInt (sg x)) (unpack k b)))) -> (forall n, lo <= n <= hi -> sg (n mod 256 ^ Z.of_nat k) = n) ->
  resolved (PList l) t (flat_map (le k) xs).
Proof.
  intros W E Hk Tk Su St Lo Hi D Sg. destruct (load_ints lo hi l xs E) as [I F]. split; [exact St|]. split; [exact Su|].
  assert (Ln := Forall2_len _ _ _ I). split; [cbn [size]; rewrite flat_length, Tk, Ln; reflexivity|].
  exists (PList (map PInt xs)). rewrite D, unpack_flat by exact Hk.
  assert (M : map (fun x => PInt (sg x)) (map (fun n => n mod 256 ^ Z.of_nat k) xs) = map PInt xs).
  { rewrite map_map. apply map_ext_in. intros x Hx. rewrite Forall_forall in F. rewrite (Sg x (F x Hx)). reflexivity. }
  rewrite M. split; [reflexivity|]. split; [cbn [size]; rewrite map_length; auto|].
  split; [|intros _; exact (same_ints l xs I)]. intros _. split; [exact W|]. left. apply (ints_in_mono lo hi); auto. apply ints_load. eauto.
Qed.
Lemma resolved_int l xs : wf (PList l) -> load_all (load_int (- 2 ^ 31) (2 ^ 31 - 1)) l = Some xs -> resolved (PList l) TInt (flat_map (le 4) xs).
Proof.
  intros W E. apply (resolved_ints l xs TInt (- 2 ^ 31) (2 ^ 31 - 1) 4 (signed 32) W E); auto; try lia.
  - cbn [stored_as]. apply ints_load. eauto.
  - intros n H. change (256 ^ Z.of_nat 4) with (2 ^ 32). apply signed_mod; [lia|exact H].
Qed.
Lemma resolved_uint l xs : wf (PList l) -> ~ ints_in (- 2 ^ 31) (2 ^ 31 - 1) l -> load_all (load_int 0 (2 ^ 32 - 1)) l = Some xs -> resolved (PList l) TUInt (flat_map (le 4) xs).
Proof.
  intros W N E. apply (resolved_ints l xs TUInt 0 (2 ^ 32 - 1) 4 (fun x => x) W E); auto; try lia.
  cbn [stored_as]. split; [apply ints_load; eauto|exact N].
Qed.
Lemma resolved_int64 l xs : wf (PList l) -> ~ ints_in (- 2 ^ 31) (2 ^ 31 - 1) l -> ~ ints_in 0 (2 ^ 32 - 1) l -> load_all (load_int (- 2 ^ 63) (2 ^ 63 - 1)) l = Some xs -> resolved (PList l) TInt64 (flat_map (le 8) xs).
Proof.
  intros W N N' E. apply (resolved_ints l xs TInt64 (- 2 ^ 63) (2 ^ 63 - 1) 8 (signed 64) W E); auto; try lia.
  - cbn [stored_as]. split; [apply ints_load; eauto|auto].
  - intros n H. change (256 ^ Z.of_nat 8) with (2 ^ 64). apply signed_mod; [lia|exact H].
Qed.

Lemma real_elem c e x : load_real c e = Some x -> match e with PFloat x => 0 <= x < 2 ^ 64 | _ => True end ->
  0 <= x < 2 ^ 64 /\ e <> POther /\ (same_elem (PFloat x) e <-> forall n, integer e = Some n -> representable n).
Proof.
  assert (Z1 : forall n x e, integer e = Some n -> number e = Some (n * 2 ^ 1074) -> (forall z, e <> PFloat z) -> double_of n = Some x ->
    (same_elem (PFloat x) e <-> forall k, integer e = Some k -> representable k)).
  { intros n y e' Ie Ne Nf D. split.
    - intros S k Ek. rewrite Ie in Ek. injection Ek as <-. destruct S as [S|(z & S1 & S2)]; [destruct (Nf y); congruence|]. rewrite Ne in S2. injection S2 as <-.
      cbn [number] in S1. destruct (float_value y) as [[m k]|] eqn:Fv; [|discriminate]. exists y, m, k. split; [exact (double_of_range n y D)|]. split; [exact Fv|]. injection S1 as ->. reflexivity.
    - intros R. destruct (double_of_exact n (R n Ie)) as (z & Dz & Nz). rewrite D in Dz. injection Dz as <-. right. eauto. }
  intros E W. destruct e as [n|b|z|]; cbn [load_real] in E; try discriminate.
  - destruct c; [|discriminate]. split; [exact (double_of_range n x E)|]. split; [discriminate|]. apply (Z1 n); auto; discriminate.
  - destruct c; [|discriminate]. split; [exact (double_of_range _ x E)|]. split; [discriminate|]. apply (Z1 (Z.b2z b)); auto; discriminate.
  - injection E as <-. split; [exact W|]. split; [discriminate|]. split; [discriminate|]. intros _. left. reflexivity.
Qed.
Lemma resolved_real c l xs : wf (PList l) -> ~ ints_in (- 2 ^ 63) (2 ^ 63 - 1) l -> load_all (load_real c) l = Some xs -> resolved (PList l) TDouble (flat_map (le 8) xs).
Proof.
  intros W N E. apply load_all_some in E. cbn [wf] in W.
  assert (X : Forall (fun x => 0 <= x < 2 ^ 64) xs /\ numbers l /\ (Forall2 same_elem (map PFloat xs) l <-> exact l)).
  { clear N. unfold numbers, exact. induction E as [|e x l xs F _ IH]; cbn [map].
    - repeat split; constructor.
    - apply Forall_cons_iff in W. destruct W as [We Wl]. destruct (IH Wl) as (A & B & C). destruct (real_elem c e x F We) as (A' & B' & C').
      split; [constructor; auto|]. split; [constructor; auto|]. rewrite Forall_cons_iff, <- C, <- C'. split; [intros H; inversion H; auto|intros [H1 H2]; constructor; auto]. }
  destruct X as (A & B & C). assert (Ln := Forall2_len _ _ _ E).
  split; [cbn [stored_as]; auto|]. split; [reflexivity|]. split; [cbn [size tsize]; rewrite flat_length, Ln; reflexivity|].
  exists (PList (map PFloat xs)). rewrite decode_real, unpack_flat by lia. change (256 ^ Z.of_nat 8) with (2 ^ 64).
  rewrite (map_Forall_id (fun n => n mod 2 ^ 64)) by (eapply Forall_impl; [|exact A]; intros x Hx; apply Z.mod_small; exact Hx).
  split; [reflexivity|]. split; [cbn [size]; rewrite map_length; auto|]. cbn [same faithful]. rewrite C. unfold faithful. split; [auto|]. intros [_ [H|H]]; [contradiction|apply H].
Qed.

Lemma resolve_list l : resolve (PList l) =
  match load_all (load_int (- 2 ^ 31) (2 ^ 31 - 1)) l with
  | Some xs => Some (TInt, flat_map (le 4) xs)
  | None => match load_all (load_int 0 (2 ^ 32 - 1)) l with
  | Some xs => Some (TUInt, flat_map (le 4) xs)
  | None => match load_all (load_int (- 2 ^ 63) (2 ^ 63 - 1)) l with
  | Some xs => Some (TInt64, flat_map (le 8) xs)
  | None => match load_all (load_real false) l with
  | Some xs => Some (TDouble, flat_map (le 8) xs)
  | None => match load_all (load_real true) l with
  | Some xs => Some (TDouble, flat_map (le 8) xs)
  | None => None
  end end end end end.
Proof.
  unfold resolve, overloads. cbn [try_overloads load].
  destruct (load_all (load_int (- 2 ^ 31) (2 ^ 31 - 1)) l); [reflexivity|]. destruct (load_all (load_int 0 (2 ^ 32 - 1)) l); [reflexivity|].
  destruct (load_all (load_int (- 2 ^ 63) (2 ^ 63 - 1)) l); [reflexivity|]. destruct (load_all (load_real false) l); [reflexivity|]. destruct (load_all (load_real true) l); reflexivity.
Qed.
Lemma resolve_str u : resolve (PStr u) = Some (TChar, u). Proof. reflexivity. Qed.

Lemma resolve_spec v t b : wf v -> resolve v = Some (t, b) -> resolved v t b.
Proof.
  intros W. destruct v as [u|l].
  - rewrite resolve_str. intros E. injection E as <- <-. split; [reflexivity|]. split; [reflexivity|]. split; [cbn; lia|].
    exists (PStr u). split; [unfold decode, cast; cbn; rewrite W; reflexivity|]. split; [reflexivity|]. split; [intros _; split; [exact W|exact Logic.I]|reflexivity].
  - rewrite resolve_list.
    destruct (load_all (load_int (- 2 ^ 31) (2 ^ 31 - 1)) l) eqn:E1; [intros E; injection E as <- <-; apply resolved_int; auto|]. apply load_none_ints in E1.
    destruct (load_all (load_int 0 (2 ^ 32 - 1)) l) eqn:E2; [intros E; injection E as <- <-; apply resolved_uint; auto|]. apply load_none_ints in E2.
    destruct (load_all (load_int (- 2 ^ 63) (2 ^ 63 - 1)) l) eqn:E3; [intros E; injection E as <- <-; apply resolved_int64; auto|]. apply load_none_ints in E3.
    destruct (load_all (load_real false) l) eqn:E4; [intros E; injection E as <- <-; apply (resolved_real false); auto|].
    destruct (load_all (load_real true) l) eqn:E5; [intros E; injection E as <- <-; apply (resolved_real true); auto|]. discriminate.
Qed.
Lemma resolve_faithful v : faithful v -> exists t b, resolve v = Some (t, b).
Proof.
  intros [W F]. destruct v as [u|l]; [rewrite resolve_str; eauto|]. rewrite resolve_list.
  destruct (load_all (load_int (- 2 ^ 31) (2 ^ 31 - 1)) l); [eauto|]. destruct (load_all (load_int 0 (2 ^ 32 - 1)) l); [eauto|].
  destruct (load_all (load_int (- 2 ^ 63) (2 ^ 63 - 1)) l) eqn:E3; [eauto|]. apply load_none_ints in E3. destruct (load_all (load_real false) l); [eauto|].
  destruct (load_all (load_real true) l) eqn:E5; [eauto|exfalso]. destruct F as [F|[N X]]; [contradiction|]. apply load_all_none in E5.
  unfold numbers, exact in *. rewrite Forall_forall in N, X. apply Exists_exists in E5. destruct E5 as (e & He & E5).
  destruct e as [n|c|z|]; cbn [load_real] in E5; try discriminate; [| |exact (N POther He eq_refl)].
  - destruct (double_of_exact n (X _ He n eq_refl)) as (x & D & _). congruence.
  - destruct (double_of_exact _ (X _ He _ eq_refl)) as (x & D & _). congruence.
Qed.
Lemma resolve_op v t b : wf v -> resolve v = Some (t, b) -> value_ok t b.
Proof. intros W E. destruct (resolve_spec v t b W E) as (_ & S & L & _). split; [exact S|]. exists (size v). exact L. Qed.
