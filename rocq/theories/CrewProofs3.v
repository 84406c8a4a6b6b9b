(** All processes together do what a single process does for the part of each. *)
From Coq Require Import String.
From Verif Require Import Base GridModel StridedModel LayoutModel LayoutProofs CommModel.
From Verif Require Import NetCDFModel NetCDFProofs4 NetCDFProofs6 NetCDFProofs7 DimModel DimProofs2 CrewModel CrewSpec CrewProofs CrewProofs2.
Local Open Scope Z_scope.
Local Open Scope list_scope.

Lemma map_below n {X} (f g : nat -> X) : (forall i, (i < n)%nat -> f i = g i) -> map f (seq 0 n) = map g (seq 0 n).
Proof. intros H. apply map_ext_in. intros i I. apply in_seq in I. apply H. lia. Qed.

Section Together.
(** [W] is what is known of flag and header of each process. *)
Variables (n : nat) (size : nat -> Z) (W : bool -> head -> Prop).
Hypothesis some : (0 < n)%nat.

(** What DimModel.v knows of a process. *)
Definition view (x : proc) : sess := (p_obj x, h_nc (p_head x)).
Definition together (xs : nat -> proc) : Prop :=
  (forall i k, (i < n)%nat -> (k < n)%nat ->
     sobj (size i) (size k) (p_obj (xs i)) (p_obj (xs k)) /\ p_flag (xs i) = p_flag (xs k) /\ p_head (xs i) = p_head (xs k)) /\
  forall i, (i < n)%nat -> W (p_flag (xs i)) (p_head (xs i)).
Definition all_alike {X} (A : X -> X -> Prop) (rs : nat -> res X) : Prop :=
  forall i k, (i < n)%nat -> (k < n)%nat -> rres A (rs i) (rs k).
Definition agrees_at {X} (xs : nat -> proc) (A : X -> X -> Prop) (m : nat -> C X) (r : nat -> M sess X) : Prop :=
  forall Q K,
    (forall xs' rs, (forall i, (i < n)%nat -> r i (view (xs i)) = (view (xs' i), rs i)) -> together xs' -> all_alike A rs ->
       always Q (map (fun i => K i (xs' i) (rs i)) (seq 0 n))) ->
    always Q (map (fun i => m i (xs i) (K i)) (seq 0 n)).
Definition agrees {X} (A : X -> X -> Prop) (m : nat -> C X) (r : nat -> M sess X) : Prop :=
  forall xs, together xs -> agrees_at xs A m r.

Lemma agrees_lift {X} (A : X -> X -> Prop) (v : nat -> res X) : all_alike A v -> agrees A (fun i => clift (v i)) (fun i => mlift (v i)).
Proof. intros H xs T Q K HK. exact (HK xs v (fun i _ => eq_refl) T H). Qed.
Lemma agrees_ret {X} (A : X -> X -> Prop) (v : nat -> X) : (forall i k, (i < n)%nat -> (k < n)%nat -> A (v i) (v k)) -> agrees A (fun i => cret (v i)) (fun i => mret (v i)).
Proof. intros H. exact (agrees_lift A (fun i => Ok (v i)) H). Qed.
Lemma agrees_throw {X} (A : X -> X -> Prop) : agrees A (fun _ => cthrow) (fun _ => mlift (Err FileIOError)).
Proof. apply (agrees_lift A (fun _ => Err FileIOError)). intros i k _ _. reflexivity. Qed.
Lemma agrees_at_ext {X} xs (A : X -> X -> Prop) m r r' : (forall i, (i < n)%nat -> r i (view (xs i)) = r' i (view (xs i))) -> agrees_at xs A m r -> agrees_at xs A m r'.
Proof. intros E H Q K HK. apply H. intros xs' rs V. apply HK. intros i L. rewrite <- E by exact L. now apply V. Qed.
Lemma agrees_at_bind {X Y} xs (A : X -> X -> Prop) (B : Y -> Y -> Prop) m r (f : nat -> X -> C Y) (g : nat -> X -> M sess Y) :
  agrees_at xs A m r ->
  (forall (v : nat -> X) xs', (forall i, (i < n)%nat -> r i (view (xs i)) = (view (xs' i), Ok (v i))) -> together xs' -> (forall i k, (i < n)%nat -> (k < n)%nat -> A (v i) (v k)) ->
     agrees_at xs' B (fun i => f i (v i)) (fun i => g i (v i))) ->
  agrees_at xs B (fun i => cbind (m i) (f i)) (fun i => mbind (r i) (g i)).
Proof.
  intros H F Q K HK. unfold cbind.
  apply (H Q (fun i x a => match a with Ok v => f i v x (K i) | Err e => K i x (Err e) | UB => K i x UB end)).
  intros xs1 rs V1 T1 AL. destruct (rs 0%nat) as [v0|e|] eqn:E0.
  - set (v := fun i => match rs i with Ok v => v | _ => v0 end).
    assert (EV : forall i, (i < n)%nat -> rs i = Ok (v i)).
    { intros i L. specialize (AL 0%nat i some L). rewrite E0 in AL. unfold v. destruct (rs i); [reflexivity|contradiction ..]. }
    rewrite (map_below n _ (fun i => f i (v i) (xs1 i) (K i))) by (intros i L; rewrite (EV i L); reflexivity).
    apply F with (xs' := xs1); [intros i L; rewrite (V1 i L), (EV i L); reflexivity|exact T1| |].
    + intros i k Li Lk. specialize (AL i k Li Lk). rewrite (EV i Li), (EV k Lk) in AL. exact AL.
    + intros xs2 rs2 V2 T2 AL2. apply HK; [|exact T2|exact AL2]. intros i L. unfold mbind. rewrite (V1 i L), (EV i L). now apply V2.
  - assert (EV : forall i, (i < n)%nat -> rs i = Err e).
    { intros i L. specialize (AL 0%nat i some L). rewrite E0 in AL. destruct (rs i); cbn [rres] in AL; try contradiction. now subst. }
    rewrite (map_below n _ (fun i => K i (xs1 i) (Err e))) by (intros i L; rewrite (EV i L); reflexivity).
    apply (HK xs1 (fun _ => Err e)); [|exact T1|intros i k _ _; reflexivity]. intros i L. unfold mbind. rewrite (V1 i L), (EV i L). reflexivity.
  - assert (EV : forall i, (i < n)%nat -> rs i = UB).
    { intros i L. specialize (AL 0%nat i some L). rewrite E0 in AL. destruct (rs i); cbn [rres] in AL; try contradiction. reflexivity. }
    rewrite (map_below n _ (fun i => K i (xs1 i) UB)) by (intros i L; rewrite (EV i L); reflexivity).
    apply (HK xs1 (fun _ => UB)); [|exact T1|intros i k _ _; exact I]. intros i L. unfold mbind. rewrite (V1 i L), (EV i L). reflexivity.
Qed.
Lemma agrees_bind {X Y} (A : X -> X -> Prop) (B : Y -> Y -> Prop) m r (f : nat -> X -> C Y) (g : nat -> X -> M sess Y) :
  agrees A m r ->
  (forall (v : nat -> X), (forall i k, (i < n)%nat -> (k < n)%nat -> A (v i) (v k)) -> agrees B (fun i => f i (v i)) (fun i => g i (v i))) ->
  agrees B (fun i => cbind (m i) (f i)) (fun i => mbind (r i) (g i)).
Proof. intros H F xs T. eapply agrees_at_bind; [exact (H xs T)|]. intros v xs' _ T' AV. exact (F v AV xs' T'). Qed.
(** A value that is the same on all processes. *)
Lemma agrees_bind_eq {X Y} (B : Y -> Y -> Prop) m r (f : nat -> X -> C Y) (g : nat -> X -> M sess Y) :
  agrees eq m r -> (forall v, agrees B (fun i => f i v) (fun i => g i v)) ->
  agrees B (fun i => cbind (m i) (f i)) (fun i => mbind (r i) (g i)).
Proof.
  intros H F xs T. eapply agrees_at_bind; [exact (H xs T)|]. intros v xs' _ T' AV Q K HK.
  rewrite (map_below n _ (fun i => f i (v 0%nat) (xs' i) (K i))) by (intros i L; rewrite (AV i 0%nat L some); reflexivity).
  apply (F (v 0%nat) xs' T'). intros xs2 rs V. apply HK. intros i L. rewrite (AV i 0%nat L some). now apply V.
Qed.
Lemma agrees_obj {X} (A : X -> X -> Prop) (f : nat -> M fobj X) :
  (forall i k, (i < n)%nat -> (k < n)%nat -> mrel (size i) (size k) A (f i) (f k)) -> agrees A (fun i => cobj (f i)) (fun i => on_obj (f i)).
Proof.
  intros F xs [T TW] Q K HK. set (xs' := fun i => mk_proc (fst (f i (p_obj (xs i)))) (p_flag (xs i)) (p_head (xs i))). set (rs := fun i => snd (f i (p_obj (xs i)))).
  rewrite (map_below n _ (fun i => K i (xs' i) (rs i))).
  - apply HK.
    + intros i L. unfold on_obj, view, xs', rs. cbn [fst snd p_obj p_head]. destruct (f i (p_obj (xs i))); reflexivity.
    + split; [|intros i L; exact (TW i L)]. intros i k Li Lk. destruct (T i k Li Lk) as (S & E1 & E2). unfold xs'. cbn [p_obj p_flag p_head].
      split; [|split; assumption]. exact (proj1 (F i k Li Lk _ _ S)).
    + intros i k Li Lk. destruct (T i k Li Lk) as (S & _). exact (proj2 (F i k Li Lk _ _ S)).
  - intros i L. unfold cobj, xs', rs. destruct (f i (p_obj (xs i))); reflexivity.
Qed.
Lemma agrees_get {X} (A : X -> X -> Prop) (f : nat -> fobj -> C X) (g : nat -> fobj -> M sess X) :
  (forall xs, together xs -> agrees_at xs A (fun i => f i (p_obj (xs i))) (fun i => g i (p_obj (xs i)))) ->
  agrees A (fun i => cbind cget (f i)) (fun i => fun s => g i (fst s) s).
Proof. intros H xs T Q K HK. exact (H xs T Q K HK). Qed.

(** ** Calls *)

Lemma agrees_sum (v : nat -> Z) : agrees eq (fun i => ccall_ (CSum (v i))) (fun _ => mret (zsum (map v (seq 0 n)))).
Proof.
  intros xs T Q K HK. unfold ccall_. apply (always_call Q n (fun i => CSum (v i)) (fun i => p_head (xs i))); [exact some|intros i j _ _; exact I|].
  cbn [answer fst snd]. rewrite map_map. cbn [given].
  set (w := zsum (map v (seq 0 n))) in *.
  rewrite (map_below n _ (fun i => K i (xs i) (Ok w))) by (intros i L; destruct (xs i); reflexivity).
  apply (HK xs (fun _ => Ok w)); [reflexivity|exact T|intros i k _ _; reflexivity].
Qed.
Lemma agrees_scan (v : nat -> Z) : agrees (fun _ _ => True) (fun i => ccall_ (CScan (v i))) (fun i => mret (cumulative_sum (map v (seq 0 n)) i)).
Proof.
  intros xs T Q K HK. unfold ccall_. apply (always_call Q n (fun i => CScan (v i)) (fun i => p_head (xs i))); [exact some|intros i j _ _; exact I|].
  cbn [answer fst snd]. rewrite map_map. cbn [given].
  rewrite (map_below n _ (fun i => K i (xs i) (Ok (cumulative_sum (map v (seq 0 n)) i)))) by (intros i L; destruct (xs i); reflexivity).
  apply (HK xs (fun i => Ok (cumulative_sum (map v (seq 0 n)) i))); [reflexivity|exact T|intros i k _ _; exact I].
Qed.

(** ** Loops *)

Lemma agrees_each {X} (P : nat -> nat -> X -> X -> Prop) (f : nat -> X -> C unit) (g : nat -> X -> M sess unit) :
  (forall v, (forall i k, (i < n)%nat -> (k < n)%nat -> P i k (v i) (v k)) -> agrees eq (fun i => f i (v i)) (fun i => g i (v i))) ->
  forall (l : nat -> list X), (forall i k, (i < n)%nat -> (k < n)%nat -> Forall2 (P i k) (l i) (l k)) ->
  agrees eq (fun i => ceach (f i) (l i)) (fun i => do _ <- meach (g i) (l i); mret tt).
Proof.
  intros F l. remember (l 0%nat) as l0 eqn:E0. revert l E0. induction l0 as [|x0 l0 IH]; intros l E0 H xs T Q K HK.
  - assert (EL : forall i, (i < n)%nat -> l i = []) by (intros i L; specialize (H 0%nat i some L); rewrite <- E0 in H; now inversion H).
    rewrite (map_below n _ (fun i => K i (xs i) (Ok tt))) by (intros i L; rewrite (EL i L); reflexivity).
    apply (HK xs (fun _ => Ok tt)); [|exact T|intros i k _ _; reflexivity]. intros i L. now rewrite (EL i L).
  - set (v := fun i => hd x0 (l i)). set (t := fun i => tl (l i)).
    assert (EL : forall i, (i < n)%nat -> l i = v i :: t i).
    { intros i L. specialize (H 0%nat i some L). rewrite <- E0 in H. inversion H as [|a b c d HP HF E1 E2]; subst. unfold v, t. now rewrite <- E2. }
    assert (A : agrees eq (fun i => cbind (f i (v i)) (fun _ => ceach (f i) (t i))) (fun i => mbind (g i (v i)) (fun _ => do _ <- meach (g i) (t i); mret tt))).
    { apply agrees_bind with (A := eq).
      - apply F. intros i k Li Lk. specialize (H i k Li Lk). rewrite (EL i Li), (EL k Lk) in H. now inversion H.
      - intros _ _. apply (IH t); [unfold t; now rewrite <- E0|]. intros i k Li Lk. specialize (H i k Li Lk). rewrite (EL i Li), (EL k Lk) in H. now inversion H. }
    rewrite (map_below n _ (fun i => cbind (f i (v i)) (fun _ => ceach (f i) (t i)) (xs i) (K i))) by (intros i L; rewrite (EL i L); reflexivity).
    apply (A xs T). intros xs' rs V. apply HK. intros i L. rewrite <- (V i L), (EL i L). cbn [meach]. unfold mbind, mret.
    destruct (g i (v i) (view (xs i))) as [s [[]|e|]]; [|reflexivity ..]. destruct (meach (g i) (t i) s) as [s' [a|e|]]; reflexivity.
Qed.
End Together.
