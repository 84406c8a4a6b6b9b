(** Whole programs of all processes. *)
From Coq Require Import String.
From Verif Require Import Base GridModel StridedModel LayoutModel LayoutProofs CommModel.
From Verif Require Import NetCDFModel NetCDFSpec NetCDFProofs4 DimModel DimSpec DimProofs2 CrewModel CrewSpec CrewProofs CrewProofs2 CrewProofs3 CrewProofs4 CrewProofs5.
From Verif Require DimProofs5.
Local Open Scope Z_scope.
Local Open Scope list_scope.

Section Together.
Variables (n : nat) (size : nat -> Z).
Hypothesis some : (0 < n)%nat.

(** Between two collections. *)
Definition ready (writing : bool) (flag : bool) (h : head) : Prop :=
  if writing then h_rw h = true /\ h_define h = flag else flag = true.
Lemma defining_ready xs : together n size defining xs -> together n size (ready true) xs.
Proof. intros [T W]. split; [exact T|]. intros i L. destruct (W i L) as (E1 & E2 & E3). split; [exact E2|congruence]. Qed.
Lemma all_one {X} (rs : nat -> res X) : all_alike n eq rs -> forall i, (i < n)%nat -> rs i = rs 0%nat.
Proof. intros H i L. apply rres_eq_iff. now apply H. Qed.
Lemma each_agrees (f : nat -> C unit) (g : nat -> M sess unit) : (forall j, agrees n size defining eq (fun _ => f j) (fun _ => g j)) ->
  forall l, agrees n size defining eq (fun _ => ceach f l) (fun _ => do _ <- meach g l; mret tt).
Proof.
  intros H l. apply (agrees_each n size defining some (fun _ _ => eq) (fun _ => f) (fun _ => g)); [|intros; now apply Forall2_refl].
  intros v E xs T Q K HK. rewrite (map_below n _ (fun i => f (v 0%nat) (xs i) (K i))) by (intros i L; rewrite (E i 0%nat L some); reflexivity).
  apply (H (v 0%nat) xs T). intros xs' rs V. apply HK. intros i L. rewrite (E i 0%nat L some). now apply V.
Qed.

(** Definitions, then data mode. *)
Definition c_define : C unit :=
  cdo o <- cget;
  crun ceach c_define_dim (seq 0 (length (o_dims o)));
  cdo o <- cget;
  crun ceach c_define_var (seq 0 (length (o_vars o)));
  crun ccall_ CEnddef;
  cset_flag false.
Definition with_vars (s : sess) : M sess unit := do _ <- (do _ <- meach define_var (seq 0 (length (o_vars (fst s)))); mret tt); mret tt.
Lemma define_all_eq s : define_all s = mbind (do _ <- meach define_dim (seq 0 (length (o_dims (fst s)))); mret tt) (fun _ s1 => with_vars s1 s1) s.
Proof.
  unfold define_all, with_vars, mbind, mret.
  assert (K := meach_keep (fun t => o_vars (fst t) = o_vars (fst s)) define_dim (seq 0 (length (o_dims (fst s))))
                 (fun x t H => eq_trans (define_dim_vars x t) H) s eq_refl).
  destruct (meach define_dim (seq 0 (length (o_dims (fst s)))) s) as [s1 [u|e|]]; [|reflexivity ..]. cbn [fst] in K. rewrite K.
  destruct (meach define_var (seq 0 (length (o_vars (fst s)))) s1) as [s2 [w|e|]]; reflexivity.
Qed.
Lemma define_agrees xs Q K : together n size defining xs ->
  (forall xs' rs, (forall i, (i < n)%nat -> define_all (view (xs i)) = (view (xs' i), rs i)) -> together n size (ready true) xs' -> all_alike n eq rs ->
     always Q (map (fun i => K i (xs' i) (rs i)) (seq 0 n))) ->
  always Q (map (fun i => c_define (xs i) (K i)) (seq 0 n)).
Proof.
  intros T HK. unfold c_define, cbind at 1, cget at 1. pose proof T as [TT _].
  set (l := seq 0 (length (o_dims (p_obj (xs 0%nat))))).
  assert (EL : forall i, (i < n)%nat -> seq 0 (length (o_dims (p_obj (xs i)))) = l) by (intros i L; destruct (TT i 0%nat L some) as ((E & _) & _); unfold l; now rewrite E).
  set (K1 := fun i (x' : proc) (a : res unit) => match a with
     | Ok _ => (cdo o <- cget; crun ceach c_define_var (seq 0 (length (o_vars o))); crun ccall_ CEnddef; cset_flag false) x' (K i)
     | Err e => K i x' (Err e) | UB => K i x' UB end).
  rewrite (map_below n _ (fun i => ceach c_define_dim l (xs i) (K1 i))) by (intros i L; unfold cbind at 1; rewrite (EL i L); reflexivity).
  apply (each_agrees _ _ (define_dim_agrees n size some) l xs T). intros xs1 rs1 V1 T1 A1. pose proof (all_one rs1 A1) as O1.
  assert (D1 : forall i, (i < n)%nat -> define_all (view (xs i)) = match rs1 0%nat with Ok _ => with_vars (view (xs1 i)) (view (xs1 i)) | Err e => (view (xs1 i), Err e) | UB => (view (xs1 i), UB) end).
  { intros i L. rewrite define_all_eq. unfold mbind at 1. change (fst (view (xs i))) with (p_obj (xs i)). rewrite (EL i L), (V1 i L), (O1 i L). reflexivity. }
  destruct (rs1 0%nat) as [u1|e|].
  2:{ rewrite (map_below n _ (fun i => K i (xs1 i) (Err e))) by (intros i L; unfold K1; rewrite (O1 i L); reflexivity).
      apply (HK xs1 (fun _ => Err e)); [exact D1|now apply defining_ready|intros i k _ _; reflexivity]. }
  2:{ rewrite (map_below n _ (fun i => K i (xs1 i) UB)) by (intros i L; unfold K1; rewrite (O1 i L); reflexivity).
      apply (HK xs1 (fun _ => UB)); [exact D1|now apply defining_ready|intros i k _ _; exact I]. }
  pose proof T1 as [TT1 _].
  set (l2 := seq 0 (length (o_vars (p_obj (xs1 0%nat))))).
  assert (EL2 : forall i, (i < n)%nat -> seq 0 (length (o_vars (p_obj (xs1 i)))) = l2) by (intros i L; destruct (TT1 i 0%nat L some) as ((_ & _ & E & _) & _); unfold l2; now rewrite E).
  set (K2 := fun i (x' : proc) (a : res unit) => match a with
     | Ok _ => (crun ccall_ CEnddef; cset_flag false) x' (K i)
     | Err e => K i x' (Err e) | UB => K i x' UB end).
  rewrite (map_below n _ (fun i => ceach c_define_var l2 (xs1 i) (K2 i))) by (intros i L; unfold K1; rewrite (O1 i L); unfold cbind at 1, cget; unfold cbind at 1; rewrite (EL2 i L); reflexivity).
  apply (each_agrees _ _ (define_var_agrees n size some) l2 xs1 T1). intros xs2 rs2 V2 T2 A2. pose proof (all_one rs2 A2) as O2.
  assert (D2 : forall i, (i < n)%nat -> define_all (view (xs i)) = (view (xs2 i), match rs2 0%nat with Ok _ => Ok tt | Err e => Err e | UB => UB end)).
  { intros i L. rewrite (D1 i L). unfold with_vars, mbind at 1. change (fst (view (xs1 i))) with (p_obj (xs1 i)). rewrite (EL2 i L), (V2 i L), (O2 i L).
    destruct (rs2 0%nat); reflexivity. }
  destruct (rs2 0%nat) as [u2|e|].
  2:{ rewrite (map_below n _ (fun i => K i (xs2 i) (Err e))) by (intros i L; unfold K2; rewrite (O2 i L); reflexivity).
      apply (HK xs2 (fun _ => Err e)); [exact D2|now apply defining_ready|intros i k _ _; reflexivity]. }
  2:{ rewrite (map_below n _ (fun i => K i (xs2 i) UB)) by (intros i L; unfold K2; rewrite (O2 i L); reflexivity).
      apply (HK xs2 (fun _ => UB)); [exact D2|now apply defining_ready|intros i k _ _; exact I]. }
  pose proof T2 as [TT2 TW2].
  rewrite (map_below n _ (fun i => Call CEnddef (p_head (xs2 i)) (fun a h =>
      match (match a with Some m => Ok m | None => Err FileIOError end) with
      | Ok m => cset_flag false (mk_proc (p_obj (xs2 i)) (p_flag (xs2 i)) h) (K i)
      | Err e => K i (mk_proc (p_obj (xs2 i)) (p_flag (xs2 i)) h) (Err e)
      | UB => K i (mk_proc (p_obj (xs2 i)) (p_flag (xs2 i)) h) UB end))) by (intros i L; unfold K2; rewrite (O2 i L); reflexivity).
  apply (always_call Q n (fun _ => CEnddef) (fun i => p_head (xs2 i))); [exact some|intros; reflexivity|]. cbn [answer].
  set (xs3 := fun i => mk_proc (p_obj (xs2 i)) false (mk_head (h_rw (p_head (xs2 i))) false (h_nc (p_head (xs2 i))))).
  rewrite (map_below n _ (fun i => K i (xs3 i) (Ok tt))) by (intros i L; destruct (TW2 i L) as (_ & _ & ->); reflexivity).
  apply (HK xs3 (fun _ => Ok tt)); [exact D2| |intros i k _ _; reflexivity].
  split.
  - intros i k Li Lk. destruct (TT2 i k Li Lk) as (S & E1 & E2). unfold xs3. cbn [p_obj p_flag p_head]. rewrite E2. split; [exact S|split; reflexivity].
  - intros i L. destruct (TW2 i L) as (_ & E & _). unfold xs3. cbn. split; [exact E|reflexivity].
Qed.
Lemma find_agrees : agrees n size (ready false) eq (fun _ => c_find_all) (fun _ => find_all).
Proof.
  intros xs T Q K HK. pose proof T as [TT TW].
  set (s' := fun i => find_all (view (xs i))).
  set (xs' := fun i => mk_proc (fst (fst (s' i))) (p_flag (xs i)) (mk_head (h_rw (p_head (xs i))) (h_define (p_head (xs i))) (snd (fst (s' i))))).
  rewrite (map_below n _ (fun i => K i (xs' i) (snd (s' i)))).
  2:{ intros i L. unfold c_find_all, xs', s'. fold (view (xs i)). destruct (find_all (view (xs i))) as [[o f] r]. reflexivity. }
  assert (SS : forall i k, (i < n)%nat -> (k < n)%nat -> ssess (size i) (size k) (fst (s' i)) (fst (s' k)) /\ snd (s' i) = snd (s' k)).
  { intros i k Li Lk. apply find_all_same. destruct (TT i k Li Lk) as (S & _ & E). split; [exact S|]. cbn [view snd]. now rewrite E. }
  apply HK.
  - intros i L. unfold view at 2, xs'. cbn [p_obj p_head h_nc]. unfold s'. destruct (find_all (view (xs i))) as [[o f] r]. reflexivity.
  - split; [|intros i L; exact (TW i L)]. intros i k Li Lk. destruct (TT i k Li Lk) as (S & E1 & E2). destruct (SS i k Li Lk) as [[S1 S2] _].
    unfold xs'. cbn [p_obj p_flag p_head]. split; [exact S1|]. split; [exact E1|]. now rewrite E2, S2.
  - intros i k Li Lk. apply rres_same. apply (SS i k Li Lk).
Qed.
Lemma op_agrees writing j : decomposed n size j ->
  agrees n size (ready writing) eq (fun i => c_op writing (part i j)) (fun i => if writing then create_op (whole n size writing i j) else open_op (whole n size writing i j)).
Proof.
  intros D xs T.
  apply agrees_at_ext with (r := fun i => do _ <- on_obj (register_op (whole n size writing i j)); if writing then define_all else find_all).
  { intros i L. destruct writing; reflexivity. }
  apply agrees_at_bind with (A := eq); [exact some|now apply register_agrees|]. intros u xs1 _ T1 _ Q K HK. pose proof T1 as [TT TW].
  destruct writing.
  - assert (EF : forall i, (i < n)%nat -> p_flag (xs1 i) = p_flag (xs1 0%nat)) by (intros i L; destruct (TT i 0%nat L some) as (_ & E & _); exact E).
    destruct (p_flag (xs1 0%nat)) eqn:E0.
    + rewrite (map_below n _ (fun i => c_define (xs1 i) (K i))) by (intros i L; unfold cbind at 1, cflag; rewrite (EF i L); reflexivity).
      apply define_agrees; [|exact HK]. split; [exact TT|]. intros i L. destruct (TW i L) as [E1 E2]. rewrite (EF i L) in *. split; [reflexivity|split; assumption].
    + set (K2 := fun i => fun x' (a : res unit) => match a with Ok _ => c_define x' (K i) | Err e => K i x' (Err e) | UB => K i x' UB end).
      rewrite (map_below n _ (fun i => Call CRedef (p_head (xs1 i)) (fun a h =>
        match (match a with Some m => Ok m | None => Err FileIOError end) with
        | Ok m => cset_flag true (mk_proc (p_obj (xs1 i)) (p_flag (xs1 i)) h) (K2 i)
        | Err e => K2 i (mk_proc (p_obj (xs1 i)) (p_flag (xs1 i)) h) (Err e)
        | UB => K2 i (mk_proc (p_obj (xs1 i)) (p_flag (xs1 i)) h) UB end))) by (intros i L; specialize (EF i L); destruct (xs1 i) as [o fl h]; cbn [p_flag] in EF; subst fl; reflexivity).
      apply (always_call Q n (fun _ => CRedef) (fun i => p_head (xs1 i))); [exact some|intros; reflexivity|]. cbn [answer].
      set (xs2 := fun i => mk_proc (p_obj (xs1 i)) true (mk_head (h_rw (p_head (xs1 i))) true (h_nc (p_head (xs1 i))))).
      rewrite (map_below n _ (fun i => c_define (xs2 i) (K i))).
      2:{ intros i L. destruct (TW i L) as [E1 E2]. rewrite (EF i L) in E2. rewrite E1, E2. unfold xs2. rewrite E1. reflexivity. }
      apply define_agrees; [|exact HK]. split.
      * intros i k Li Lk. destruct (TT i k Li Lk) as (S & E1 & E2). unfold xs2. cbn [p_obj p_flag p_head]. rewrite E2. split; [exact S|split; reflexivity].
      * intros i L. destruct (TW i L) as [E1 E2]. split; [reflexivity|]. split; [exact E1|reflexivity].
  - rewrite (map_below n _ (fun i => c_find_all (xs1 i) (K i))) by (intros i L; unfold cbind at 1, cflag; specialize (TW i L); cbn [ready] in TW; rewrite TW; reflexivity).
    apply (find_agrees xs1 T1). exact HK.
Qed.
Lemma program_agrees writing js : Forall (decomposed n size) js -> forall outs xs (Q : list prog -> Prop), together n size (ready writing) xs ->
  (forall xs' rs, (forall i, (i < n)%nat -> serial writing (map (whole n size writing i) js) (view (xs i)) = (view (xs' i), rs)) -> together n size (ready writing) xs' ->
     Q (map (fun i => Fin (xs' i) (rev outs ++ rs)) (seq 0 n))) ->
  always Q (map (fun i => program writing (map (part i) js) outs (xs i)) (seq 0 n)).
Proof.
  induction js as [|j js IH]; intros D outs xs Q T HQ.
  - apply now. cbn [map program]. specialize (HQ xs [] (fun i _ => eq_refl) T). rewrite app_nil_r in HQ. exact HQ.
  - apply Forall_cons_iff in D. destruct D as [Dj D]. cbn [map program].
    apply (op_agrees writing j Dj xs T Q (fun i x' a => program writing (map (part i) js) (a :: outs) x')). intros xs1 rs V1 T1 A1. pose proof (all_one rs A1) as O1.
    rewrite (map_below n _ (fun i => program writing (map (part i) js) (rs 0%nat :: outs) (xs1 i))) by (intros i L; rewrite (O1 i L); reflexivity).
    apply (IH D (rs 0%nat :: outs) xs1 Q T1). intros xs2 rs2 V2 T2. cbn [rev]. rewrite <- app_assoc. apply (HQ xs2 (rs 0%nat :: rs2)); [|exact T2].
    intros i L. cbn [map serial]. destruct writing; rewrite (V1 i L), (O1 i L), (V2 i L); reflexivity.
Qed.

(** Objects, header and outcomes at the end. *)
Definition ends (writing : bool) (js : list jop) (f0 : nclib) (f : nclib) (outs : list (res unit)) (vs : list varobj) (i : nat) (o : fobj) : Prop :=
  serial writing (map (whole n size writing i) js) (new_obj, f0) = ((o, f), outs) /\ o_vars o = vs.
Lemma start_agrees writing js x : Forall (decomposed n size) js -> p_obj x = new_obj -> ready writing (p_flag x) (p_head x) ->
  exists f outs vs, (forall i, (i < n)%nat -> exists o, ends writing js (h_nc (p_head x)) f outs vs i o) /\
    always (finished n outs f (ends writing js (h_nc (p_head x)) f outs vs)) (start n writing js x).
Proof.
  intros D O R.
  assert (T : together n size (ready writing) (fun _ => x)).
  { split; [|intros i L; exact R]. intros i k _ _. split; [rewrite O; repeat split|split; reflexivity]. }
  assert (EV : view x = (new_obj, h_nc (p_head x))) by (unfold view; now rewrite O).
  assert (ER : always (fun c => exists f outs vs, forall i, (i < n)%nat -> exists o, ends writing js (h_nc (p_head x)) f outs vs i o) (start n writing js x)).
  { apply (program_agrees writing js D [] (fun _ => x)); [exact T|]. intros xs' rs V [T' _]. exists (h_nc (p_head (xs' 0%nat))), rs, (o_vars (p_obj (xs' 0%nat))). intros i L.
    exists (p_obj (xs' i)). unfold ends. rewrite <- EV, (V i L). unfold view. destruct (T' i 0%nat L some) as ((_ & _ & E & _) & _ & ->). split; [reflexivity|exact E]. }
  assert (EX : exists f outs vs, forall i, (i < n)%nat -> exists o, ends writing js (h_nc (p_head x)) f outs vs i o).
  { clear - ER. induction ER as [c H|c [c' P] _ IH]; [exact H|exact (IH c' P)]. }
  destruct EX as (f & outs & vs & EX). exists f, outs, vs. split; [exact EX|].
  apply (program_agrees writing js D [] (fun _ => x)); [exact T|]. intros xs' rs V [T' _]. cbn [rev app].
  split; [now rewrite map_length, seq_length|]. intros i L.
  destruct (EX i L) as [o [Eo Ev]]. rewrite <- EV, (V i L) in Eo. unfold view at 1 in Eo. injection Eo as Eo1 Eo2 Eo3.
  exists (xs' i). subst rs. split; [|split; [exact Eo2|]].
  - rewrite nth_error_map. rewrite (nth_error_nth' _ 0%nat) by (rewrite seq_length; exact L). rewrite seq_nth by exact L. reflexivity.
  - unfold ends. rewrite <- EV, (V i L). unfold view. rewrite Eo2. split; [reflexivity|]. now rewrite Eo1.
Qed.
End Together.

(** ** Programs that succeed *)

Lemma serial_create ops : forall s s' us, meach create_op ops s = (s', Ok us) -> serial true ops s = (s', map Ok us).
Proof.
  induction ops as [|o ops IH]; intros s s' us E; cbn [meach serial] in *; [unfold mret in E; injection E as <- <-; reflexivity|].
  unfold mbind in E. destruct (create_op o s) as [s1 [u|e|]]; [|discriminate ..].
  destruct (meach create_op ops s1) as [s2 [us'|e|]] eqn:E2; [|discriminate ..]. unfold mret in E. injection E as <- <-. now rewrite (IH _ _ _ E2).
Qed.
Lemma serial_open ops : forall s s' us, meach open_op ops s = (s', Ok us) -> serial false ops s = (s', map Ok us).
Proof.
  induction ops as [|o ops IH]; intros s s' us E; cbn [meach serial] in *; [unfold mret in E; injection E as <- <-; reflexivity|].
  unfold mbind in E. destruct (open_op o s) as [s1 [u|e|]]; [|discriminate ..].
  destruct (meach open_op ops s1) as [s2 [us'|e|]] eqn:E2; [|discriminate ..]. unfold mret in E. injection E as <- <-. now rewrite (IH _ _ _ E2).
Qed.
Lemma serial_length w ops : forall s, length (snd (serial w ops s)) = length ops.
Proof.
  induction ops as [|o ops IH]; intros s; cbn [serial]; [reflexivity|]. destruct ((if w then create_op o else open_op o) s) as [s1 a].
  specialize (IH s1). destruct (serial w ops s1). cbn [snd length] in *. now rewrite IH.
Qed.
Lemma units (us : list unit) : map Ok us = repeat (Ok tt) (length us).
Proof. induction us as [|[] us IH]; cbn; [reflexivity|now rewrite IH]. Qed.
Lemma always_weak (P Q : list prog -> Prop) c : (forall c, P c -> Q c) -> always P c -> always Q c.
Proof. intros H. induction 1; [apply now; auto|apply later; auto]. Qed.
Lemma finished_weak n outs f (P Q : nat -> fobj -> Prop) c : (forall i o, (i < n)%nat -> P i o -> Q i o) -> finished n outs f P c -> finished n outs f Q c.
Proof. intros H [L F]. split; [exact L|]. intros i I. destruct (F i I) as (x & A & B & C). exists x. auto. Qed.
Lemma uses_vars o o' f m v : o_vars o = o_vars o' -> uses (o, f) m v -> uses (o', f) m v.
Proof. unfold uses. cbn [fst snd]. intros ->. auto. Qed.

Lemma created_all n size js var dom : (0 < n)%nat -> Forall (decomposed n size) js ->
  orderly var dom (map (whole n size true 0) js) ->
  exists f, proper f /\ In frame_dim (lf_dims f) /\ map fst (lf_vars f) = names [] (map (whole n size true 0) js) /\
    (forall m, In m (names [] (map (whole n size true 0) js)) -> file_var f m (v_dims (var m))) /\
    always (finished n (repeat (Ok tt) (length js)) f (fun i o => forall m, In m (names [] (map (whole n size true 0) js)) -> uses (o, f) m (var m))) (start n true js created).
Proof.
  intros N D Or. destruct (DimProofs5.created var dom _ Or) as (o & f & us & E & P1 & P2 & _ & P4 & P5).
  destruct (start_agrees n size N true js created D eq_refl) as (f' & outs & vs & EX & A); [split; reflexivity|].
  destruct (EX 0%nat N) as (o0 & E0 & V0). unfold create_all in E. apply serial_create in E. cbn [created p_head h_nc] in E0. rewrite E in E0. injection E0 as <- <- <-.
  exists f. split; [exact P1|]. split; [exact P2|]. split; [exact P4|]. split; [intros m M; apply (P5 m M)|].
  assert (LU : length us = length js).
  { pose proof (serial_length true (map (whole n size true 0) js) (new_obj, empty_lib)) as LS. rewrite E in LS. cbn [snd] in LS. rewrite !map_length in LS. exact LS. }
  rewrite units, LU in A. revert A. apply always_weak. intros c. apply finished_weak. intros i o' _ [_ V'] m M.
  apply uses_vars with (o := o); [congruence|]. apply (P5 m M).
Qed.
Lemma opened_all n size js var dom rw f : (0 < n)%nat -> Forall (decomposed n size) js ->
  orderly var dom (map (whole n size false 0) js) -> proper f -> In frame_dim (lf_dims f) ->
  (forall m, In m (names [] (map (whole n size false 0) js)) -> file_var f m (v_dims (var m))) ->
  always (finished n (repeat (Ok tt) (length js)) f (fun i o => forall m, In m (names [] (map (whole n size false 0) js)) -> uses (o, f) m (var m))) (start n false js (opened rw f)).
Proof.
  intros N D Or P F FV. destruct (DimProofs5.opened var dom _ f Or P F FV) as (o & us & E & _ & U).
  destruct (start_agrees n size N false js (opened rw f) D eq_refl) as (f' & outs & vs & EX & A); [reflexivity|].
  destruct (EX 0%nat N) as (o0 & E0 & V0). unfold open_all in E. apply serial_open in E. cbn [opened p_head h_nc] in E0. rewrite E in E0. injection E0 as <- <- <-.
  assert (LU : length us = length js).
  { pose proof (serial_length false (map (whole n size false 0) js) (new_obj, f)) as LS. rewrite E in LS. cbn [snd] in LS. rewrite !map_length in LS. exact LS. }
  rewrite units, LU in A. revert A. apply always_weak. intros c. apply finished_weak. intros i o' _ [_ V'] m M.
  apply uses_vars with (o := o); [congruence|]. now apply U.
Qed.
