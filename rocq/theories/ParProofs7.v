(** Executions: what [always] says about each of them, values after two programs,
    and a function that computes one execution. *)
From Coq Require Import String.
From Verif Require Import Base CIntModel GridModel GridSpec StridedModel LayoutModel LayoutSpec LayoutProofs CommModel FrameModel NetCDFModel NetCDFSpec.
From Verif Require Import SessionModel SessionSpec SessionProofs SessionProofs5 ParModel ParSpec ParProofs ParProofs3 ParProofs6.
Local Open Scope Z_scope.
Local Open Scope list_scope.

Section Executions.
Context {A : Type}.
Notation session := (session A).
Notation world := (world A).
Notation rank := (rank A).
Notation prog := (prog A).
Notation config := (config A).
Implicit Types (s : session) (w : world) (r : rank) (ranks : list rank) (c : config).

Lemma no_act c : (forall f, ~ In (Act f) (snd c)) -> (exists r outs, In (Ret r outs) (snd c)) -> stuck c.
Proof.
  intros NA (r & outs & IR) [c' ST]. inversion ST as [w b f a w' p E|w co calls NE]; subst; cbn [snd] in *.
  - apply (NA f). apply in_or_app. right. now left.
  - apply in_map_iff in IR. destruct IR as (x & E & _). discriminate.
Qed.
Lemma finished_stuck s outs c : su_parts (se_setup s) <> [] -> finished s outs c -> stuck c.
Proof.
  intros NE (ranks & E & AG). apply no_act; rewrite E.
  - intros f I. apply in_map_iff in I. destruct I as (x & E' & _). discriminate.
  - pose proof (agrees_some _ _ _ AG NE) as N. destruct ranks as [|r ranks]; [contradiction|]. exists r, outs. now left.
Qed.
Lemma always_steps (Q : config -> Prop) c c' : always Q c -> steps c c' -> (forall c, Q c -> stuck c) -> Q c' \/ exists c'', step c' c''.
Proof.
  intros H S HQ. induction S as [c|c c1 c2 S1 S2 IH].
  - destruct H as [c H|c H _]; auto.
  - apply IH. destruct H as [c H|c _ H]; [exfalso; apply (HQ c H); eauto|]. now apply H.
Qed.
(** No execution goes on for ever. *)
Lemma always_ends (Q : config -> Prop) c : always Q c -> (forall c, Q c -> stuck c) -> Acc (fun c' c => step c c') c.
Proof.
  intros H HQ. induction H as [c H|c _ _ IH]; constructor; intros c' S; [exfalso; apply (HQ c H); eauto|now apply IH].
Qed.

Lemma run_app P K s known a s1 known1 b s2 known2 : run P K s known a s1 known1 -> run P K s1 known1 b s2 known2 -> run P K s known (a ++ b) s2 known2.
Proof. induction 1 as [|s known o s1 r ops s3 known3 AL KO E R IH]; intros H; [exact H|]. cbn [app]. eapply run_step; [exact AL|exact KO|exact E|]. now apply IH. Qed.
Lemma run_weaken P (K L : session -> op A -> Prop) s known a s1 known1 : (forall s o, K s o -> L s o) -> run P K s known a s1 known1 -> run P L s known a s1 known1.
Proof. intros H. induction 1 as [|s known o s1 r ops s3 known3 AL KO E R IH]; [apply run_end|]. eapply run_step; [exact AL|now apply H|exact E|exact IH]. Qed.
Lemma outcomes_app P K s known a s1 known1 b : run P K s known a s1 known1 -> outcomes s (a ++ b) = outcomes s a ++ outcomes s1 b.
Proof. induction 1 as [|s known o s1 r ops s3 known3 AL KO E R IH]; [reflexivity|]. cbn [app outcomes]. rewrite E. cbn [app]. now rewrite IH. Qed.

Lemma agrees_value s w ranks j q h co b x a : agrees s w ranks -> has_value s j q h co b x a -> exists r, nth_error ranks j = Some r /\ rank_value r q h co b x a.
Proof.
  intros AG (p & m & Ep & Em & H). pose proof AG as (_ & _ & L & A4). destruct (at_length _ ranks j p (eq_sym L) Ep) as [r Er]. exists r. split; [exact Er|].
  destruct (agrees_rank s w ranks j r AG Er) as (p' & Ep' & EO). assert (EO2 : own_part r = p) by congruence. destruct (A4 j r Er) as (_ & _ & _ & _ & _ & _ & _ & _ & HM).
  unfold rank_value. rewrite EO2, HM, (nth_some _ _ _ [] Em). exact H.
Qed.

Lemma two_programs (P : plan) s0 known0 u0 mem0 hc0 cells0 ops s1 known1 q k names fr s2 out2 ops' s3 known3 append u mem ops2 s4 known4 k' names' n1 n2 w ranks1 :
  run P (proper P n1) s0 known0 (Create u0 mem0 hc0 cells0 :: ops) s1 known1 ->
  In q (pl_quantities P) -> In (q_name q) names -> allowed P known1 s1 (Write k names) -> se_mode s1 <> Reading -> accessed k (se_nb s1) = Ok fr ->
  SessionModel.step s1 (Write k names) = (s2, out2) ->
  run P (both (proper P n1) (spares (q_name q) fr)) s2 (learn P known1 s1 (Write k names) out2) ops' s3 known3 ->
  run P (both (proper P n2) (spares (q_name q) fr)) s3 known3 (Reopen append u mem :: ops2) s4 known4 ->
  (exists h, entry_of q h) -> allowed P known4 s4 (Read k' names') -> proper P n2 s4 (Read k' names') -> In (q_name q) names' -> accessed k' (se_nb s4) = Ok fr ->
  numbered ranks1 -> length ranks1 = n1 ->
  always (fun c1 => (exists outs, ended outs c1) /\ forall ranks2, numbered ranks2 -> length ranks2 = n2 ->
    always (fun c2 => exists ranks outs, snd c2 = map (fun r => Ret r (outs ++ [Ok tt])) ranks /\
      forall h i j co b x a, entry_of q h -> in_shape (q_comp q) co -> 0 <= b < q_nsub q ->
        has_value s1 i q h co b x a -> has_pixel s4 j q x -> exists r, nth_error ranks j = Some r /\ rank_value r q h co b x a)
    (fst c1, map (program (Reopen append u mem :: ops2 ++ [Read k' names']) []) ranks2))
  (w, map (program (Create u0 mem0 hc0 cells0 :: ops ++ Write k names :: ops') []) ranks1).
Proof.
  intros R1 Iq In_ AL NR AC E R2 R3 EH AL' PR' In' AC' NU1 L1.
  destruct (last_write P s0 known0 u0 mem0 hc0 cells0 ops s1 known1 q k names fr s2 out2 (run_weaken P _ anything _ _ _ _ _ (fun _ _ _ => I) R1) Iq In_ AL NR AC E) as [-> LW].
  destruct (SessionModel.step s4 (Read k' names')) as [s5 r5] eqn:E5.
  destruct (LW (ops' ++ Reopen append u mem :: ops2) s4 known4 k' names' s5 r5) as [_ H]; [|exact EH|].
  { eapply run_app; [eapply run_weaken; [|exact R2]; intros s o [_ X]; exact X|eapply run_weaken; [|exact R3]; intros s o [_ X]; exact X]. }
  destruct (H AL' In' AC' E5) as [-> HV]. clear H LW.
  assert (R12 : run P (proper P n1) s0 known0 (Create u0 mem0 hc0 cells0 :: ops ++ Write k names :: ops') s3 known3).
  { change (Create u0 mem0 hc0 cells0 :: ops ++ Write k names :: ops') with ((Create u0 mem0 hc0 cells0 :: ops) ++ Write k names :: ops'). eapply run_app; [exact R1|].
    eapply run_step; [exact AL|intros X; contradiction|exact E|]. eapply run_weaken; [|exact R2]. intros s o [X _]. exact X. }
  eapply always_weaken; [|exact (created_parallel P n1 s0 known0 u0 mem0 hc0 cells0 _ s3 known3 w ranks1 R12 NU1 L1)].
  intros c1 (ranks & E1 & AG). split.
  { eexists. unfold ended. rewrite E1. apply Forall_forall. intros p Ip. apply in_map_iff in Ip. destruct Ip as (r & <- & _). eauto. }
  intros ranks2 NU2 L2. destruct AG as (S1 & S2 & _).
  assert (R45 : run P (proper P n2) s3 known3 (Reopen append u mem :: ops2 ++ [Read k' names']) s5 (learn P known4 s4 (Read k' names') (Ok tt))).
  { change (Reopen append u mem :: ops2 ++ [Read k' names']) with ((Reopen append u mem :: ops2) ++ [Read k' names']). eapply run_app; [eapply run_weaken; [|exact R3]; intros s o [X _]; exact X|].
    eapply run_step; [exact AL'|exact PR'|exact E5|]. apply run_end. }
  assert (R12' : run P anything s0 known0 (Create u0 mem0 hc0 cells0 :: ops ++ Write k names :: ops') s3 known3) by (eapply run_weaken; [|exact R12]; intros; exact I).
  eapply always_weaken; [|exact (reopened_parallel P n2 s0 known0 u0 mem0 hc0 cells0 (ops ++ Write k names :: ops') s3 known3 append u mem _ s5 _ (fst c1) ranks2 R12' R45 NU2 L2 S1 S2)].
  intros c2 (ranks' & E2 & AG). exists ranks', (outcomes s3 (Reopen append u mem :: ops2)). split.
  - change (Reopen append u mem :: ops2 ++ [Read k' names']) with ((Reopen append u mem :: ops2) ++ [Read k' names']) in E2. rewrite (outcomes_app P _ s3 known3 _ s4 known4 _ R3) in E2. cbn [outcomes] in E2. rewrite E5 in E2. exact E2.
  - intros h i j co b x a Eh Hc Hb V PX. apply (agrees_value s5 (fst c2) ranks'); [exact AG|]. now apply (HV h i j co b x a).
Qed.

(** *** One execution *)
Definition same_call (a b : collective) : bool :=
  match a, b with
  | COpen Creating, COpen Creating | COpen Appending, COpen Appending | COpen Reading, COpen Reading
  | COpened Creating, COpened Creating | COpened Appending, COpened Appending | COpened Reading, COpened Reading
  | CClose, CClose | CEnddef, CEnddef | CScan, CScan | CBeginIndep, CBeginIndep | CEndIndep, CEndIndep => true
  | CTransfer p n, CTransfer p' n' | CTransferred p n, CTransferred p' n' => Bool.eqb p p' && String.eqb n n'
  | _, _ => false
  end.
Lemma same_call_eq a b : same_call a b = true -> a = b.
Proof.
  destruct a as [[]|[]| | | |p n|p n| |], b as [[]|[]| | | |p' n'|p' n'| |]; cbn [same_call]; try discriminate; try reflexivity;
    intros E; apply andb_prop in E; destruct E as [E1 E2]; apply Bool.eqb_prop in E1; apply String.eqb_eq in E2; now subst.
Qed.
Fixpoint first_act (ps : list prog) (w : world) : option (world * list prog) :=
  match ps with
  | [] => None
  | Act f :: ps' => Some (fst (f w), snd (f w) :: ps')
  | p :: ps' => match first_act ps' w with Some (w', ps'') => Some (w', p :: ps'') | None => None end
  end.
Fixpoint all_calls (co : collective) (ps : list prog) : option (list (Z * (list Z -> prog))) :=
  match ps with
  | [] => Some []
  | Sync co' z k :: ps' => if same_call co' co then match all_calls co ps' with Some l => Some ((z, k) :: l) | None => None end else None
  | _ => None
  end.
Definition next c : option config :=
  match first_act (snd c) (fst c) with
  | Some c' => Some c'
  | None => match snd c with
            | Sync co _ _ :: _ => match all_calls co (snd c) with
                                  | Some l => Some (fst c, map (fun x => snd x (map fst l)) l)
                                  | None => None
                                  end
            | _ => None
            end
  end.
Lemma first_act_step ps : forall w w' ps', first_act ps w = Some (w', ps') -> exists b f a p, ps = b ++ Act f :: a /\ f w = (w', p) /\ ps' = b ++ p :: a.
Proof.
  induction ps as [|p ps IH]; intros w w' ps' E; cbn [first_act] in E; [discriminate|]. destruct p as [r o|co z k|f].
  1,2: destruct (first_act ps w) as [[w1 ps1]|] eqn:E1; [|discriminate]; injection E as <- <-; destruct (IH _ _ _ E1) as (b & f & a & p & -> & E2 & ->); eexists (_ :: b), f, a, p; split; [reflexivity|]; split; [exact E2|reflexivity].
  injection E as <- <-. exists [], f, ps, (snd (f w)). split; [reflexivity|]. split; [apply surjective_pairing|reflexivity].
Qed.
Lemma all_calls_eq co ps : forall l, all_calls co ps = Some l -> ps = map (fun x => Sync co (fst x) (snd x)) l.
Proof.
  induction ps as [|p ps IH]; intros l E; cbn [all_calls] in E; [injection E as <-; reflexivity|]. destruct p as [r o|co' z k|f]; try discriminate.
  destruct (same_call co' co) eqn:SC; [|discriminate]. apply same_call_eq in SC. subst co'. destruct (all_calls co ps) as [l1|]; [|discriminate]. injection E as <-. cbn [map fst snd]. now rewrite <- (IH l1 eq_refl).
Qed.
Lemma next_step c c' : next c = Some c' -> step c c'.
Proof.
  unfold next. destruct c as [w ps]. cbn [fst snd]. destruct (first_act ps w) as [[w1 ps1]|] eqn:E1.
  - intros E. injection E as <-. destruct (first_act_step _ _ _ _ E1) as (b & f & a & p & -> & E2 & ->). now constructor.
  - destruct ps as [|[r o|co z k|f] ps]; try discriminate. destruct (all_calls co (Sync co z k :: ps)) as [l|] eqn:E2; [|discriminate]. intros E. injection E as <-.
    rewrite (all_calls_eq _ _ _ E2). constructor. intros ->. discriminate (all_calls_eq _ _ _ E2).
Qed.
Fixpoint execute (fuel : nat) c : config :=
  match fuel with
  | O => c
  | S n => match next c with Some c' => execute n c' | None => c end
  end.
Lemma execute_steps fuel : forall c, steps c (execute fuel c).
Proof.
  induction fuel as [|n IH]; intros c; cbn [execute]; [constructor|]. destruct (next c) as [c'|] eqn:E; [|constructor]. apply steps_one with c'; [now apply next_step|apply IH].
Qed.

(** What can be seen of the processes: the outcomes of those that are done, nothing of
    those that wait. *)
Definition shape c : list (option (list (res unit))) := map (fun p => match p with Ret _ outs => Some outs | _ => None end) (snd c).
Definition idle c : bool := forallb (fun p => match p with Act _ => false | _ => true end) (snd c).
Lemma idle_stuck c outs : idle c = true -> In (Some outs) (shape c) -> stuck c.
Proof.
  intros H I. apply no_act.
  - intros f If. unfold idle in H. rewrite forallb_forall in H. specialize (H _ If). discriminate.
  - unfold shape in I. apply in_map_iff in I. destruct I as (p & E & Ip). destruct p as [r o|co z k|f]; try discriminate. eauto.
Qed.
End Executions.
