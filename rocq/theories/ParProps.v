(** C138-C140: the processes of parallel programs that use a file, in any order of
    their steps. *)
From Coq Require Import String Sorting.Sorted.
From Verif Require Import Base CIntModel GridModel GridSpec StridedModel LayoutModel LayoutSpec CommModel FrameModel.
From Verif Require Import NetCDFModel NetCDFSpec NetCDFProps SessionModel SessionSpec SessionProps ParModel ParSpec ParProofs6 ParProofs7.
Local Open Scope Z_scope.
Local Open Scope list_scope.

(** ** C138 *)

(** A program that creates a file and uses it, run by [n] processes: whatever the
    order in which they proceed, all of them finish.  The file, the memory of each
    process and the outcomes of the operations, exceptions included, are the same
    in every order: those that SessionModel.v describes. *)
Theorem C138_created {A : Type} (P : plan) n (s : session A) known u mem hc c ops s' known' w (ranks : list (rank A)) :
  run P (proper P n) s known (Create u mem hc c :: ops) s' known' -> numbered ranks -> length ranks = n ->
  always (finished s' (outcomes s (Create u mem hc c :: ops))) (w, map (program (Create u mem hc c :: ops) []) ranks).
Proof. apply created_parallel. Qed.
Print Assumptions C138_created.
(** A program that opens a file that other programs left behind; those may have been
    run by another number of processes. *)
Theorem C138_opened {A : Type} (P : plan) n (s0 : session A) known0 u0 mem0 hc0 c0 before s known append u mem ops s' known' w (ranks : list (rank A)) :
  run P anything s0 known0 (Create u0 mem0 hc0 c0 :: before) s known ->
  run P (proper P n) s known (Reopen append u mem :: ops) s' known' -> numbered ranks -> length ranks = n ->
  same_file (se_hfile s) (w_hfile w) -> same_file (se_file s) (w_file w) ->
  always (finished s' (outcomes s (Reopen append u mem :: ops))) (w, map (program (Reopen append u mem :: ops) []) ranks).
Proof. apply reopened_parallel. Qed.
Print Assumptions C138_opened.
(** What this means for an execution: it has finished as described, or it can go
    on; and it cannot go on for ever. *)
Theorem C138_executions {A : Type} (s : session A) outs c : su_parts (se_setup s) <> [] -> always (finished s outs) c ->
  (forall c', steps c c' -> finished s outs c' \/ exists c'', step c' c'') /\ Acc (fun c' c => step c c') c.
Proof.
  intros NE H. split; [intros c' S; apply (always_steps _ c c' H S)|apply (always_ends _ c H)]; intros c0; now apply finished_stuck.
Qed.
Print Assumptions C138_executions.

(** Two processes; one operation throws in both of them. *)
Definition idle_ranks (n : nat) : list (rank Z) :=
  map (fun i => mk_rank i Reading one_part 0 [] [] (fun _ => []) (fun _ _ => []) false) (seq 0 n).
Definition no_world : world Z := mk_world (blank 0) (blank 0).
Definition ops_p : list (op Z) :=
  [Create two_parts mem_a (fun _ _ => 77) (fun _ _ => 99); AppendFrame; Write 0 ["u"; "s"]; Read 5 ["u"]; Reopen true two_parts mem_b;
   AppendFrame; Write 1 ["s"]; Read 0 ["s"; "u"]]%string.
Definition processes (n : nat) (ops : list (op Z)) : config Z := (no_world, map (program ops []) (idle_ranks n)).
Definition memory (c : config Z) (name : string) (h : Z) : list (list Z) :=
  map (fun p => match p with Ret r _ => r_mem r name h | _ => [] end) (snd c).
Lemma idle_numbered n : numbered (idle_ranks n) /\ length (idle_ranks n) = n.
Proof.
  split; [|unfold idle_ranks; now rewrite map_length, seq_length]. intros i r E. unfold idle_ranks in E. rewrite nth_error_map in E. destruct (nth_error (seq 0 n) i) as [j|] eqn:Ej; [|discriminate]. injection E as <-. cbn.
  assert (LI : (i < length (seq 0 n))%nat) by (apply nth_error_Some; congruence). rewrite seq_length in LI. apply nth_error_nth with (d := O) in Ej. rewrite seq_nth in Ej by exact LI. lia.
Qed.
Lemma names_plan names : (forall n, In n names -> n = "u" \/ n = "s")%string -> named a_plan names.
Proof. intros H n I. destruct (H n I) as [->| ->]; [exists qu|exists qs]; (split; [cbn; auto|reflexivity]). Qed.
Lemma known_plan known names : In "px"%string known -> positioned a_plan known names.
Proof. intros I q l [<-|[<-|[]]] _ E; [discriminate|]. injection E as <-. exact I. Qed.
Example C138_case : (exists known, run a_plan (proper a_plan 2) no_session [] ops_p (exec no_session ops_p) known) /\
  numbered (idle_ranks 2) /\ length (idle_ranks 2) = 2%nat /\
  outcomes no_session ops_p = [Ok tt; Ok tt; Ok tt; Err FileIOError; Ok tt; Ok tt; Ok tt; Ok tt] /\
  let c := execute 1000 (processes 2 ops_p) in
  shape c = [Some (outcomes no_session ops_p); Some (outcomes no_session ops_p)] /\
  memory c "s" 0 = [[21; 22; 23; 24]; [25; 26]] /\ memory c "u" 1 = [[11; 12; 13; 14]; [15; 16; 17; 18]] /\
  memory c "u" 1 = se_mem (exec no_session ops_p) "u" 1.
Proof.
  split; [|split; [apply idle_numbered|split; [reflexivity|vm_compute; auto 10]]].
  assert (SA : sized a_plan two_parts mem_a) by now apply two_parts_sized. assert (SB : sized a_plan two_parts mem_b) by now apply two_parts_sized. pose proof two_parts_fit as F2.
  eexists. unfold ops_p, exec. cbn [fold_left].
  eapply run_step; [split; assumption|reflexivity|apply surjective_pairing|].
  eapply run_step; [exact I|exact I|apply surjective_pairing|].
  eapply run_step; [split; [apply names_plan; cbn; intuition|intros EM; exfalso; revert EM; vm_compute; discriminate]|intros EM; exfalso; revert EM; vm_compute; discriminate|apply surjective_pairing|].
  match goal with |- run _ _ _ ?k _ _ _ => replace k with ["px"]%string by (vm_compute; reflexivity) end.
  eapply run_step; [split; [apply names_plan; cbn; intuition|apply known_plan; cbn; auto]|left; intros q [<-|[<-|[]]] IN; [reflexivity|cbn in IN; intuition discriminate]|apply surjective_pairing|].
  eapply run_step; [split; assumption|reflexivity|apply surjective_pairing|].
  eapply run_step; [exact I|exact I|apply surjective_pairing|].
  eapply run_step; [split; [apply names_plan; cbn; intuition|intros _; apply known_plan; cbn; auto]|intros EM; exfalso; revert EM; vm_compute; discriminate|apply surjective_pairing|].
  match goal with |- run _ _ _ ?k _ _ _ => replace k with ["px"]%string by (vm_compute; reflexivity) end.
  eapply run_step; [split; [apply names_plan; cbn; intuition|apply known_plan; cbn; auto]|right; vm_compute; split; [discriminate|intros fr E; injection E as <-; reflexivity]|apply surjective_pairing|].
  apply run_end.
Qed.

(** ** C139 *)

(** A program run by [n1] processes creates a file and, at some time, writes a field in
    a frame; whatever happens afterwards, that frame of it is not written again.
    When this program is done, in whatever order its processes proceed, a program run
    by [n2] processes opens the file and finally reads the frame.  In whatever order
    those proceed, all finish, reading succeeds, and each of them gets the values
    that were in the memory of the first program for its pixels. *)
Theorem C139_two_programs {A : Type} (P : plan) (s0 : session A) known0 u0 mem0 hc0 cells0 ops s1 known1 q k names fr s2 out2 ops' s3 known3 append u mem ops2 s4 known4 k' names' n1 n2 w (ranks1 : list (rank A)) :
  run P (proper P n1) s0 known0 (Create u0 mem0 hc0 cells0 :: ops) s1 known1 ->
  In q (pl_quantities P) -> In (q_name q) names -> allowed P known1 s1 (Write k names) -> se_mode s1 <> Reading -> accessed k (se_nb s1) = Ok fr ->
  SessionModel.step s1 (Write k names) = (s2, out2) ->
  run P (both (proper P n1) (spares (q_name q) fr)) s2 (learn P known1 s1 (Write k names) out2) ops' s3 known3 ->
  run P (both (proper P n2) (spares (q_name q) fr)) s3 known3 (Reopen append u mem :: ops2) s4 known4 ->
  (exists h, entry_of q h) -> allowed P known4 s4 (Read k' names') -> proper P n2 s4 (Read k' names') -> In (q_name q) names' -> accessed k' (se_nb s4) = Ok fr ->
  numbered ranks1 -> length ranks1 = n1 ->
  always (fun c1 => (exists outs, ended outs c1) /\ forall ranks2, numbered ranks2 -> length ranks2 = n2 ->
    always (fun c2 => exists ranks outs, snd c2 = map (fun r => Ret r (outs ++ [Ok tt])) ranks /\
      forall h i j c b x a, entry_of q h -> in_shape (q_comp q) c -> 0 <= b < q_nsub q ->
        has_value s1 i q h c b x a -> has_pixel s4 j q x -> exists r, nth_error ranks j = Some r /\ rank_value r q h c b x a)
    (fst c1, map (program (Reopen append u mem :: ops2 ++ [Read k' names']) []) ranks2))
  (w, map (program (Create u0 mem0 hc0 cells0 :: ops ++ Write k names :: ops') []) ranks1).
Proof. apply two_programs. Qed.
Print Assumptions C139_two_programs.

(** Written by two processes, read by one. *)
Example C139_case :
  let first := [Create two_parts mem_a (fun _ _ => 77) (fun _ _ => 99); AppendFrame] in
  let rest := [AppendFrame; Assign mem_b; Write 1 ["s"; "u"]]%string in
  let s1 := exec no_session first in
  let s2 := fst (SessionModel.step s1 (Write 0 ["s"; "u"]%string)) in
  let s3 := exec s2 rest in
  let s4 := fst (SessionModel.step s3 (Reopen false one_part mem_0)) in
  run a_plan (proper a_plan 2) no_session [] first s1 [] /\
  (exists known, run a_plan (both (proper a_plan 2) (spares "s" 0)) s2 ["px"%string] rest s3 known /\
     run a_plan (both (proper a_plan 1) (spares "s" 0)) s3 known [Reopen false one_part mem_0] s4 known /\ In "px"%string known) /\
  accessed (-2) (se_nb s4) = Ok 0 /\
  let c1 := execute 1000 (processes 2 (first ++ Write 0 ["s"; "u"]%string :: rest)) in
  let c2 := execute 1000 (fst c1, map (program [Reopen false one_part mem_0; Read (-2) ["s"; "u"]%string] []) (idle_ranks 1)) in
  shape c1 = repeat (Some (repeat (Ok tt) 6)) 2 /\ shape c2 = [Some [Ok tt; Ok tt]] /\
  memory c2 "s" 0 = [[21; 22; 23; 24; 25; 26]] /\ memory c2 "u" 0 = [[1; 2; 3; 4; 5; 6; 7; 8]].
Proof.
  assert (SA : sized a_plan two_parts mem_a) by now apply two_parts_sized. assert (SB : sized a_plan two_parts mem_b) by now apply two_parts_sized.
  pose proof two_parts_fit as F2. pose proof one_part_fits as F1. pose proof one_part_sized as S1.
  cbv zeta. split; [|split; [|vm_compute; auto 10]].
  - unfold exec. cbn [fold_left]. eapply run_step; [split; assumption|reflexivity|apply surjective_pairing|]. eapply run_step; [exact I|exact I|apply surjective_pairing|]. apply run_end.
  - exists ["px"; "px"]%string. split; [|split; [|now left]].
    + set (s2 := fst _). unfold exec. cbn [fold_left].
      eapply run_step; [exact I|split; exact I|apply surjective_pairing|]. eapply run_step; [exact SB|split; exact I|apply surjective_pairing|].
      eapply run_step; [split; [apply names_plan; cbn; intuition|intros EM; exfalso; revert EM; vm_compute; discriminate]|split; [intros EM; exfalso; revert EM; vm_compute; discriminate|intros [_ E]; revert E; vm_compute; discriminate]|apply surjective_pairing|].
      match goal with |- run _ _ _ ?k [] _ _ => replace k with ["px"; "px"]%string by (vm_compute; reflexivity) end. apply run_end.
    + eapply run_step; [split; assumption|split; [reflexivity|exact I]|apply surjective_pairing|]. apply run_end.
Qed.

(** ** C140 *)

(** Four processes, one of them without pixels of the local field. *)
Definition four_parts : setup := a_setup [a_part 1 0 [0]; a_part 1 1 [0]; a_part 1 2 []; a_part 1 3 [0]].
Definition mem_4 : string -> Z -> list (list Z) :=
  a_mem [[1; 2]; [3; 4]; [5; 6]; [7; 8]] [[11; 12]; [13; 14]; [15; 16]; [17; 18]] [[21; 22]; [23; 24]; []; [25; 26]].
Lemma four_parts_fit : fits a_plan four_parts.
Proof.
  apply (a_fits [(1, 0, [0]); (1, 1, [0]); (1, 2, []); (1, 3, [0])]); [discriminate| | | |reflexivity].
  - intros n loc ids I. assert (X : forall ids, (ids = [0] \/ ids = []) -> StronglySorted Z.lt ids) by (intros l [->| ->]; [apply SSorted_cons; [apply SSorted_nil|apply Forall_nil]|apply SSorted_nil]).
    destruct I as [E|[E|[E|[E|[]]]]]; injection E as <- <- <-; unfold good_part; (split; [lia|]; split; [lia|]; split; [lia|]; split; [apply X; auto|intros i; cbn [In]; lia]).
  - repeat constructor; cbn; lia.
  - intros y Hy. assert (C : y = 0 \/ y = 1 \/ y = 2 \/ y = 3) by lia. destruct C as [->|[->|[->| ->]]]; [exists 1, 0, [0]|exists 1, 1, [0]|exists 1, 2, []|exists 1, 3, [0]]; (split; [cbn; auto|lia]).
Qed.
Lemma four_parts_sized : sized a_plan four_parts mem_4.
Proof.
  intros q h [<-|[<-|[]]] EH; (split; [unfold mem_4, a_mem; cbn; now destruct (h =? 0)|]); intros i p m Ep Em; cbn [qu qs q_local q_name] in *; unfold mem_4, a_mem in Em.
  - change (String.eqb "u" "s") with false in Em. cbn match in Em.
    destruct i as [|[|[|[|i]]]]; [| | | |destruct i; discriminate]; cbn in Ep; injection Ep as <-; (destruct (h =? 0); cbn in Em; injection Em as <-); cbn [a_part pt_field]; change (String.eqb "u" "s") with false; cbn match; apply u_row_field; lia || reflexivity.
  - change (String.eqb "s" "s") with true in Em. cbn match in Em.
    destruct i as [|[|[|[|i]]]]; [| | | |destruct i; discriminate]; cbn in Ep; injection Ep as <-; cbn in Em; injection Em as <-; cbn [a_part pt_field pt_ids]; change (String.eqb "s" "s") with true; cbn match; apply two_local; reflexivity.
Qed.
(** A frame was appended, but not written.  Reading a local field from it throws in
    the processes that have pixels of it; the other one waits for them for ever.  The
    same happens if a local field is written to a file that was opened for reading. *)
Definition first_ops : list (op Z) := [Create four_parts mem_4 (fun _ _ => 77) (fun _ _ => 99); AppendFrame; Write 0 ["u"; "s"]]%string.
Definition hangs (ops : list (op Z)) : Prop :=
  (exists s known, run a_plan anything no_session [] ops s known) /\
  exists c, steps (processes 4 ops) c /\ stuck c /\
    exists outs, shape c = [Some (outs ++ [Err FileIOError]); Some (outs ++ [Err FileIOError]); None; Some (outs ++ [Err FileIOError])].
Theorem C140_waits_refuted :
  hangs (first_ops ++ [AppendFrame; Read 1 ["s"]]%string) /\
  hangs (first_ops ++ [Reopen false four_parts mem_4; Read 0 ["s"]; Write 0 ["s"]]%string).
Proof.
  pose proof four_parts_fit as F. pose proof four_parts_sized as S.
  assert (W0 : forall names, (forall n, In n names -> n = "u" \/ n = "s")%string -> forall s, se_mode s = Creating -> allowed (A := Z) a_plan [] s (Write 0 names)) by (intros names H s EM; split; [now apply names_plan|intros E; congruence]).
  split; (split; [|match goal with |- context [processes 4 ?o] => exists (execute 1000 (processes 4 o)) end; split; [apply execute_steps|split]]).
  - do 2 eexists. cbn [first_ops app]. eapply run_step; [split; assumption|exact I|apply surjective_pairing|]. eapply run_step; [exact I|exact I|apply surjective_pairing|].
    eapply run_step; [apply W0; [cbn; intuition|vm_compute; reflexivity]|exact I|apply surjective_pairing|]. match goal with |- run _ _ _ ?k _ _ _ => replace k with ["px"]%string by (vm_compute; reflexivity) end.
    eapply run_step; [exact I|exact I|apply surjective_pairing|].
    eapply run_step; [split; [apply names_plan; cbn; intuition|apply known_plan; cbn; auto]|exact I|apply surjective_pairing|]. apply run_end.
  - apply (idle_stuck _ [Ok tt; Ok tt; Ok tt; Ok tt; Err FileIOError]); [vm_compute; reflexivity|vm_compute; auto].
  - exists [Ok tt; Ok tt; Ok tt; Ok tt]. vm_compute. reflexivity.
  - do 2 eexists. cbn [first_ops app]. eapply run_step; [split; assumption|exact I|apply surjective_pairing|]. eapply run_step; [exact I|exact I|apply surjective_pairing|].
    eapply run_step; [apply W0; [cbn; intuition|vm_compute; reflexivity]|exact I|apply surjective_pairing|]. match goal with |- run _ _ _ ?k _ _ _ => replace k with ["px"]%string by (vm_compute; reflexivity) end.
    eapply run_step; [split; assumption|exact I|apply surjective_pairing|].
    eapply run_step; [split; [apply names_plan; cbn; intuition|apply known_plan; cbn; auto]|exact I|apply surjective_pairing|].
    eapply run_step; [split; [apply names_plan; cbn; intuition|intros EM; exfalso; revert EM; vm_compute; discriminate]|exact I|apply surjective_pairing|]. apply run_end.
  - apply (idle_stuck _ [Ok tt; Ok tt; Ok tt; Ok tt; Ok tt; Err FileIOError]); [vm_compute; reflexivity|vm_compute; auto].
  - exists [Ok tt; Ok tt; Ok tt; Ok tt; Ok tt]. vm_compute. reflexivity.
Qed.
Print Assumptions C140_waits_refuted.

(** Frame -2 of a file with one frame: reading a field of a global collection throws,
    and the program can go on.  Reading a local field throws, too, but from then on no
    field of a global collection can be written or read until the file is opened again. *)
Definition after_failure (name : string) : list (res unit) :=
  match shape (execute 1000 (processes 2 ([Create two_parts mem_a (fun _ _ => 77) (fun _ _ => 99); AppendFrame; Write 0 ["u"; "s"];
                                             Read (-2) [name]; Write 0 ["u"]; Read 0 ["u"]; Reopen true two_parts mem_a; Read 0 ["u"]]%string))) with
  | [Some a; Some b] => a
  | _ => []
  end.
Theorem C140_refuses_refuted :
  after_failure "u" = [Ok tt; Ok tt; Ok tt; Err FileIOError; Ok tt; Ok tt; Ok tt; Ok tt] /\
  after_failure "s" = [Ok tt; Ok tt; Ok tt; Err FileIOError; Err FileIOError; Err FileIOError; Ok tt; Ok tt].
Proof. vm_compute. auto. Qed.
Print Assumptions C140_refuses_refuted.

(** ** C141 *)

(** A file that was opened for reading: writing a field of a global collection is
    refused, as is writing a local field of a collection of which something was read
    before.  If nothing of it was read, writing a local field reports success, although
    the file keeps its contents. *)
Definition opened_again : list (op Z) :=
  [Create two_parts mem_a (fun _ _ => 77) (fun _ _ => 99); AppendFrame; Write 0 ["u"; "s"]; Reopen false two_parts mem_b]%string.
Definition write_u : op Z := Write 0 ["u"%string].
Definition write_s : op Z := Write 0 ["s"%string].
Definition read_s : op Z := Read 0 ["s"%string].
Theorem C141_silent_refuted :
  let s := exec no_session opened_again in
  snd (SessionModel.step s write_u) = Err FileIOError /\
  snd (SessionModel.step (fst (SessionModel.step s read_s)) write_s) = Err FileIOError /\
  snd (SessionModel.step s write_s) = Ok tt /\
  se_file (fst (SessionModel.step s write_s)) = se_file s /\
  shape (execute 1000 (processes 2 (opened_again ++ [write_s]))) = repeat (Some (repeat (Ok tt) 5)) 2.
Proof. cbv zeta. split; [vm_compute; reflexivity|]. split; [vm_compute; reflexivity|]. split; [vm_compute; reflexivity|]. split; vm_compute; reflexivity. Qed.
Print Assumptions C141_silent_refuted.
